(** C36-C40, C73-C75: gradient application.  Every theorem is for all thresholds, pools
    of threads and interleavings of the loops run in parallel. *)
From Coq Require Import Reals Lra Lia.
From Verif Require Import Base BaseLemmas Workers_Model Workers_Spec Kern_Model Kern_Spec Kern_Proofs
  IdxMax_Model IdxMax_Spec Act_Spec Sfm_Spec Priv_Model Norm_Model Norm_Spec
  Opt_Model Opt_Spec Opt_Ema Opt_Proofs Opt_Proofs2 Opt_Proofs3 Opt_Proofs4 Opt_Proofs5.
Local Open Scope R_scope.

(** ** For the examples: a 2 x 3 matrix, two worker threads, a learning rate, momentum
    and a gradient that change *)
Definition ex_env : env := mkE [mkR 0 0 1; mkR 0 0 2] (fun _ => 5%nat) 3 3 3 3 (mkNT 0 0 1 100 0 0 100 0) (repeat 0 6).
Definition ex_cfg (ty : gtype) (mom nest : bool) : cfg := mkCfg ty (9/10) (99/100) (1/1000) mom nest 1 true None None 2 3.
Definition ex_t (lr mu : R) (b : bool) : tstep := mkT lr mu b (repeat 0 6) (repeat (1/2) 6) (fun w => vscale lr w).
Definition ex_w : list R := [1; -2; 3; 0; 5; 7].
Definition ex_s (gamma : R) : st := gw_init ex_w (mkC 9 9 9 9 9 9 9 9 9) 8 8 gamma.
Definition ex_tg (lr : R) (g : list R) : tstep := mkT lr 1 false (repeat 0 6) (repeat (1/2) 6) (fun _ => g).
Lemma ex_ok ty mom nest : cfg_ok ex_env (ex_cfg ty mom nest) (1/2).
Proof. unfold cfg_ok. split; [destruct ty; cbn; lra|]. split; [cbn; lia|]. split; [reflexivity|]. discriminate. Qed.
Lemma ex_started ty mom nest : started (ex_cfg ty mom nest) (1/2) (ex_s (1/2)).
Proof. repeat split. Qed.
Lemma ex_step o lr mu b : o_rows o = 2%nat -> o_cols o = 3%nat -> step_ok o (ex_t lr mu b).
Proof. intros H1 H2. unfold step_ok. rewrite H1, H2. cbn. repeat split. intros w Hw. unfold vscale. rewrite map_length. exact Hw. Qed.

(** ** C37 *)
(** Whatever the matrices and powers hold at the start, after a sequence of steps with
    gradients [gs] they hold the closed forms. *)
Theorem C37_state : forall e o gamma ts gs s, cfg_ok e o gamma -> started o gamma s ->
  Forall (step_ok o) ts -> with_grads ts gs -> ts <> [] ->
  train e o ts s (fun s' => let a := algo_of o gamma in
    (forall p, pow1 a (length gs) = Some p -> s_b1t s' = p) /\
    (forall p, pow2 a (length gs) = Some p -> s_b2t s' = p) /\
    length (s_cells s') = length (s_cells s) /\
    forall i c, bget (s_cells s') i = Some c ->
      (hasA a = true -> cA c = accA a (hist i gs)) /\ (hasB a = true -> cB c = accB a (hist i gs))).
Proof.
  intros e o gamma ts gs s Hcfg Hst Hs Hg Hne. pose proof Hst as (Hl & _).
  eapply state_ok with (gs0 := []); [exact Hcfg|exact Hl|apply started_tracked, Hst|exact Hs|exact Hg|].
  intros s' L' (_ & _ & _ & _ & T). destruct T as (T1 & T2 & T3); [inversion Hg; subst; [congruence|discriminate]|].
  cbv zeta. split; [exact T1|]. split; [exact T2|]. split; [congruence|]. exact T3.
Qed.
Print Assumptions C37_state.

Example C37_state_ex : cfg_ok ex_env (ex_cfg Nadam true true) (1/2) /\ started (ex_cfg Nadam true true) (1/2) (ex_s (1/2)) /\
  Forall (step_ok (ex_cfg Nadam true true)) [ex_tg 1 [1;2;3;4;5;6]; ex_tg 2 [0;-1;0;0;7;8]] /\
  with_grads [ex_tg 1 [1;2;3;4;5;6]; ex_tg 2 [0;-1;0;0;7;8]] [[1;2;3;4;5;6]; [0;-1;0;0;7;8]].
Proof. split; [apply ex_ok|]. split; [apply ex_started|]. split; [repeat constructor|]. repeat constructor. Qed.

(** Without momentum, individual rates, dropout of updates and max-norm the weights
    move by the published updates; the gradients may depend on the weights. *)
Theorem C37_weights : forall e o gamma ts s, cfg_ok e o gamma -> started o gamma s -> simple o -> o_mom o = false ->
  Forall (step_ok o) ts -> Forall (fun t => t_blocked t = false) ts ->
  train e o ts s (fun s' => weights s' = j_w (fold_left (plain_step (algo_of o gamma)) ts (mkJ (weights s) [] []))).
Proof.
  intros e o gamma ts s Hcfg Hst Hsi Hm Hs Hb. pose proof Hst as (Hl & _).
  eapply simple_train with (x := mkJ (weights s) (vscale (-1) (velocities s)) []); [exact Hcfg|exact Hsi|exact Hs|exact Hb| |].
  - split; [exact Hl|]. split; [apply started_tracked, Hst|]. split; [reflexivity|]. cbn [j_v].
    unfold vscale. rewrite map_map. rewrite <- map_id. apply map_ext. intros; ring.
  - rewrite Hm. intros s' (_ & _ & HW & _). rewrite <- HW.
    assert (G : forall ts x y, j_w x = j_w y -> j_gs x = j_gs y ->
      j_w (fold_left (plain_step (algo_of o gamma)) ts x) = j_w (fold_left (plain_step (algo_of o gamma)) ts y)).
    { clear. induction ts as [|t ts IH]; intros x y H1 H2; cbn [fold_left]; [exact H1|]. apply IH; unfold plain_step; cbn; rewrite H1, H2; reflexivity. }
    apply G; reflexivity.
Qed.
Print Assumptions C37_weights.

Example C37_weights_ex : cfg_ok ex_env (ex_cfg Radam false false) (1/2) /\ started (ex_cfg Radam false false) (1/2) (ex_s (1/2)) /\
  simple (ex_cfg Radam false false) /\ Forall (step_ok (ex_cfg Radam false false)) [ex_t 1 0 false; ex_t 2 0 false].
Proof. split; [apply ex_ok|]. split; [apply ex_started|]. split; [repeat split|]. repeat constructor; apply ex_step; reflexivity. Qed.

(** ** C36 *)
(** [j_v] is the velocity of the textbooks; the code keeps its negation. *)
Theorem C36_classical : forall e o gamma ts s, cfg_ok e o gamma -> started o gamma s -> simple o -> o_mom o = true -> o_nest o = false ->
  Forall (step_ok o) ts -> Forall (fun t => t_blocked t = false) ts -> Forall (fun x => x = 0) (velocities s) ->
  train e o ts s (fun s' => let x := fold_left (polyak_step (algo_of o gamma)) ts (mkJ (weights s) (velocities s) []) in
    weights s' = j_w x /\ velocities s' = vscale (-1) (j_v x)).
Proof.
  intros e o gamma ts s Hcfg Hst Hsi Hm Hn Hs Hb Hz. pose proof Hst as (Hl & _).
  eapply simple_train with (x := mkJ (weights s) (velocities s) []); [exact Hcfg|exact Hsi|exact Hs|exact Hb| |].
  - split; [exact Hl|]. split; [apply started_tracked, Hst|]. split; [reflexivity|]. cbn [j_v].
    unfold vscale. clear - Hz. induction Hz as [|x l -> H IH]; cbn; [reflexivity|]. rewrite IH. f_equal. ring.
  - rewrite Hm, Hn. intros s' (_ & _ & HW & HV). split; congruence.
Qed.
Print Assumptions C36_classical.

Theorem C36_nesterov : forall e o gamma ts s, cfg_ok e o gamma -> started o gamma s -> simple o -> o_mom o = true -> o_nest o = true ->
  Forall (step_ok o) ts -> Forall (fun t => t_blocked t = false) ts -> Forall (fun x => x = 0) (velocities s) ->
  train e o ts s (fun s' => let x := fold_left (nesterov_step (algo_of o gamma)) ts (mkJ (weights s) (velocities s) []) in
    weights s' = j_w x /\ velocities s' = vscale (-1) (j_v x)).
Proof.
  intros e o gamma ts s Hcfg Hst Hsi Hm Hn Hs Hb Hz. pose proof Hst as (Hl & _).
  eapply simple_train with (x := mkJ (weights s) (velocities s) []); [exact Hcfg|exact Hsi|exact Hs|exact Hb| |].
  - split; [exact Hl|]. split; [apply started_tracked, Hst|]. split; [reflexivity|]. cbn [j_v].
    unfold vscale. clear - Hz. induction Hz as [|x l -> H IH]; cbn; [reflexivity|]. rewrite IH. f_equal. ring.
  - rewrite Hm, Hn. intros s' (_ & _ & HW & HV). split; congruence.
Qed.
Print Assumptions C36_nesterov.

(* and the state gw_init makes has zero velocities *)
Example C36_ex : cfg_ok ex_env (ex_cfg Adam true true) (1/2) /\ started (ex_cfg Adam true true) (1/2) (ex_s (1/2)) /\
  simple (ex_cfg Adam true true) /\ Forall (step_ok (ex_cfg Adam true true)) [ex_t 1 (1/2) false; ex_t 2 (1/3) false] /\
  Forall (fun x => x = 0) (velocities (ex_s (1/2))).
Proof.
  split; [apply ex_ok|]. split; [apply ex_started|]. split; [repeat split|].
  split; [repeat constructor; apply ex_step; reflexivity|]. repeat constructor.
Qed.

(** ** C38 *)
(** No operation on the way is undefined: neither a division by zero, nor a root of a
    negative number, nor an access out of the matrices. *)
Theorem C38_defined : forall e o gamma ts s, cfg_ok e o gamma -> started o gamma s -> Forall (step_ok o) ts ->
  train e o ts s (fun s' => length (s_cells s') = length (s_cells s)).
Proof. intros e o gamma ts s Hcfg. exact (defined_ok e o gamma Hcfg ts s). Qed.
Print Assumptions C38_defined.

Example C38_defined_ex : cfg_ok ex_env (ex_cfg RMSProp_Graves true false) (1/2) /\ started (ex_cfg RMSProp_Graves true false) (1/2) (ex_s (1/2)) /\
  Forall (step_ok (ex_cfg RMSProp_Graves true false)) [ex_t 0 (1/2) false; ex_t 2 (1/3) true; ex_t (-1) 0 false].
Proof. split; [apply ex_ok|]. split; [apply ex_started|]. repeat constructor; apply ex_step; reflexivity. Qed.

(** ** C75: numeric_stabilizer(0), which the setter admits *)
Definition z_env : env := mkE [] (fun _ => 100%nat) 100 0 0 0 (mkNT 0 0 1 100 0 0 100 0) [].
Definition z_cfg : cfg := mkCfg AdaMax (1/2) (1/2) 0 false false 1 true None None 1 1.
Definition z_t : tstep := mkT 1 0 false [0] [0] (fun _ => [0]).
Lemma z_none c : cA c = 0 -> cB c = 0 -> cD c = 0 -> f_adamax (1 * (1/2)) 1 (1/2) (1/2) 0 c = None.
Proof.
  intros H1 H2 H3. unfold f_adamax, rdiv. rewrite H2, H3. destruct (Req_EM_T (1 - 1 * (1 / 2)) 0); [lra|]. cbn [obind].
  rewrite Rabs_R0, Rmult_0_r. rewrite Rmax_left by lra. destruct (Req_EM_T (0 + 0) 0); [reflexivity|lra].
Qed.
Theorem C75_zero_stabilizer_refuted : exists e o ts s, o_eps o = 0 /\ 0 < o_b1 o < 1 /\ 0 < o_b2 o < 1 /\
  started o (s_gamma s) s /\ Forall (step_ok o) ts /\ ~ train e o ts s (fun _ => True).
Proof.
  exists z_env, z_cfg, [z_t], (gw_init [1] (mkC 9 9 9 9 9 9 9 9 9) 8 8 0).
  split; [reflexivity|]. split; [cbn; lra|]. split; [cbn; lra|]. split; [repeat split|]. split; [repeat constructor|].
  unfold train, step, pre_training_fprop. cbn [negb andb o_mom o_nest t_blocked z_cfg z_t].
  unfold apply_grad. cbn [t_blocked z_t]. unfold opt_stage. cbn [o_type z_cfg].
  unfold kcall_bt, pcall. intros (trs & E & _). revert E.
  cbn -[f_adamax whole]. unfold whole, ppar. cbn -[f_adamax]. unfold each, mfor. cbn -[f_adamax].
  unfold mseq at 1. cbn -[f_adamax]. rewrite z_none by reflexivity. discriminate.
Qed.
Print Assumptions C75_zero_stabilizer_refuted.

(** ** C39 *)
(** The bound holds for every step after the first. *)
Theorem C39_rmsprop_partial : forall e o gamma ts t s, cfg_ok e o gamma -> started o gamma s -> simple o -> o_mom o = false -> o_type o = RMSProp_Hinton ->
  Forall (step_ok o) ts -> step_ok o t -> t_blocked t = false -> (exists t0, In t0 ts /\ t_blocked t0 = false) ->
  train e o ts s (fun s1 => step e o t s1 (fun s2 => forall i c1 c2, bget (s_cells s1) i = Some c1 -> bget (s_cells s2) i = Some c2 ->
    Rabs (cW c1 - cW c2) <= Rabs (t_lr t) / sqrt (1 - o_b1 o))).
Proof. exact rmsprop_next. Qed.
Print Assumptions C39_rmsprop_partial.
Theorem C39_rprop : forall e o gamma ts t s, cfg_ok e o gamma -> started o gamma s -> simple o -> o_mom o = false -> o_type o = RProp ->
  Forall (step_ok o) ts -> step_ok o t -> t_blocked t = false ->
  train e o ts s (fun s1 => step e o t s1 (fun s2 => forall i c1 c2, bget (s_cells s1) i = Some c1 -> bget (s_cells s2) i = Some c2 ->
    cW c2 = cW c1 \/ Rabs (cW c1 - cW c2) = Rabs (t_lr t))).
Proof. exact rprop_next. Qed.
Print Assumptions C39_rprop.
Theorem C39_adamax : forall e o gamma ts gs s, cfg_ok e o gamma -> started o gamma s -> o_type o = AdaMax ->
  Forall (step_ok o) ts -> with_grads ts gs -> ts <> [] ->
  train e o ts s (fun s' => forall i c, bget (s_cells s') i = Some c ->
    forall j, (j < length gs)%nat -> o_b2 o ^ (length gs - 1 - j) * Rabs (nth i (nth j gs []) 0) <= cB c).
Proof. exact adamax_dominates. Qed.
Print Assumptions C39_adamax.

Example C39_ex : forall ty, cfg_ok ex_env (ex_cfg ty false false) (1/2) /\ started (ex_cfg ty false false) (1/2) (ex_s (1/2)) /\ simple (ex_cfg ty false false) /\
  Forall (step_ok (ex_cfg ty false false)) [ex_t 1 0 false] /\ step_ok (ex_cfg ty false false) (ex_t 2 0 false).
Proof.
  intros ty. split; [apply ex_ok|]. split; [apply ex_started|]. split; [repeat split|].
  split; [repeat constructor|]; apply ex_step; reflexivity.
Qed.

(** The first step of RMSProp is the plain one: with decay 9/10, learning rate 1 and
    gradient 100 the weight moves by 100. *)
Theorem C39_rmsprop_first_refuted : exists e o t s, cfg_ok e o 0 /\ started o 0 s /\ simple o /\ o_mom o = false /\ o_type o = RMSProp_Hinton /\
  step_ok o t /\ t_blocked t = false /\
  step e o t s (fun s2 => exists c1 c2, bget (s_cells s) 0 = Some c1 /\ bget (s_cells s2) 0 = Some c2 /\
    Rabs (cW c1 - cW c2) > Rabs (t_lr t) / sqrt (1 - o_b1 o)).
Proof.
  set (o := mkCfg RMSProp_Hinton (9/10) (9/10) (1/1000) false false 1 true None None 1 1).
  set (t := mkT 1 0 false [0] [0] (fun _ => [100])).
  set (s := gw_init [0] (mkC 9 9 9 9 9 9 9 9 9) 8 8 0).
  assert (Hcfg : cfg_ok z_env o 0) by (split; [cbn; lra|split; [cbn; lia|split; [reflexivity|discriminate]]]).
  assert (Hst : started o 0 s) by (repeat split).
  assert (Hsi : simple o) by (repeat split).
  assert (Ht : step_ok o t) by (repeat split).
  exists z_env, o, t, s. do 7 (split; [try assumption; reflexivity|]).
  eapply step_ok_ with (gs := []); [exact Hcfg|exact Ht|reflexivity|reflexivity|apply started_tracked, Hst|]. cbv zeta.
  intros s1 s' E1 L' T' _ R'. assert (Hi : (0 < length (s_cells s'))%nat) by (rewrite L'; cbn; lia).
  destruct (at_ex _ _ Hi) as (c2 & Hc2). destruct (step_at_ o 0 _ t s s1 s' E1 L' R' 0%nat c2 Hc2) as (c & c1 & Hc & Hc1 & (_ & HR) & HA).
  cbn [negb andb t_blocked t o_mom o] in HR. destruct HR as [_ HW]. destruct (simple_rel _ _ _ _ _ _ _ _ Hsi HA) as (HS & _). destruct (HS eq_refl) as [_ HW2].
  exists c, c2. split; [exact Hc|]. split; [exact Hc2|].
  cbn in HW2. replace (cW c - cW c2) with (1 * 100) by lra. cbn [t_lr t o_b1 o].
  rewrite Rabs_right by lra. rewrite Rabs_R1. replace (1 - 9/10) with (1/10) by lra.
  assert (sqrt (1/10) > 1/4). { rewrite <- (sqrt_Rsqr (1/4)) by lra. apply sqrt_lt_1_alt. unfold Rsqr. lra. }
  assert (/ sqrt (1/10) < / (1/4)) by (apply Rinv_lt_contravar; [apply Rmult_lt_0_compat; lra|lra]). unfold Rdiv at 1. rewrite Rmult_1_l. lra.
Qed.
Print Assumptions C39_rmsprop_first_refuted.

(** ** C40 *)
(** The gains overshoot the caps by at most one multiplication. *)
Theorem C40_gains_partial : forall e o gamma k tm ts s, cfg_ok e o gamma -> started o gamma s -> Forall (step_ok o) ts ->
  o_ilr o = Some (k, tm) -> ilr_ok_ k -> (forall i c, bget (s_cells s) i = Some c -> i_lo k <= cG c <= i_hi k) ->
  train e o ts s (fun s' => forall i c, bget (s_cells s') i = Some c -> i_lo k * i_decr k < cG c < i_hi k * i_incr k).
Proof. exact gains_bounded. Qed.
Print Assumptions C40_gains_partial.
(** Exactly: the gain of a weight after updates [us] of the optimizer (signs compared
    with the last gradient, not the velocity). *)
Theorem C40_gains_rule : forall e o gamma k tm ts gs s, cfg_ok e o gamma -> started o gamma s -> Forall (step_ok o) ts -> with_grads ts gs ->
  o_ilr o = Some (k, tm) -> ilr_ok_ k -> i_lo k <= 1 <= i_hi k -> (o_mom o && tm)%bool = false ->
  (forall i c, bget (s_cells s) i = Some c -> cG c = 1) ->
  train e o ts s (fun s' => forall i c, bget (s_cells s') i = Some c ->
    cG c = gain_of k (upd_seq (algo_of o gamma) (map t_lr ts) gs i)).
Proof.
  intros e o gamma k tm ts gs s Hcfg Hst Hs Hg Ei Hk H1 Hv H0. pose proof Hst as (Hl & _).
  eapply gains_rule with (lrs := []) (gs0 := []) (k := k); try eassumption.
  - apply started_tracked, Hst.
  - split; [reflexivity|]. intros i c Hc us. rewrite (H0 i c Hc). split; [reflexivity|]. split; [|intros H; exfalso; apply H; reflexivity].
    apply cap_in; assumption.
  - intros s' _ (_ & HI) i c Hc. destruct (HI i c Hc) as (H & _). exact H.
Qed.
Print Assumptions C40_gains_rule.

Definition ex_ilr : cfg := mkCfg ClassicalConstant (9/10) (9/10) (1/1000) true false 1 true None (Some (mkI (1/2) (3/2) (1/10) (5/4), false)) 2 3.
Example C40_ex : cfg_ok ex_env ex_ilr (1/2) /\ started ex_ilr (1/2) (ex_s (1/2)) /\ Forall (step_ok ex_ilr) [ex_t 1 0 false; ex_t 2 1 true; ex_t 1 1 false] /\
  ilr_ok_ (mkI (1/2) (3/2) (1/10) (5/4)) /\ (forall i c, bget (s_cells (ex_s (1/2))) i = Some c -> cG c = 1).
Proof.
  split; [split; [cbn; tauto|split; [cbn; lia|split; [reflexivity|discriminate]]]|]. split; [repeat split|].
  split; [repeat constructor; apply ex_step; reflexivity|]. split; [unfold ilr_ok_; cbn; lra|].
  intros i c Hc. do 6 (destruct i as [|i]; [cbn in Hc; inversion Hc; reflexivity|]). destruct i; discriminate.
Qed.

(** Two steps with the same gradient take the gain from 1 to 3/2 over the cap 5/4. *)
Theorem C40_gains_refuted : exists e o k tm ts s, cfg_ok e o 0 /\ started o 0 s /\ Forall (step_ok o) ts /\
  o_ilr o = Some (k, tm) /\ ilr_ok_ k /\ (forall i c, bget (s_cells s) i = Some c -> i_lo k <= cG c <= i_hi k) /\
  train e o ts s (fun s' => exists c, bget (s_cells s') 0 = Some c /\ i_hi k < cG c).
Proof.
  set (k := mkI (1/2) (3/2) (1/10) (5/4)).
  set (o := mkCfg ClassicalConstant (9/10) (9/10) (1/1000) false false 1 true None (Some (k, false)) 1 1).
  set (t := mkT 1 0 false [0] [0] (fun _ => [1])).
  set (s := gw_init [0] (mkC 9 9 9 9 9 9 9 9 9) 8 8 0).
  assert (Hcfg : cfg_ok z_env o 0) by (split; [cbn; tauto|split; [cbn; lia|split; [reflexivity|discriminate]]]).
  assert (Hk : ilr_ok_ k) by (unfold ilr_ok_; cbn; lra).
  exists z_env, o, k, false, [t; t], s. split; [exact Hcfg|]. split; [repeat split|]. split; [repeat constructor|].
  split; [reflexivity|]. split; [exact Hk|]. split.
  { intros i c Hc. destruct i as [|i]; [inversion Hc; cbn; lra|destruct i; discriminate]. }
  eapply gains_rule with (o := o) (gamma := 0) (tm := false) (k := k) (lrs := []) (gs0 := []) (gs := [[1]; [1]]); try reflexivity; try assumption.
  - apply started_tracked. repeat split.
  - split; [reflexivity|]. intros i c Hc us. destruct i as [|i]; [|destruct i; discriminate]. inversion Hc; subst c. cbn [cG upW upV upG].
    split; [reflexivity|]. split; [unfold gain_in; cbn; lra|]. intros H. exfalso. apply H. reflexivity.
  - repeat constructor.
  - repeat constructor.
  - intros s' L' (_ & HI). assert (Hi : (0 < length (s_cells s'))%nat) by (rewrite L'; cbn; lia). destruct (at_ex _ _ Hi) as (c & Hc).
    exists c. split; [exact Hc|]. destruct (HI 0%nat c Hc) as (-> & _).
    unfold upd_seq, gain_of. cbn. unfold regain. cbn. destruct (Rlt_dec 0 (1 * 1 * (1 * 1))); [|lra]. destruct (Rlt_dec 1 (5/4)); lra.
Qed.
Print Assumptions C40_gains_refuted.

(** ** C73: max-norm during training *)
Theorem C73_max_norm_kept : forall e o gamma ts t s, cfg_ok e o gamma -> started o gamma s ->
  Forall (step_ok o) ts -> step_ok o t -> t_blocked t = false ->
  train e o ts s (fun s1 => step e o t s1 (fun s2 => forall mx incl, o_maxn o = Some (mx, incl) ->
    forall r, (r < o_rows o)%nat -> row_norm2 (o_rows o) (if incl then o_cols o else o_cols o - 1)%nat (weights s2) r <= mx)).
Proof. exact next_bounded. Qed.
Print Assumptions C73_max_norm_kept.

Definition ex_mx : cfg := mkCfg Adam (9/10) (99/100) (1/1000) true true 1 true (Some (4, false)) None 2 3.
Example C73_max_norm_kept_ex : cfg_ok ex_env ex_mx (1/2) /\ started ex_mx (1/2) (ex_s (1/2)) /\ Forall (step_ok ex_mx) [ex_t 1 0 false; ex_t 2 1 true].
Proof.
  split; [|split; [repeat split|repeat constructor; apply ex_step; reflexivity]].
  split; [cbn; lra|split; [cbn; lia|split; [reflexivity|]]]. intros mx incl E. inversion E; subst. intros w Hw.
  unfold norm_ready. cbn in *. repeat split; try lia; try lra.
Qed.

(** ** C74: dropout of updates (without Nesterov momentum and max-norm) *)
Theorem C74_dropped_updates : forall e o gamma ts t s, cfg_ok e o gamma -> started o gamma s -> Forall (step_ok o) ts -> step_ok o t -> t_blocked t = false ->
  o_maxn o = None -> (o_mom o && o_nest o)%bool = false -> o_lrd o < 1 ->
  train e o ts s (fun s1 => step e o t s1 (fun s2 => forall i c1 c2, bget (s_cells s1) i = Some c1 -> bget (s_cells s2) i = Some c2 ->
    (o_lrd o <= nth i (t_mask2 t) 0 -> cW c2 = cW c1) /\
    (nth i (t_mask2 t) 0 < o_lrd o -> o_mom o = true -> cW c2 = cW c1 - cV c2) /\
    (nth i (t_mask2 t) 0 < o_lrd o -> o_mom o = false -> o_ilr o = None -> exists l, length l = (length (filter active ts) + 1)%nat /\
       cW c2 = cW c1 - update (algo_of o gamma) (t_lr t) l))).
Proof. exact dropped_stays. Qed.
Print Assumptions C74_dropped_updates.

Definition ex_ld : cfg := mkCfg Adam (9/10) (99/100) (1/1000) true false (1/3) true None None 2 3.
Example C74_dropped_updates_ex : cfg_ok ex_env ex_ld (1/2) /\ started ex_ld (1/2) (ex_s (1/2)) /\ Forall (step_ok ex_ld) [ex_t 1 0 false; ex_t 2 1 true] /\ o_lrd ex_ld < 1.
Proof.
  split; [split; [cbn; lra|split; [cbn; lia|split; [reflexivity|discriminate]]]|]. split; [repeat split|].
  split; [repeat constructor; apply ex_step; reflexivity|cbn; lra].
Qed.
