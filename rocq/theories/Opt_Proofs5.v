(** Bounds on updates and gains. *)
From Coq Require Import Reals Lra Lia.
From Verif Require Import Base BaseLemmas Workers_Model Workers_Spec Kern_Model Kern_Spec Kern_Proofs
  IdxMax_Model IdxMax_Spec Act_Spec Norm_Model Norm_Spec
  Opt_Model Opt_Spec Opt_Ema Opt_Proofs Opt_Proofs2 Opt_Proofs3 Opt_Proofs4.
Local Open Scope R_scope.

Lemma ilr_mul_regain k x g : g * ilr_mul k x g = regain k x g.
Proof.
  unfold ilr_mul, regain, gtb. destruct (Rlt_dec 0 x), (Rlt_dec g (i_hi k)), (Rlt_dec x 0), (Rlt_dec (i_lo k) g); cbn; try lra; ring.
Qed.

Definition gain_in (k : ilr) (g : R) : Prop := i_lo k * i_decr k < g < i_hi k * i_incr k.
Lemma regain_in k x g : ilr_ok_ k -> gain_in k g -> gain_in k (regain k x g).
Proof.
  intros ((D1 & D2) & I1 & L1 & L2) (G1 & G2). unfold gain_in, regain.
  destruct (Rlt_dec 0 x); [destruct (Rlt_dec g (i_hi k))|destruct (Rlt_dec x 0); [destruct (Rlt_dec (i_lo k) g)|]]; try lra.
  - assert (0 < i_lo k * i_decr k) by (apply Rmult_lt_0_compat; lra). split; [|apply Rmult_lt_compat_r; lra]. apply Rlt_trans with g; [lra|]. rewrite <- (Rmult_1_r g) at 1. apply Rmult_lt_compat_l; lra.
  - split; [apply Rmult_lt_compat_r; lra|]. apply Rle_lt_trans with g; [|lra]. rewrite <- (Rmult_1_r g) at 2. apply Rmult_le_compat_l; lra.
Qed.
Lemma gain_in_pos k g : ilr_ok_ k -> gain_in k g -> 0 < g.
Proof. intros ((D1 & D2) & I1 & L1 & L2) (G1 & G2). assert (0 < i_lo k * i_decr k) by (apply Rmult_lt_0_compat; lra). lra. Qed.
Lemma cap_in k g : ilr_ok_ k -> i_lo k <= g <= i_hi k -> gain_in k g.
Proof.
  intros ((D1 & D2) & I1 & L1 & L2) [H1 H2]. split.
  - apply Rlt_le_trans with (i_lo k); [|exact H1]. rewrite <- (Rmult_1_r (i_lo k)) at 2. apply Rmult_lt_compat_l; lra.
  - apply Rle_lt_trans with (i_hi k); [exact H2|]. rewrite <- (Rmult_1_r (i_hi k)) at 1. apply Rmult_lt_compat_l; lra.
Qed.

Lemma apply_gain o first mu mask u i c c' k tm : o_ilr o = Some (k, tm) -> apply_rel o first mu mask u i c c' ->
  (if first then cG c' = cG c else exists x, cG c' = regain k x (cG c)) /\
  ((o_mom o && tm)%bool = false -> if first then cP c' = u i else cG c' = regain k (cP c * u i) (cG c) /\ cP c' = cG c' * u i).
Proof.
  intros Ei (c1 & c2 & c3 & W1 & V1 & G1 & P1 & D1 & HI & ((_ & _ & G3 & P3) & _) & (((_ & _ & G4 & P4) & _) & _)).
  unfold ilr_rel in HI. rewrite Ei in HI. cbv zeta in HI. destruct HI as (_ & _ & _ & _ & G2 & D2 & P2). rewrite G4, G3, P4, P3.
  destruct first.
  - split; [congruence|]. intros E. rewrite E in P2. congruence.
  - rewrite ilr_mul_regain in G2. split; [exists (prev (o_mom o && tm) c1 * cD c1); congruence|]. intros E. rewrite E in *. cbn [prev] in G2.
    split; [congruence|]. rewrite P2, D2, D1. ring.
Qed.

Lemma gains_bounded e o gamma k tm ts s : cfg_ok e o gamma -> started o gamma s -> Forall (step_ok o) ts ->
  o_ilr o = Some (k, tm) -> ilr_ok_ k -> (forall i c, bget (s_cells s) i = Some c -> i_lo k <= cG c <= i_hi k) ->
  train e o ts s (fun s' => forall i c, bget (s_cells s') i = Some c -> i_lo k * i_decr k < cG c < i_hi k * i_incr k).
Proof.
  intros Hcfg Hst Hs Ei Hk H0. pose proof Hst as (Hl & _).
  eapply train_inv with (gs := []) (I := fun s => forall i c, at_ s i c -> gain_in k (cG c)); [exact Hcfg|exact Hs|exact Hl|apply started_tracked, Hst| | | |].
  - intros i c Hc. apply cap_in; [exact Hk|]. exact (H0 i c Hc).
  - intros s0 L0 HI g Hg i c Hc.
    assert (Hz : evolves (fun i c c' => c' = upD c (nth i g 0)) s0 (zip upD s0 g)) by (apply evolves_zip; [lia|reflexivity]).
    destruct (evolves_inv _ _ _ _ _ Hz Hc) as (c0 & Hc0 & ->). exact (HI i c0 Hc0).
  - intros t gs g s0 s1 s' L0 L' HI E1 HA i c' Hc'. destruct (HA i c' Hc') as (c & c1 & Hc & Hc1 & ((_ & _ & G1 & _) & _) & HR).
    destruct (apply_gain _ _ _ _ _ _ _ _ _ _ Ei HR) as [HG _]. specialize (HI i c Hc).
    destruct (s_first s0); [rewrite HG, G1; exact HI|]. destruct HG as (x & ->). rewrite G1. apply regain_in; assumption.
  - intros gs' s' _ _ _ HI i c Hc. exact (HI i c Hc).
Qed.

(** ** Gains as a function of the updates *)
Lemma regain_scale k x y g : 0 < x -> regain k (x * y) g = regain k y g.
Proof.
  intros Hx. unfold regain.
  assert (A : 0 < x * y <-> 0 < y). { split; intros H; [apply (Rmult_lt_reg_l x); lra|apply Rmult_lt_0_compat; lra]. }
  assert (B : x * y < 0 <-> y < 0). { split; intros H; [apply (Rmult_lt_reg_l x); lra|]. apply Rlt_le_trans with (x * 0); [apply Rmult_lt_compat_l; lra|lra]. }
  destruct (Rlt_dec 0 (x * y)), (Rlt_dec 0 y), (Rlt_dec (x * y) 0), (Rlt_dec y 0); tauto || reflexivity.
Qed.

Lemma combine_tl_snoc (us : list R) v u : combine ((us ++ [v]) ++ [u]) (tl ((us ++ [v]) ++ [u])) = combine (us ++ [v]) (tl (us ++ [v])) ++ [(v, u)].
Proof.
  induction us as [|w us IH]; [reflexivity|]. cbn [app tl].
  destruct us as [|w2 us]; [reflexivity|]. cbn [app tl] in *. cbn [combine app] in *. f_equal. exact IH.
Qed.
Lemma gain_of_snoc k us v u : gain_of k ((us ++ [v]) ++ [u]) = regain k (v * u) (gain_of k (us ++ [v])).
Proof. unfold gain_of. rewrite combine_tl_snoc, fold_left_app. reflexivity. Qed.

Lemma upd_seq_snoc a lrs lr gs g i : length lrs = length gs ->
  upd_seq a (lrs ++ [lr]) (gs ++ [g]) i = upd_seq a lrs gs i ++ [update a lr (hist i (gs ++ [g]))].
Proof.
  intros Hl. unfold upd_seq. rewrite app_length, seq_app, map_app. cbn [length seq map Nat.add]. f_equal.
  - apply map_ext_in. intros k Hk. apply in_seq in Hk. rewrite app_nth1 by lia. rewrite firstn_app.
    replace (k + 1 - length gs)%nat with 0%nat by lia. cbn [firstn]. rewrite app_nil_r. reflexivity.
  - rewrite app_nth2, <- Hl, Nat.sub_diag by lia. cbn [nth]. rewrite firstn_all2 by (rewrite app_length; cbn; lia). reflexivity.
Qed.

Lemma gs_dec (gs : list (list R)) : gs = [] \/ gs <> [].
Proof. destruct gs; [left; reflexivity|right; discriminate]. Qed.

Section G.
Context (e : env) (o : cfg) (gamma : R) (k : ilr) (tm : bool).
Context (Hcfg : cfg_ok e o gamma) (Ei : o_ilr o = Some (k, tm)) (Hk : ilr_ok_ k) (Hv : (o_mom o && tm)%bool = false).
Let n := (o_rows o * o_cols o)%nat.
Let a := algo_of o gamma.

Definition gain_inv (lrs : list R) (gs : list (list R)) (s : st) : Prop :=
  length lrs = length gs /\ forall i c, at_ s i c -> let us := upd_seq a lrs gs i in
    cG c = gain_of k us /\ gain_in k (cG c) /\ (us <> [] -> exists f, 0 < f /\ cP c = f * last us 0).

Lemma gains_rule ts : forall gs s lrs gs0, length (s_cells s) = n -> tracked o gamma gs0 s -> gain_inv lrs gs0 s ->
  Forall (step_ok o) ts -> with_grads ts gs ->
  forall post : st -> Prop, (forall s', length (s_cells s') = n -> gain_inv (lrs ++ map t_lr ts) (gs0 ++ gs) s' -> post s') -> train e o ts s post.
Proof.
  induction ts as [|t ts IH]; intros gs s lrs gs0 Hl HT HI Hs Hg post HP; inversion Hg as [|? g ? gs1 [Hb Hg1] Hg2]; subst; cbn [train].
  - apply HP; [exact Hl|cbn; rewrite !app_nil_r; exact HI].
  - inversion Hs; subst. eapply step_ok_; [exact Hcfg|assumption|exact Hl|exact Hb|exact HT|]. cbv zeta. intros s1 s' E1 L' T' _ R'.
    pose proof (step_at_ o gamma _ t s s1 s' E1 L' R') as HA. rewrite Hg1 in T', HA. fold a in HA.
    eapply (IH gs1 s' (lrs ++ [t_lr t]) (gs0 ++ [g])); [lia|exact T'| |assumption|exact Hg2|].
    + destruct HI as [HL HI]. split; [rewrite !app_length; cbn; lia|]. intros i c' Hc' us.
      destruct (HA i c' Hc') as (c & c1 & Hc & Hc1 & ((_ & _ & G1 & P1) & _) & HR).
      destruct (apply_gain _ _ _ _ _ _ _ _ _ _ Ei HR) as [_ HG]. specialize (HG Hv). destruct (HI i c Hc) as (H1' & H2' & H3').
      set (u := update a (t_lr t) (hist i (gs0 ++ [g]))) in *.
      assert (Eu : us = upd_seq a lrs gs0 i ++ [u]) by (apply upd_seq_snoc; exact HL). rewrite Eu. rewrite last_last.
      destruct (gs_dec gs0) as [->|Hne].
      * destruct HT as (HF & _). rewrite (HF eq_refl) in HR, HG.
        destruct (apply_gain _ _ _ _ _ _ _ _ _ _ Ei HR) as [HG0 _].
        cbn [upd_seq length seq map app] in *. unfold upd_seq in H1'. cbn [length seq map] in H1'.
        rewrite HG0, G1. split; [exact H1'|]. split; [exact H2'|]. intros _. exists 1. split; [lra|]. rewrite HG. fold u. ring.
      * destruct HT as (_ & HF & _). rewrite (HF Hne) in HG. destruct HG as [HG HP'].
        assert (Hus : upd_seq a lrs gs0 i <> []). { intros E. apply (f_equal (@length R)) in E. unfold upd_seq in E. rewrite map_length, seq_length in E. destruct gs0; [congruence|discriminate]. }
        destruct (H3' Hus) as (f & Hf & Hp). destruct (exists_last Hus) as (us' & v & Ev). rewrite Ev in *. rewrite last_last in Hp.
        rewrite gain_of_snoc, <- H1'. assert (E : cG c' = regain k (v * u) (cG c)).
        { rewrite HG, G1, P1, Hp. fold u. rewrite Rmult_assoc. apply regain_scale, Hf. }
        split; [exact E|]. assert (Hin : gain_in k (cG c')) by (rewrite E; apply regain_in; assumption). split; [exact Hin|].
        intros _. exists (cG c'). split; [exact (gain_in_pos _ _ Hk Hin)|]. exact HP'.
    + intros s2 L2 I2. apply HP; [exact L2|]. cbn [map]. rewrite <- !app_assoc in I2. exact I2.
Qed.
End G.

(** ** Bounds on the updates *)
Lemma rmsprop_bound d eps lr l : 0 < d < 1 -> 0 < eps -> (2 <= length l)%nat ->
  Rabs (update (RMSprop d eps) lr l) <= Rabs lr / sqrt (1 - d).
Proof.
  intros Hd He Hl. unfold update. replace (Nat.eqb (length l) 1) with false by (symmetry; apply Nat.eqb_neq; lia).
  destruct (@exists_last _ l) as (l' & g & ->); [intros ->; cbn in Hl; lia|]. rewrite app_length in Hl. cbn in Hl. rewrite last_last.
  unfold sqs. rewrite map_app. cbn [map]. rewrite ema1_snoc by (destruct l'; [cbn in Hl; lia|discriminate]).
  set (q := ema1 d (map (fun x => x ^ 2) l')).
  assert (Hq : 0 <= q) by (apply ema1_pos; [lra|apply sqs_pos]).
  assert (S1 : 0 < sqrt (1 - d)) by (apply sqrt_lt_R0; lra).
  assert (S2 : sqrt (1 - d) * Rabs g <= sqrt (d * q + (1 - d) * g ^ 2)).
  { rewrite <- (sqrt_Rsqr_abs g), <- sqrt_mult_alt by lra. apply sqrt_le_1_alt. unfold Rsqr. assert (0 <= d * q) by (apply Rmult_le_pos; lra). lra. }
  set (D := sqrt (d * q + (1 - d) * g ^ 2)) in *. assert (0 <= D) by apply sqrt_pos.
  unfold Rdiv. rewrite !Rabs_mult, Rabs_inv. rewrite (Rabs_right (D + eps)) by lra. rewrite Rmult_assoc.
  apply Rmult_le_compat_l; [apply Rabs_pos|].
  apply (Rmult_le_reg_r (D + eps)); [lra|]. rewrite Rmult_assoc, Rinv_l, Rmult_1_r by lra.
  apply (Rmult_le_reg_l (sqrt (1 - d))); [lra|]. rewrite <- Rmult_assoc, Rinv_r by lra. lra.
Qed.

Lemma sign_bound x : sign_of x = 1 \/ sign_of x = -1 \/ sign_of x = 0.
Proof. unfold sign_of. destruct (Rlt_dec 0 x); [tauto|]. destruct (Rlt_dec x 0); tauto. Qed.

(** the difference of the weights made by the next step *)
Lemma next_update e o gamma ts t s (Q : R -> nat -> Prop) : cfg_ok e o gamma -> started o gamma s -> simple o -> o_mom o = false ->
  Forall (step_ok o) ts -> step_ok o t -> t_blocked t = false ->
  (forall l, (length l = length (filter active ts) + 1)%nat -> Q (update (algo_of o gamma) (t_lr t) l) (length l)) ->
  train e o ts s (fun s1 => step e o t s1 (fun s2 => forall i c1 c2, bget (s_cells s1) i = Some c1 -> bget (s_cells s2) i = Some c2 ->
    Q (cW c1 - cW c2) (length (filter active ts) + 1)%nat)).
Proof.
  intros Hcfg Hst Hsi Hm Hs Ht Hb HQ. pose proof Hst as (Hl & _).
  eapply train_inv with (gs := []) (I := fun _ => True); try tauto; try exact Hs; try exact Hl; [exact Hcfg|apply started_tracked, Hst|].
  intros gs' s1 Hlen L1 T1 _. cbn in Hlen. eapply step_ok_; [exact Hcfg|exact Ht|exact L1|exact Hb|exact T1|]. cbv zeta.
  intros s2 s' E1 L' T' _ R' i c1 c2 Hc1 Hc2.
  destruct (step_at_ o gamma _ t s1 s2 s' E1 L' R' i c2 Hc2) as (c & c' & Hc & Hc' & (_ & HR) & HA).
  rewrite Hm, Bool.andb_false_r in HR. destruct HR as [_ HW]. destruct (simple_rel _ _ _ _ _ _ _ _ Hsi HA) as (HS & _). destruct (HS Hm) as [_ HW2].
  unfold at_ in Hc. rewrite Hc1 in Hc. inversion Hc; subst c.
  set (l := hist i (gs' ++ [t_grad t (weights s2)])) in *. assert (Hll : length l = (length (filter active ts) + 1)%nat) by (unfold l; rewrite hist_len, app_length; cbn; lia).
  replace (cW c1 - cW c2) with (update (algo_of o gamma) (t_lr t) l) by lra. rewrite <- Hll. apply HQ. exact Hll.
Qed.

Lemma rmsprop_next e o gamma ts t s : cfg_ok e o gamma -> started o gamma s -> simple o -> o_mom o = false -> o_type o = RMSProp_Hinton ->
  Forall (step_ok o) ts -> step_ok o t -> t_blocked t = false -> (exists t0, In t0 ts /\ t_blocked t0 = false) ->
  train e o ts s (fun s1 => step e o t s1 (fun s2 => forall i c1 c2, bget (s_cells s1) i = Some c1 -> bget (s_cells s2) i = Some c2 ->
    Rabs (cW c1 - cW c2) <= Rabs (t_lr t) / sqrt (1 - o_b1 o))).
Proof.
  intros Hcfg Hst Hsi Hm Hty Hs Ht Hb (t0 & Hin & Hb0).
  apply next_update with (gamma := gamma) (Q := fun d _ => Rabs d <= Rabs (t_lr t) / sqrt (1 - o_b1 o)); try assumption.
  intros l Hl. unfold algo_of. rewrite Hty. pose proof Hcfg as (Ha & _). unfold algo_of in Ha. rewrite Hty in Ha. destruct Ha as [Hd He].
  apply rmsprop_bound; [exact Hd|exact He|]. assert (Hf : In t0 (filter active ts)) by (apply filter_In; unfold active; rewrite Hb0; tauto).
  destruct (filter active ts); [destruct Hf|]. cbn in Hl. lia.
Qed.

Lemma rprop_next e o gamma ts t s : cfg_ok e o gamma -> started o gamma s -> simple o -> o_mom o = false -> o_type o = RProp ->
  Forall (step_ok o) ts -> step_ok o t -> t_blocked t = false ->
  train e o ts s (fun s1 => step e o t s1 (fun s2 => forall i c1 c2, bget (s_cells s1) i = Some c1 -> bget (s_cells s2) i = Some c2 ->
    cW c2 = cW c1 \/ Rabs (cW c1 - cW c2) = Rabs (t_lr t))).
Proof.
  intros Hcfg Hst Hsi Hm Hty Hs Ht Hb.
  pose proof Hst as (Hl & _).
  eapply train_inv with (gs := []) (I := fun _ => True); try tauto; try exact Hs; try exact Hl; [exact Hcfg|apply started_tracked, Hst|].
  intros gs' s1 Hlen L1 T1 _. cbn in Hlen. eapply step_ok_; [exact Hcfg|exact Ht|exact L1|exact Hb|exact T1|]. cbv zeta.
  intros s2 s' E1 L' T' _ R' i c1 c2 Hc1 Hc2.
  destruct (step_at_ o gamma _ t s1 s2 s' E1 L' R' i c2 Hc2) as (c & c' & Hc & Hc' & (_ & HR) & HA).
  rewrite Hm, Bool.andb_false_r in HR. destruct HR as [_ HW]. destruct (simple_rel _ _ _ _ _ _ _ _ Hsi HA) as (HS & _). destruct (HS Hm) as [_ HW2].
  unfold at_ in Hc. rewrite Hc1 in Hc. inversion Hc; subst c. unfold algo_of in HW2. rewrite Hty in HW2. unfold update in HW2.
  destruct (sign_bound (last (hist i (gs' ++ [t_grad t (weights s2)])) 0)) as [E|[E|E]]; rewrite E in HW2.
  - right. replace (cW c1 - cW c2) with (t_lr t) by lra. reflexivity.
  - right. replace (cW c1 - cW c2) with (- t_lr t) by lra. apply Rabs_Ropp.
  - left. lra.
Qed.

Lemma adamax_dominates e o gamma ts gs s : cfg_ok e o gamma -> started o gamma s -> o_type o = AdaMax ->
  Forall (step_ok o) ts -> with_grads ts gs -> ts <> [] ->
  train e o ts s (fun s' => forall i c, bget (s_cells s') i = Some c ->
    forall j, (j < length gs)%nat -> o_b2 o ^ (length gs - 1 - j) * Rabs (nth i (nth j gs []) 0) <= cB c).
Proof.
  intros Hcfg Hst Hty Hs Hg Hne. pose proof Hst as (Hl & _).
  eapply state_ok with (gs0 := []); [exact Hcfg|exact Hl|apply started_tracked, Hst|exact Hs|exact Hg|].
  intros s' L' T' i c Hc j Hj. cbn [app] in T'. destruct T' as (_ & _ & _ & _ & T).
  destruct T as (_ & _ & T); [inversion Hg; subst; [congruence|discriminate]|]. destruct (T i c Hc) as [_ HB].
  unfold algo_of in HB. rewrite Hty in HB. rewrite (HB eq_refl). cbn [accB].
  pose proof (maxdisc_ge (o_b2 o) (hist i gs) j) as H. rewrite hist_len in H. specialize (H Hj).
  unfold hist in H at 1. erewrite nth_indep with (d' := (fun g : list R => nth i g 0) []) in H by (rewrite map_length; exact Hj).
  rewrite (map_nth (fun g : list R => nth i g 0)) in H. exact H.
Qed.

(** ** Max-norm and dropout of updates *)
Lemma next_bounded e o gamma ts t s : cfg_ok e o gamma -> started o gamma s -> Forall (step_ok o) ts -> step_ok o t -> t_blocked t = false ->
  train e o ts s (fun s1 => step e o t s1 (bounded o)).
Proof.
  intros Hcfg Hst Hs Ht Hb. pose proof Hst as (Hl & _).
  eapply train_inv with (gs := []) (I := fun _ => True); try tauto; try exact Hs; try exact Hl; [exact Hcfg|apply started_tracked, Hst|].
  intros gs' s1 _ L1 T1 _. eapply step_ok_; [exact Hcfg|exact Ht|exact L1|exact Hb|exact T1|]. cbv zeta. intros s2 s' _ _ _ HB _. exact HB.
Qed.

Lemma dropped_stays e o gamma ts t s : cfg_ok e o gamma -> started o gamma s -> Forall (step_ok o) ts -> step_ok o t -> t_blocked t = false ->
  o_maxn o = None -> (o_mom o && o_nest o)%bool = false -> o_lrd o < 1 ->
  train e o ts s (fun s1 => step e o t s1 (fun s2 => forall i c1 c2, bget (s_cells s1) i = Some c1 -> bget (s_cells s2) i = Some c2 ->
    (o_lrd o <= nth i (t_mask2 t) 0 -> cW c2 = cW c1) /\
    (nth i (t_mask2 t) 0 < o_lrd o -> o_mom o = true -> cW c2 = cW c1 - cV c2) /\
    (nth i (t_mask2 t) 0 < o_lrd o -> o_mom o = false -> o_ilr o = None -> exists l, length l = (length (filter active ts) + 1)%nat /\
       cW c2 = cW c1 - update (algo_of o gamma) (t_lr t) l))).
Proof.
  intros Hcfg Hst Hs Ht Hb Hmx Hn Hd. pose proof Hst as (Hl & _).
  eapply train_inv with (gs := []) (I := fun _ => True); try tauto; try exact Hs; try exact Hl; [exact Hcfg|apply started_tracked, Hst|].
  intros gs' s1 Hlen L1 T1 _. cbn in Hlen. eapply step_ok_; [exact Hcfg|exact Ht|exact L1|exact Hb|exact T1|]. cbv zeta.
  intros s2 s' E1 L' T' _ R' i c1 c2 Hc1 Hc2.
  destruct (step_at_ o gamma _ t s1 s2 s' E1 L' R' i c2 Hc2) as (c & c' & Hc & Hc' & (_ & HR) & HA).
  rewrite Hn, Bool.andb_false_r in HR. destruct HR as [_ HW].
  unfold at_ in Hc. rewrite Hc1 in Hc. inversion Hc; subst c.
  destruct HA as (d1 & d2 & d3 & W1 & V1 & G1 & P1 & D1 & HI & (_ & HM) & ((_ & V4 & _) & W4)). specialize (W4 Hmx).
  unfold ilr_rel in HI. destruct HI as (W2 & _ & _ & V2 & HI).
  assert (HK : kept o (t_mask2 t) i = if Rlt_dec (nth i (t_mask2 t) 0) (o_lrd o) then 1 else 0).
  { unfold kept, lrdrop, gtb. destruct (Rlt_dec (o_lrd o) 1); [|lra]. destruct (Rlt_dec (nth i (t_mask2 t) 0) (o_lrd o)); reflexivity. }
  rewrite HK in HM. destruct (o_mom o); [rewrite Bool.andb_true_l in Hn; rewrite Hn in HM|]; destruct HM as [V3 W3]; destruct (Rlt_dec (nth i (t_mask2 t) 0) (o_lrd o)); split; try split; intros; try lra; try discriminate.
  exists (hist i (gs' ++ [t_grad t (weights s2)])). split; [rewrite hist_len, app_length; cbn; lia|].
  rewrite H1 in HI. destruct HI as [D2 _]. rewrite W4, W3, W2, W1, D2, D1. lra.
Qed.
