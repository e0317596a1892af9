(** Sequences of training steps. *)
From Coq Require Import Reals Lra Lia.
From Verif Require Import Base BaseLemmas Workers_Model Workers_Spec Kern_Model Kern_Spec Kern_Proofs
  IdxMax_Model IdxMax_Spec Act_Spec Norm_Model Norm_Spec
  Opt_Model Opt_Spec Opt_Ema Opt_Proofs Opt_Proofs2 Opt_Proofs3.
Local Open Scope R_scope.

Lemma started_tracked o gamma s : started o gamma s -> tracked o gamma [] s.
Proof. intros (_ & H1 & H2). repeat split; try congruence. Qed.

Lemma nth_vadd a b i : length a = length b -> nth i (vadd a b) 0 = nth i a 0 + nth i b 0.
Proof.
  intros H. unfold vadd. destruct (Nat.lt_ge_cases i (length a)) as [Hi|Hi].
  - rewrite (nth_indep _ 0 ((fun p => fst p + snd p) (0, 0))) by (rewrite map_length, combine_length; lia).
    rewrite (map_nth (fun p => fst p + snd p)), combine_nth by exact H. reflexivity.
  - rewrite !nth_overflow by (rewrite ?map_length, ?combine_length; lia). ring.
Qed.
Lemma nth_vscale k a i : nth i (vscale k a) 0 = k * nth i a 0.
Proof. unfold vscale. replace 0 with (k * 0) at 1 by ring. apply (map_nth (Rmult k)). Qed.
Lemma len_vadd a b : length a = length b -> length (vadd a b) = length a.
Proof. intros H. unfold vadd. rewrite map_length, combine_length. lia. Qed.
Lemma len_vscale k a : length (vscale k a) = length a.
Proof. apply map_length. Qed.
Lemma len_updates a lr gs n : length (updates a lr gs n) = n.
Proof. unfold updates. rewrite map_length, seq_length. reflexivity. Qed.
Lemma nth_updates a lr gs n i : (i < n)%nat -> nth i (updates a lr gs n) 0 = update a lr (hist i gs).
Proof.
  intros H. unfold updates. rewrite (nth_indep _ 0 ((fun i => update a lr (hist i gs)) 0%nat)) by (rewrite map_length, seq_length; lia).
  rewrite (map_nth (fun i => update a lr (hist i gs))), seq_nth by lia. reflexivity.
Qed.
Lemma at_W s i c : at_ s i c -> nth i (weights s) 0 = cW c.
Proof.
  intros H. unfold weights. apply nth_error_nth. rewrite nth_error_map. unfold at_, bget in H. rewrite H. reflexivity.
Qed.
Lemma at_V s i c : at_ s i c -> nth i (velocities s) 0 = cV c.
Proof.
  intros H. unfold velocities. apply nth_error_nth. rewrite nth_error_map. unfold at_, bget in H. rewrite H. reflexivity.
Qed.
Lemma at_ex s i : (i < length (s_cells s))%nat -> exists c, at_ s i c.
Proof. apply bget_lt. Qed.
Lemma vel_len s : length (velocities s) = length (s_cells s).
Proof. apply map_length. Qed.

Lemma kept1 o mask i : o_lrd o = 1 -> kept o mask i = 1.
Proof. intros H. unfold kept, lrdrop, gtb. rewrite H. destruct (Rlt_dec 1 1); [lra|reflexivity]. Qed.

(** in a simple configuration *)
Lemma simple_rel o first mu mask u i c c' : simple o -> apply_rel o first mu mask u i c c' ->
  (o_mom o = false -> cV c' = cV c /\ cW c' = cW c - u i) /\
  (o_mom o = true -> o_nest o = false -> cV c' = mu * cV c + u i /\ cW c' = cW c - cV c') /\
  (o_mom o = true -> o_nest o = true -> cV c' = cV c + u i /\ cW c' = cW c - u i).
Proof.
  intros (Hi & Hm & Hl) (c1 & c2 & c3 & W1 & V1 & _ & _ & D1 & HI & HM & HN).
  unfold ilr_rel in HI. rewrite Hi in HI. destruct HI as (W2 & _ & _ & V2 & D2 & _).
  destruct HN as ((_ & V4 & _) & W4). specialize (W4 Hm).
  destruct HM as (_ & HM). rewrite (kept1 o mask i Hl) in HM.
  split; [|split].
  - intros E. rewrite E in HM. destruct HM as [V3 W3]. split; [congruence|]. rewrite W4, W3, W2, W1, D2, D1. ring.
  - intros E E2. rewrite E, E2 in HM. destruct HM as [V3 W3]. split; [congruence|]. rewrite W4, W3, W2, W1, V4. ring.
  - intros E E2. rewrite E, E2 in HM. destruct HM as [V3 W3]. split; [congruence|]. rewrite W4, W3, W2, W1, D2, D1. ring.
Qed.

Section T.
Context (e : env) (o : cfg) (gamma : R).
Context (Hcfg : cfg_ok e o gamma).
Let n := (o_rows o * o_cols o)%nat.
Let a := algo_of o gamma.


Lemma step_at_ gs t s s1 s' : evolves (pre_rel o t) s s1 -> length (s_cells s') = length (s_cells s) ->
  (forall i c, at_ s1 i c -> exists c', at_ s' i c' /\
        apply_rel o (s_first s) (t_mu t) (t_mask2 t) (fun i => update a (t_lr t) (hist i gs)) i c c') ->
  forall i c', at_ s' i c' -> exists c c1, at_ s i c /\ at_ s1 i c1 /\ pre_rel o t i c c1 /\
        apply_rel o (s_first s) (t_mu t) (t_mask2 t) (fun i => update a (t_lr t) (hist i gs)) i c1 c'.
Proof.
  intros HE HL HR i c' Hc'. assert (Hi : (i < length (s_cells s))%nat) by (rewrite <- HL; apply nth_error_Some; unfold at_, bget in Hc'; congruence).
  destruct (at_ex _ _ Hi) as (c & Hc). destruct HE as (_ & _ & _ & _ & _ & HE). destruct (HE i c Hc) as (c1 & Hc1 & H1).
  destruct (HR i c1 Hc1) as (c2 & Hc2 & H2). unfold at_ in *. rewrite Hc' in Hc2. inversion Hc2; subst c2. eauto 8.
Qed.

(** an invariant preserved by steps holds after training *)
Definition active (t : tstep) : bool := negb (t_blocked t).
Lemma train_inv (I : st -> Prop) (post : st -> Prop) ts : forall gs s, Forall (step_ok o) ts ->
  length (s_cells s) = n -> tracked o gamma gs s -> I s ->
  (forall s, length (s_cells s) = n -> I s -> forall g, length g = n -> I (zip upD s g)) ->
  (forall t gs g s s1 s', length (s_cells s) = n -> length (s_cells s') = n -> I s -> evolves (pre_rel o t) s s1 ->
     (forall i c', at_ s' i c' -> exists c c1, at_ s i c /\ at_ s1 i c1 /\ pre_rel o t i c c1 /\
        apply_rel o (s_first s) (t_mu t) (t_mask2 t) (fun i => update a (t_lr t) (hist i (gs ++ [g]))) i c1 c') ->
     I s') ->
  (forall gs' s', (length gs' = length gs + length (filter active ts))%nat -> length (s_cells s') = n -> tracked o gamma gs' s' -> I s' -> post s') ->
  train e o ts s post.
Proof.
  induction ts as [|t ts IH]; intros gs s Hs Hl HT HI HB HS HP; cbn [train].
  - apply (HP gs); cbn; try assumption. lia.
  - inversion Hs as [|? ? Ht Hs']; subst. cbn [filter] in HP. unfold active at 1 in HP. destruct (t_blocked t) eqn:Eb; cbn [negb] in HP.
    + apply step_blocked; [exact Eb|]. pose proof Ht as (_ & _ & Hg).
      assert (Hlg : length (t_grad t (weights s)) = n) by (apply Hg; rewrite weights_len; exact Hl).
      apply (IH gs); try assumption.
      * rewrite zip_length; lia.
      * eapply tracked_ext; [exact HT|apply evolves_zip with (Q := fun i c c' => c' = upD c (nth i (t_grad t (weights s)) 0)); [lia|reflexivity]|].
        intros i c c' ->. cbn. tauto.
      * apply HB; assumption.
    + eapply step_ok_; [exact Hcfg|exact Ht|exact Hl|exact Eb|exact HT|]. cbv zeta. intros s1 s' E1 L' T' _ R'.
      assert (Hl' : length (s_cells s') = n) by lia.
      apply (IH (gs ++ [t_grad t (weights s1)])); try assumption.
      * apply (HS t gs (t_grad t (weights s1)) s s1 s'); try assumption. exact (step_at_ _ t s s1 s' E1 L' R').
      * intros gs' s2 Hg'. rewrite app_length in Hg'. cbn in Hg'. apply HP. cbn. lia.
Qed.

Lemma defined_ok ts s : started o gamma s -> Forall (step_ok o) ts ->
  train e o ts s (fun s' => length (s_cells s') = length (s_cells s)).
Proof.
  intros Hst Hs. pose proof Hst as (Hl & _). eapply train_inv with (gs := []) (I := fun _ => True); try tauto; try exact Hs; try exact Hl.
  - apply started_tracked, Hst.
  - intros. lia.
Qed.

Lemma state_ok ts gs : forall s gs0, length (s_cells s) = n -> tracked o gamma gs0 s -> Forall (step_ok o) ts -> with_grads ts gs ->
  forall post : st -> Prop, (forall s', length (s_cells s') = n -> tracked o gamma (gs0 ++ gs) s' -> post s') -> train e o ts s post.
Proof.
  revert gs. induction ts as [|t ts IH]; intros gs s gs0 Hl HT Hs Hg post HP; inversion Hg as [|? g ? gs1 [Hb Hg1] Hg2]; subst; cbn [train].
  - apply HP; [exact Hl|rewrite app_nil_r; exact HT].
  - inversion Hs; subst. eapply step_ok_; [exact Hcfg|assumption|exact Hl|exact Hb|exact HT|]. cbv zeta. intros s1 s' E1 L' T' _ _.
    rewrite Hg1 in T'. eapply IH; [lia|exact T'|assumption|exact Hg2|]. intros s2 L2 T2. apply HP; [exact L2|].
    rewrite <- app_assoc in T2. exact T2.
Qed.

(** ** Trajectories *)
Lemma nth_eq (l l' : list R) : length l = length l' -> (forall i, (i < length l)%nat -> nth i l 0 = nth i l' 0) -> l = l'.
Proof. intros. apply nth_ext with (d := 0) (d' := 0); assumption. Qed.

Definition matches (x : traj) (s : st) : Prop :=
  length (s_cells s) = n /\ tracked o gamma (j_gs x) s /\ j_w x = weights s /\ vscale (-1) (j_v x) = velocities s.

Lemma simple_step t x s (post : st -> Prop) : simple o -> step_ok o t -> t_blocked t = false -> matches x s ->
  (forall s', matches ((if o_mom o then if o_nest o then nesterov_step a else polyak_step a else plain_step a) x t) s' -> post s') ->
  step e o t s post.
Proof.
  intros Hsi Ht Hb (Hl & HT & Hw & Hv) HP. eapply step_ok_; [exact Hcfg|exact Ht|exact Hl|exact Hb|exact HT|]. cbv zeta. intros s1 s' E1 L' T' _ R'.
  pose proof (step_at_ _ t s s1 s' E1 L' R') as HA. pose proof (evolves_len _ _ _ E1) as L1.
  apply HP. pose proof Hsi as (_ & Hm & Hld).
  assert (Lw : length (j_w x) = n) by (rewrite Hw, weights_len; exact Hl).
  assert (Lv : length (j_v x) = n) by (rewrite <- (len_vscale (-1)), Hv, vel_len; exact Hl).
  assert (NV : forall i c, at_ s i c -> nth i (j_v x) 0 = - cV c).
  { intros i c Hc. rewrite <- (at_V _ _ _ Hc), <- Hv, nth_vscale. ring. }
  assert (NW : forall i c, at_ s i c -> nth i (j_w x) 0 = cW c) by (intros i c Hc; rewrite Hw; apply at_W, Hc).
  assert (W1 : weights s1 = if (o_mom o && o_nest o)%bool then vadd (j_w x) (vscale (t_mu t) (j_v x)) else j_w x).
  { apply nth_eq.
    - rewrite weights_len. destruct (o_mom o && o_nest o)%bool; rewrite ?len_vadd; rewrite ?len_vscale; lia.
    - intros i Hi. rewrite weights_len in Hi. destruct (at_ex _ _ Hi) as (c1 & Hc1). rewrite (at_W _ _ _ Hc1).
      destruct (evolves_inv _ _ _ _ _ E1 Hc1) as (c & Hc & _ & HR). rewrite Hb in HR. cbn [negb andb] in HR.
      destruct (o_mom o && o_nest o)%bool.
      + destruct HR as [V1 W1]. rewrite (W1 Hm), V1. rewrite nth_vadd by (rewrite len_vscale; lia). rewrite nth_vscale, (NW _ _ Hc), (NV _ _ Hc).
        destruct (o_lrd_nest o); [rewrite kept1 by exact Hld|]; ring.
      + rewrite (NW _ _ Hc). tauto. }
  rewrite W1 in T', HA.
  assert (K : forall i, (i < length (s_cells s'))%nat -> exists c', at_ s' i c').
  { intros i Hi. exact (at_ex _ _ Hi). }
  destruct (o_mom o) eqn:Em; [destruct (o_nest o) eqn:En|]; cbn [andb] in *.
  - set (gs := j_gs x ++ [t_grad t (vadd (j_w x) (vscale (t_mu t) (j_v x)))]) in *.
    assert (HV : vscale (-1) (j_v (nesterov_step a x t)) = velocities s' /\ j_w (nesterov_step a x t) = weights s').
    { split; apply nth_eq.
      - unfold nesterov_step. cbn [j_v]. rewrite len_vscale, len_vadd, len_vscale, vel_len by (rewrite !len_vscale, len_updates; lia). lia.
      - intros i Hi. unfold nesterov_step in *. cbn [j_v] in *. rewrite len_vscale, len_vadd, len_vscale in Hi by (rewrite !len_vscale, len_updates; lia).
        destruct (K i ltac:(lia)) as (c' & Hc'). rewrite (at_V _ _ _ Hc'). destruct (HA i c' Hc') as (c & c1 & Hc & Hc1 & (_ & HR) & HA').
        rewrite Hb, Em, En in HR. cbn [negb andb] in HR. destruct HR as [V1 _].
        destruct (simple_rel _ _ _ _ _ _ _ _ Hsi HA') as (_ & _ & HS). destruct (HS Em En) as [V2 _].
        rewrite nth_vscale, nth_vadd by (rewrite !len_vscale, len_updates; lia). rewrite !nth_vscale, nth_updates, (NV _ _ Hc), V2, V1 by lia. fold gs. ring.
      - unfold nesterov_step. cbn [j_w]. rewrite len_vadd, weights_len by (rewrite len_vadd, !len_vscale by (rewrite !len_vscale, len_updates; lia); lia). lia.
      - intros i Hi. unfold nesterov_step in *. cbn [j_w] in *. assert (Hi' : (i < n)%nat) by (rewrite len_vadd in Hi by (rewrite len_vadd, !len_vscale by (rewrite !len_vscale, len_updates; lia); lia); lia).
        destruct (K i ltac:(lia)) as (c' & Hc'). rewrite (at_W _ _ _ Hc'). destruct (HA i c' Hc') as (c & c1 & Hc & Hc1 & (_ & HR) & HA').
        rewrite Hb, Em, En in HR. cbn [negb andb] in HR. destruct HR as [V1 W1']. specialize (W1' Hm).
        destruct (simple_rel _ _ _ _ _ _ _ _ Hsi HA') as (_ & _ & HS). destruct (HS Em En) as [_ W2].
        rewrite nth_vadd by (rewrite len_vadd, !len_vscale by (rewrite !len_vscale, len_updates; lia); lia).
        rewrite nth_vadd by (rewrite !len_vscale, len_updates; lia).
        rewrite !nth_vscale, nth_updates, (NW _ _ Hc), (NV _ _ Hc), W2, W1', V1 by lia. fold gs.
        destruct (o_lrd_nest o); [rewrite kept1 by exact Hld|]; ring. }
    destruct HV as [HV HW]. split; [lia|]. split; [exact T'|]. split; assumption.
  - set (gs := j_gs x ++ [t_grad t (j_w x)]) in *.
    assert (HV : vscale (-1) (j_v (polyak_step a x t)) = velocities s' /\ j_w (polyak_step a x t) = weights s').
    { split; apply nth_eq.
      - unfold polyak_step. cbn [j_v]. rewrite len_vscale, len_vadd, len_vscale, vel_len by (rewrite !len_vscale, len_updates; lia). lia.
      - intros i Hi. unfold polyak_step in *. cbn [j_v] in *. rewrite len_vscale, len_vadd, len_vscale in Hi by (rewrite !len_vscale, len_updates; lia).
        destruct (K i ltac:(lia)) as (c' & Hc'). rewrite (at_V _ _ _ Hc'). destruct (HA i c' Hc') as (c & c1 & Hc & Hc1 & (_ & HR) & HA').
        rewrite Em, En in HR. rewrite Bool.andb_false_r in HR. destruct HR as [V1 _].
        destruct (simple_rel _ _ _ _ _ _ _ _ Hsi HA') as (_ & HS & _). destruct (HS Em En) as [V2 _].
        rewrite nth_vscale, nth_vadd by (rewrite !len_vscale, len_updates; lia). rewrite !nth_vscale, nth_updates, (NV _ _ Hc), V2, V1 by lia. fold gs. ring.
      - unfold polyak_step. cbn [j_w]. rewrite len_vadd, weights_len by (rewrite len_vadd, !len_vscale by (rewrite !len_vscale, len_updates; lia); lia). lia.
      - intros i Hi. unfold polyak_step in *. cbn [j_w] in *. assert (Hi' : (i < n)%nat) by (rewrite len_vadd in Hi by (rewrite len_vadd, !len_vscale by (rewrite !len_vscale, len_updates; lia); lia); lia).
        destruct (K i ltac:(lia)) as (c' & Hc'). rewrite (at_W _ _ _ Hc'). destruct (HA i c' Hc') as (c & c1 & Hc & Hc1 & (_ & HR) & HA').
        rewrite Em, En in HR. rewrite Bool.andb_false_r in HR. destruct HR as [V1 W1'].
        destruct (simple_rel _ _ _ _ _ _ _ _ Hsi HA') as (_ & HS & _). destruct (HS Em En) as [V2 W2].
        rewrite nth_vadd by (rewrite len_vadd, !len_vscale by (rewrite !len_vscale, len_updates; lia); lia).
        rewrite nth_vadd by (rewrite !len_vscale, len_updates; lia).
        rewrite !nth_vscale, nth_updates, (NW _ _ Hc), (NV _ _ Hc), W2, V2, W1', V1 by lia. fold gs. ring. }
    destruct HV as [HV HW]. split; [lia|]. split; [exact T'|]. split; assumption.
  - set (gs := j_gs x ++ [t_grad t (j_w x)]) in *.
    assert (HV : vscale (-1) (j_v (plain_step a x t)) = velocities s' /\ j_w (plain_step a x t) = weights s').
    { split; apply nth_eq.
      - unfold plain_step. cbn [j_v]. rewrite len_vscale, vel_len. lia.
      - intros i Hi. unfold plain_step in *. cbn [j_v] in *. rewrite len_vscale in Hi.
        destruct (K i ltac:(lia)) as (c' & Hc'). rewrite (at_V _ _ _ Hc'). destruct (HA i c' Hc') as (c & c1 & Hc & Hc1 & (_ & HR) & HA').
        rewrite Em in HR. rewrite Bool.andb_false_r in HR. destruct HR as [V1 _].
        destruct (simple_rel _ _ _ _ _ _ _ _ Hsi HA') as (HS & _ & _). destruct (HS Em) as [V2 _].
        rewrite nth_vscale, (NV _ _ Hc), V2, V1. ring.
      - unfold plain_step. cbn [j_w]. rewrite len_vadd, weights_len by (rewrite !len_vscale, len_updates; lia). lia.
      - intros i Hi. unfold plain_step in *. cbn [j_w] in *. rewrite len_vadd in Hi by (rewrite !len_vscale, len_updates; lia).
        destruct (K i ltac:(lia)) as (c' & Hc'). rewrite (at_W _ _ _ Hc'). destruct (HA i c' Hc') as (c & c1 & Hc & Hc1 & (_ & HR) & HA').
        rewrite Em in HR. rewrite Bool.andb_false_r in HR. destruct HR as [_ W1'].
        destruct (simple_rel _ _ _ _ _ _ _ _ Hsi HA') as (HS & _ & _). destruct (HS Em) as [_ W2].
        rewrite nth_vadd by (rewrite !len_vscale, len_updates; lia).
        rewrite !nth_vscale, nth_updates, (NW _ _ Hc), W2, W1' by lia. fold gs. ring. }
    destruct HV as [HV HW]. split; [lia|]. split; [exact T'|]. split; assumption.
Qed.

Lemma simple_train ts : simple o -> forall x s (post : st -> Prop), Forall (step_ok o) ts -> Forall (fun t => t_blocked t = false) ts -> matches x s ->
  (forall s', matches (fold_left (if o_mom o then if o_nest o then nesterov_step a else polyak_step a else plain_step a) ts x) s' -> post s') ->
  train e o ts s post.
Proof.
  intros Hsi. induction ts as [|t ts IH]; intros x s post Hs Hb HM HP; cbn [train].
  - apply HP, HM.
  - inversion Hs; inversion Hb; subst. eapply simple_step; try eassumption. intros s' HM'. eapply IH; try eassumption.
Qed.
End T.
