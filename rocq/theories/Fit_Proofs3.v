(** The layers are initialised, for batches of the size they get, whenever train() uses them. *)
From Coq Require Import Reals.
From Verif Require Import Base BaseLemmas Workers_Model Kern_Model Smx_Model TData_Model TData_Spec Train_Model Train_Spec.
Local Open Scope nat_scope.

Section P.
Context {A B : Type} (oneA : A) (oneB : B).
Notation event := (event A B). Notation env := (env A B). Notation nn := (nn A B).
Context (S : sets A B).
Implicit Types (s : nn) (v : event) (h : list event).

(** sizes the layers are initialised for *)
Fixpoint dims h : option (nat * nat) :=
  match h with
  | [] => None
  | VNetInit fp tb :: _ => Some (fp, tb)
  | VNetDeinit :: _ => None
  | _ :: h => dims h
  end.
Definition fits1 v h : Prop :=
  match v with
  | VFprop tr bs _ => 0 < bs -> exists fp tb, dims h = Some (fp, tb) /\ (tr = true -> bs <= tb)
  | VBprop tr bs _ => exists x h', h = VFprop tr bs x :: h'
  | VStart _ _ => exists d, dims h = Some d
  | _ => True
  end.
Fixpoint fits h : Prop := match h with [] => True | v :: h => fits1 v h /\ fits h end.

Definition cur_ok s : Prop := c_cur s = 0 \/ (c_train s = true -> c_cur s <= c_tb s).
(** while the layers are in use; at any time *)
Definition Kin s : Prop := fits (n_h s) /\ dims (n_h s) = Some (c_fp s, c_tb s) /\ cur_ok s.
Definition K s : Prop := fits (n_h s) /\ (c_fp s = 0 \/ dims (n_h s) = Some (c_fp s, c_tb s)) /\ cur_ok s.

Definition mild v : Prop := match v with VFprop _ _ _ | VBprop _ _ _ | VNetInit _ _ | VNetDeinit | VStart _ _ => False | _ => True end.
Lemma Kin_log v s : Kin s -> mild v -> Kin (log v s).
Proof. intros (H1 & H2 & H3) Hv. split; [|split]; cbn; [|destruct v; try contradiction; exact H2|exact H3]. split; [destruct v; try contradiction; exact I|exact H1]. Qed.
Lemma K_log v s : K s -> mild v -> K (log v s).
Proof. intros (H1 & H2 & H3) Hv. split; [|split]; cbn; [|destruct v; try contradiction; exact H2|exact H3]. split; [destruct v; try contradiction; exact I|exact H1]. Qed.
Lemma Kin_start t f s : Kin s -> Kin (log (VStart t f) s).
Proof. intros (H1 & H2 & H3). split; [|split]; cbn; [|exact H2|exact H3]. split; [eauto|exact H1]. Qed.
Lemma Kin_fprop x s : Kin s -> Kin (log (VFprop (c_train s) (c_cur s) x) s).
Proof.
  intros (H1 & H2 & H3). split; [|split]; cbn; [|exact H2|exact H3]. split; [|exact H1]. intros Hb. exists (c_fp s), (c_tb s). split; [exact H2|].
  intros Ht. destruct H3 as [H3|H3]; [lia|auto].
Qed.
Lemma Kin_K s : Kin s -> K s.
Proof. intros (H1 & H2 & H3). split; [exact H1|]. split; [right; exact H2|exact H3]. Qed.
Lemma Kin_same s s' : Kin s -> c_fp s' = c_fp s -> c_tb s' = c_tb s -> c_cur s' = c_cur s -> c_train s' = c_train s -> n_h s' = n_h s -> Kin s'.
Proof. intros (H1 & H2 & H3) E1 E2 E3 E4 E5. unfold Kin, cur_ok. rewrite E1, E2, E3, E4, E5. auto. Qed.
Lemma K_same s s' : K s -> c_fp s' = c_fp s -> c_tb s' = c_tb s -> c_cur s' = c_cur s -> c_train s' = c_train s -> n_h s' = n_h s -> K s'.
Proof. intros (H1 & H2 & H3) E1 E2 E3 E4 E5. unfold K, cur_ok. rewrite E1, E2, E3, E4, E5. auto. Qed.

Lemma set_mode_K tr bs s s' : Kin s -> set_mode tr bs s = Some s' -> Kin s'.
Proof.
  intros HK H. unfold set_mode in H. destruct (guard _) eqn:Q; [|discriminate]. cbn [obind] in H. injection H as <-.
  destruct (eqb _ _ && _); [exact HK|]. destruct HK as (H1 & H2 & H3). split; [|split]; cbn; [split; [exact I|exact H1]|exact H2|].
  right. cbn. intros ->. destruct (0 <? bs); [|discriminate]. cbn in Q. destruct (bs <=? c_tb s) eqn:Q2; [|discriminate]. apply Nat.leb_le in Q2. exact Q2.
Qed.
Lemma set_mbs_K bs s s' : Kin s -> set_mode_and_batch_size bs s = Some s' -> Kin s'.
Proof. intros HK H. unfold set_mode_and_batch_size in H. eapply set_mode_K; eassumption. Qed.

Context (E : env) (O : opts).

Lemma eval_batch_K id k l s l' s' : Kin s -> eval_batch oneA S E id k (l, s) = Some (l', s') -> Kin s'.
Proof.
  intros HK H. unfold eval_batch in H. destruct (next_subset _ _ _ _ _) as [t|]; [|discriminate]. cbn [obind] in H.
  destruct (batchX S t) as [x|]; [|discriminate]. destruct (batchY S t) as [y|]; [|discriminate]. cbn [obind] in H.
  destruct (set_mode_and_batch_size _ _) as [s1|] eqn:Q; [|discriminate]. cbn [obind] in H. injection H as _ <-.
  apply Kin_log; [|exact I]. apply Kin_fprop. eapply set_mbs_K; [|exact Q]. eapply Kin_same; [exact HK|..]; reflexivity.
Qed.
Lemma eval_loop_K id n : forall k l s l' s', Kin s -> for_loop k n (eval_batch oneA S E id) (l, s) = Some (l', s') -> Kin s'.
Proof.
  induction n as [|n IH]; intros k l s l' s' HK H; cbn [for_loop] in H; [injection H as _ <-; exact HK|].
  destruct (eval_batch _ _ _ _ _ _) as [[l1 s1]|] eqn:Q; [|discriminate]. cbn [obind] in H.
  eapply IH; [|exact H]. eapply eval_batch_K; eassumption.
Qed.
Lemma calc_K id s l s' : Kin s -> calcLossAndReport oneA S E id s = Some (l, s') -> Kin s'.
Proof.
  intros HK H. unfold calcLossAndReport in H. set (s0 := if e_addA E then _ else _) in H.
  assert (K0 : Kin s0) by (unfold s0; destruct (e_addA E); [eapply Kin_same; [exact HK|..]; reflexivity|exact HK]).
  destruct (walk_over_set _ _ _ _ _ _ _) as [[n t]|]; [|discriminate]. cbn [obind] in H.
  destruct (for_loop _ _ _ _) as [[l1 s1]|] eqn:Q; [|discriminate]. cbn [obind] in H.
  assert (K1 : Kin s1).
  { eapply eval_loop_K; [|exact Q]. apply Kin_log; [|exact I]. eapply Kin_same; [exact K0|..]; reflexivity. }
  destruct (n_full s1).
  - unfold calc_addendum in H. destruct (fl_is0 (n_add s1)); injection H as _ <-; (apply Kin_log; [|exact I]); [eapply Kin_same; [exact K1|..]; reflexivity|exact K1].
  - injection H as _ <-. apply Kin_log; [exact K1|exact I].
Qed.
Lemma report_K e s l s' : Kin s -> report_progress oneA S E e s = Some (l, s') -> Kin s'.
Proof.
  intros HK H. unfold report_progress in H.
  destruct (calcLossAndReport _ _ _ train_set_id _) as [[l1 s1]|] eqn:Q1; [|discriminate]. cbn [obind] in H.
  destruct (calcLossAndReport _ _ _ test_set_id _) as [[l2 s2]|] eqn:Q2; [|discriminate]. cbn [obind] in H. injection H as _ <-.
  apply Kin_log; [|exact I]. eapply calc_K; [|exact Q2]. eapply calc_K; [|exact Q1]. eapply Kin_same; [exact HK|..]; reflexivity.
Qed.
Lemma train_loop_K n : forall k s s', Kin s -> for_loop k n (train_batch S E) s = Some s' -> Kin s'.
Proof.
  induction n as [|n IH]; intros k s s' HK H; cbn [for_loop] in H; [injection H as <-; exact HK|].
  destruct (train_batch _ _ _ _) as [s1|] eqn:Q; [|discriminate]. cbn [obind] in H. eapply IH; [|exact H]. unfold train_batch in Q.
  destruct (on_next_batch _ _ _ _) as [t|]; [|discriminate]. cbn [obind] in Q.
  destruct (batchX S t) as [x|]; [|discriminate]. destruct (batchY S t) as [y|]; [|discriminate]. cbn [obind] in Q. injection Q as <-.
  assert (K1 : Kin (with_td t s)) by (eapply Kin_same; [exact HK|..]; reflexivity).
  apply (Kin_fprop x) in K1. destruct K1 as (H1 & H2 & H3). split; [|split]; [|exact H2|exact H3].
  split; [|exact H1]. cbn. eauto.
Qed.
Lemma epochs_K n : forall e s ec s', Kin s -> epochs oneA S E O n e s = Some (ec, s') -> Kin s'.
Proof.
  induction n as [|n IH]; intros e s ec s' HK H; cbn [epochs] in H; [injection H as _ <-; exact HK|].
  destruct (on_next_epoch _ _ _ _ _ _) as [[nb t]|]; [|discriminate]. cbn [obind] in H.
  destruct (for_loop 0 nb _ _) as [s1|] eqn:Q1; [|discriminate]. cbn [obind] in H.
  assert (K1 : Kin s1).
  { eapply train_loop_K; [|exact Q1]. apply Kin_log; [|exact I]. eapply Kin_same; [exact HK|..]; reflexivity. }
  destruct (if o_cond O e || _ then _ else _) as [[dv s2]|] eqn:Q2; [|discriminate]. cbn [obind] in H.
  assert (K2 : Kin s2).
  { destruct (o_cond O e || _); [|injection Q2 as _ <-; exact K1].
    destruct (o_time O && _); [injection Q2 as _ <-; apply Kin_log; [exact K1|exact I]|].
    destruct (report_progress _ _ _ _ _) as [[l s3]|] eqn:Q3; [|discriminate]. cbn [obind] in Q2. injection Q2 as _ <-.
    eapply report_K; eassumption. }
  destruct dv; [injection H as _ <-; exact K2|].
  pose proof (Kin_log (VEpochCb e (e_epochcb E (n_h s2) e)) s2 K2 I) as K3.
  destruct (e_epochcb E (n_h s2) e).
  - destruct (set_mode_and_batch_size 0 _) as [s3|] eqn:Q3; [|discriminate]. cbn [obind] in H. eapply IH; [|exact H]. eapply set_mbs_K; eassumption.
  - injection H as _ <-. exact K3.
Qed.

Lemma deinit_K s : fits (n_h s) -> K (deinit s).
Proof. intros H1. split; [split; [exact I|exact H1]|]. split; [left; reflexivity|left; reflexivity]. Qed.
Lemma init_K s ec fp tb s' : K s -> init4train_nn oneA oneB S E O s = Some (ec, fp, tb, s') -> K s' /\ (ec = ESuccess -> Kin s').
Proof.
  intros HK H. unfold init4train_nn in H.
  set (q := match (if o_reinitTd O then None else _) with Some _ => _ | None => _ end) in H.
  destruct q as [[[[e1 fp1] tb1] s1]|] eqn:Q; [|discriminate]. unfold q in Q. clear q. cbn [obind] in H.
  assert (K1 : K s1).
  { destruct (if o_reinitTd O then None else _) as [[[fp2 tb2] z]|] in Q; [injection Q as _ _ _ <-; exact HK|].
    destruct (init4train _ _ _ _ _ _ _ _) as [[[[e2 fp3] tb3] t]|]; [|discriminate]. cbn [obind] in Q. injection Q as _ _ _ <-.
    assert (K (with_td t s)) by (eapply K_same; [exact HK|..]; reflexivity).
    destruct e2; try assumption. apply K_log; [assumption|exact I]. }
  clear Q. destruct e1; try (injection H as <- _ _ <-; split; [exact K1|discriminate]).
  destruct (is_init fp1 tb1 s1) eqn:Qi.
  - injection H as He _ _ <-. split; [exact K1|]. intros _. destruct K1 as (H1 & H2 & H3). split; [exact H1|]. split; [|exact H3].
    destruct H2 as [H2|H2]; [|exact H2]. exfalso. unfold is_init in Qi. rewrite H2 in Qi. destruct (negb (n_reinit s1)); discriminate.
  - unfold full_init in H. destruct (e_init E _).
    + injection H as <- _ _ <-. assert (Kin (log (VNetInit fp1 tb1) (with_cd fp1 tb1 0 false (deinit s1)))).
      { split; [|split]; cbn; [split; [exact I|split; [exact I|apply K1]]|reflexivity|left; reflexivity]. }
      split; [apply Kin_K|]; auto.
    + injection H as <- _ _ <-. split; [|discriminate]. apply deinit_K. cbn. split; [exact I|apply K1].
Qed.
Lemma body_K s ec s' : K s -> train_body oneA oneB S E O s = Some (ec, s') -> K s'.
Proof.
  intros HK H. unfold train_body in H.
  destruct (init4train_nn _ _ _ _ _ _) as [[[[e1 fp] tb] s1]|] eqn:Q; [|discriminate]. cbn [obind] in H.
  destruct (init_K (with_full (o_full O) s) _ _ _ _ ltac:(eapply K_same; [exact HK|..]; reflexivity) Q) as [K1 K2]. clear Q.
  destruct e1; try (injection H as _ <-; exact K1). specialize (K2 eq_refl).
  set (s2 := if n_full s1 then _ else _) in H.
  assert (K3 : Kin s2) by (unfold s2; destruct (n_full s1); [eapply Kin_same; [exact K2|..]; reflexivity|exact K2]).
  destruct (negb (e_oninit E (n_h s2))); [injection H as _ <-; apply Kin_K; exact K3|].
  pose proof (Kin_log (VObsInit (e_obs E (n_h s2))) _ K3 I) as K4.
  destruct (negb (e_obs E (n_h s2))); [injection H as _ <-; apply Kin_K; exact K4|].
  pose proof (Kin_start tb fp _ K4) as K5.
  destruct (report_progress _ _ _ _ _) as [[l s3]|] eqn:Q1; [|discriminate]. cbn [obind] in H.
  destruct (set_mode_and_batch_size 0 s3) as [s4|] eqn:Q2; [|discriminate]. cbn [obind] in H.
  destruct (epochs _ _ _ _ _ _ _) as [[e2 s5]|] eqn:Q3; [|discriminate]. cbn [obind] in H. injection H as _ <-.
  assert (K6 : Kin s5) by (eapply epochs_K; [|exact Q3]; eapply set_mbs_K; [|exact Q2]; eapply report_K; eassumption).
  apply Kin_K. apply Kin_log; [|exact I]. destruct e2; try exact K6. destruct (o_time O); [exact K6|]. apply Kin_log; [exact K6|exact I].
Qed.
Lemma train_K s ec s' : K s -> train oneA oneB S E O s = Some (ec, s') -> K s'.
Proof.
  intros HK H. unfold train in H.
  destruct (sets_empty S); [injection H as _ <-; exact HK|]. destruct (negb _) in H; [injection H as _ <-; exact HK|].
  destruct (negb _) in H; [injection H as _ <-; exact HK|].
  destruct (train_body _ _ _ _ _ _) as [[e1 s1]|] eqn:Q; [|discriminate]. cbn [obind] in H. injection H as _ <-.
  assert (HT : forall b s, K s -> K (turn_on b s)).
  { intros b s0 (H1 & H2 & H3). split; [split; [exact I|exact H1]|]. split; [exact H2|exact H3]. }
  assert (K1 : K s1) by (eapply body_K; [|exact Q]; destruct (o_insp O); [apply HT|]; exact HK).
  assert (K2 : K (if o_imm O then deinit (log VTdDeinit (with_td (deinit4all (n_td s1)) s1)) else s1)).
  { destruct (o_imm O); [|exact K1]. apply deinit_K. cbn. split; [exact I|apply K1]. }
  destruct (o_insp O); [apply HT|]; exact K2.
Qed.
End P.

Lemma life_K {A B} (oneA : A) (oneB : B) S fp tb s : life oneA oneB S fp tb s -> K s.
Proof.
  induction 1 as [s H1 H2 H3 H4|s E O ec s' HL IH HE HO H|s HL IH|s HL IH|s HL IH].
  - split; [rewrite H4; exact I|]. split; left; assumption.
  - eapply train_K; eassumption.
  - apply deinit_K, IH.
  - apply K_log; [|exact I]. eapply K_same; [exact IH|..]; reflexivity.
  - eapply K_same; [exact IH|..]; reflexivity.
Qed.
