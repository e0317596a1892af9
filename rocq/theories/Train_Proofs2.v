(** Initialisation, whole sessions, sequences of sessions. *)
From Coq Require Import Reals Lra Permutation.
From Verif Require Import Base BaseLemmas Workers_Model Kern_Model Kern_Spec Smx_Model Smx_Spec TData_Model TData_Spec
  TData_Proofs TData_Proofs2 TData_Proofs3 TData_Proofs4 TData_Proofs5 Train_Model Train_Spec Train_Proofs.
Local Open Scope nat_scope.

Section P.
Context {A B : Type} (oneA : A) (oneB : B).
Notation event := (event A B). Notation env := (env A B). Notation nn := (nn A B).
Context (S : sets A B) (fp tb : nat) (HS : coherent oneA S).
Notation ran := (ran oneA oneB S).
Implicit Types (s : nn).

(** between sessions *)
Definition Live (s : nn) : Prop :=
  told_ok s /\ (t_fp (n_td s) = 0 \/ exists ph, Inv oneA oneB S fp tb (n_td s) ph) /\
  (0 < c_fp s -> fp <= c_fp s -> tb <= c_tb s -> c_tb s = tb).

Lemma told_ok_deinit s : told_ok s -> told_ok (deinit s).
Proof. intros [Hi _]. split; [apply informed_cons; [exact Hi|exact I]|]. left. split; reflexivity. Qed.
Lemma Live_deinit s : Live s -> Live (deinit s).
Proof. intros (H1 & H2 & H3). split; [apply told_ok_deinit, H1|]. split; [exact H2|]. intros C; inversion C. Qed.
Lemma Live_td s : Live s -> Live (td_deinit s).
Proof.
  intros (H1 & H2 & H3). split; [|split; [left; reflexivity|exact H3]].
  apply (told_ok_log VTdDeinit (with_td (deinit4all (n_td s)) s) H1 I).
Qed.

Section Session.
Context (E : env) (O : opts) (HE : env_ok E) (HO : asks S O fp tb).

Lemma want_wanted req n : want req n = wanted req n.
Proof. reflexivity. Qed.
Lemma biggest_most : biggest S = most S.
Proof. reflexivity. Qed.

Definition grown (s s' : nn) : Prop := exists new, n_h s' = new ++ n_h s.
Lemma ran_grown s s' a : ran s s' a -> grown s s'.
Proof. intros (new & H & _). exists new. exact H. Qed.
(** no losses are reported *)
Definition no_loss (s s' : nn) : Prop :=
  exists new, n_h s' = new ++ n_h s /\ Forall (fun v => match v with VLoss _ _ => False | _ => True end) new.
Lemma no_loss_refl s s' : n_h s' = n_h s -> no_loss s s'.
Proof. exists []. split; [assumption|constructor]. Qed.
Lemma no_loss_trans s1 s2 s3 : no_loss s1 s2 -> no_loss s2 s3 -> no_loss s1 s3.
Proof.
  intros (n1 & E1 & F1) (n2 & E2 & F2). exists (n2 ++ n1). split; [rewrite E2, E1; apply app_assoc|].
  apply Forall_app. split; assumption.
Qed.
Lemma no_loss_log (v : event) s : match v with VLoss _ _ => False | _ => True end -> no_loss s (log v s).
Proof. intros H. exists [v]. split; [reflexivity|]. constructor; [exact H|constructor]. Qed.

Lemma init_ok s : Live s ->
  exists ec s', init4train_nn oneA oneB S E O s = Some (ec, fp, tb, s') /\ Live s' /\ ran s s' [] /\ no_loss s s' /\
    n_full s' = n_full s /\ n_insp s' = n_insp s /\
    (ec = ESuccess -> (exists ph, Inv oneA oneB S fp tb (n_td s') ph) /\ fp <= c_fp s' /\ c_tb s' = tb) /\
    ec <> EDiverged /\ ec <> EObserver.
Proof.
  intros HL. unfold init4train_nn. destruct HO as [Hf Ht].
  set (first := match _ with Some _ => _ | None => _ end).
  assert (HX : exists e s1, first = Some (e, fp, tb, s1) /\ Live s1 /\ ran s s1 [] /\ no_loss s s1 /\
     n_full s1 = n_full s /\ n_insp s1 = n_insp s /\
     (e = Success -> exists ph, Inv oneA oneB S fp tb (n_td s1) ph)).
  { unfold first. clear first.
    assert (HN : forall v, wanted v (most S) = fp ->
      exists e s1, (do (ec, fp, tb, t) <- init4train oneA oneB (e_memx E (n_h s)) (e_memy E (n_h s)) (e_memi E (n_h s)) S (n_td s) v (o_tb O);
        Some (ec, fp, tb, (match ec with Success => log (VTdInit fp tb) | _ => fun s => s end) (with_td t s))) = Some (e, fp, tb, s1) /\
      Live s1 /\ ran s s1 [] /\ no_loss s s1 /\ n_full s1 = n_full s /\ n_insp s1 = n_insp s /\
      (e = Success -> exists ph, Inv oneA oneB S fp tb (n_td s1) ph)).
    { intros v Hv.
      destruct (init4train_spec oneA oneB (e_memx E (n_h s)) (e_memy E (n_h s)) (e_memi E (n_h s)) S (n_td s) v (o_tb O) HS)
        as (e & t' & Ei & Hok & Hbad & _).
      change want with wanted in *. rewrite biggest_most in *. change (train_cnt S) with (cnt S 0) in *. rewrite Hv, Ht in *.
      rewrite Ei. cbn [obind]. destruct HL as (L1 & L2 & L3).
      assert (Hgood : e = Success -> exists ph, Inv oneA oneB S fp tb t' ph) by (intros Q; exists Idle; apply Hok, Q).
      destruct e; eexists _, _; (split; [reflexivity|]).
      - split; [split; [exact (told_ok_log (VTdInit fp tb) (with_td t' s) L1 I)|split; [right; apply Hgood; reflexivity|exact L3]]|].
        split; [eapply (ran_skip _ _ _ (VTdInit fp tb)); reflexivity|].
        split; [exists [VTdInit fp tb]; split; [reflexivity|repeat constructor]|].
        split; [reflexivity|]. split; [reflexivity|]. exact Hgood.
      - split; [split; [exact L1|split; [left; apply Hbad; discriminate|exact L3]]|].
        split; [apply ran_refl; reflexivity|]. split; [apply no_loss_refl; reflexivity|]. split; [reflexivity|]. split; [reflexivity|]. discriminate.
      - split; [split; [exact L1|split; [left; apply Hbad; discriminate|exact L3]]|].
        split; [apply ran_refl; reflexivity|]. split; [apply no_loss_refl; reflexivity|]. split; [reflexivity|]. split; [reflexivity|]. discriminate.
      - split; [split; [exact L1|split; [left; apply Hbad; discriminate|exact L3]]|].
        split; [apply ran_refl; reflexivity|]. split; [apply no_loss_refl; reflexivity|]. split; [reflexivity|]. split; [reflexivity|]. discriminate.
      - split; [split; [exact L1|split; [left; apply Hbad; discriminate|exact L3]]|].
        split; [apply ran_refl; reflexivity|]. split; [apply no_loss_refl; reflexivity|]. split; [reflexivity|]. split; [reflexivity|]. discriminate. }
    destruct (o_reinitTd O); [apply HN; exact Hf|].
    destruct (is_initialized4train S (n_td s) (o_fp O) (o_tb O)) as [[[f1 t1] m1]|] eqn:Ei.
    - (* the training data object is used as it is *)
      assert (Hi : exists ph, Inv oneA oneB S fp tb (n_td s) ph).
      { destruct HL as (_ & [L2|L2] & _); [|exact L2]. exfalso. unfold is_initialized4train, is_initialized4inference in Ei.
        rewrite L2 in Ei. rewrite Bool.orb_true_r in Ei. discriminate. }
      destruct Hi as (ph & HI). pose proof HI as (I1 & I2 & _ & I4 & I5 & _).
      assert (f1 = fp /\ t1 = tb) as [-> ->].
      { unfold is_initialized4train, is_initialized4inference in Ei. rewrite I1, I2 in Ei.
        rewrite biggest_most in I5. change (train_cnt S) with (cnt S 0) in I4.
        destruct (_ || _ || _) eqn:Q1 in Ei; [discriminate|]. destruct (_ && _) eqn:Q2 in Ei; [discriminate|]. cbn [obind] in Ei.
        destruct (_ || _ || _ || _) eqn:Q3 in Ei; [discriminate|]. injection Ei as E1 E2 _. subst f1 t1.
        apply Bool.orb_false_elim in Q1. destruct Q1 as [_ Q1]. apply Nat.ltb_ge in Q1.
        apply Bool.orb_false_elim in Q3. destruct Q3 as [Q3 _]. apply Bool.orb_false_elim in Q3. destruct Q3 as [Q3 _].
        apply Bool.orb_false_elim in Q3. destruct Q3 as [_ Q3]. apply Nat.ltb_ge in Q3.
        unfold wanted in Hf, Ht. split.
        - destruct (Nat.eqb_spec (o_fp O) 0) as [Z|Z]; [reflexivity|]. cbn [orb] in Hf.
          destruct (Nat.ltb_spec (most S) (o_fp O)); [lia|exact Hf].
        - destruct (Nat.eqb_spec (o_tb O) 0) as [Z|Z]; [reflexivity|]. cbn [orb] in Ht.
          destruct (Nat.ltb_spec (cnt S 0) (o_tb O)); [lia|exact Ht]. }
      exists Success, s. split; [reflexivity|]. split; [exact HL|]. split; [apply ran_refl; reflexivity|].
      split; [apply no_loss_refl; reflexivity|]. split; [reflexivity|]. split; [reflexivity|]. intros _. eauto.
    - apply HN. destruct (is_initialized4inference S (n_td s) (o_fp O)) as [v|] eqn:Ei2; [|exact Hf].
      unfold is_initialized4inference in Ei2. destruct (Nat.eqb_spec (o_fp O) 0) as [Z|Z].
      + destruct HL as (_ & [L2|(ph & HI)] & _).
        * rewrite L2, Bool.orb_true_r in Ei2. discriminate.
        * pose proof HI as (I1 & _ & _ & _ & I5 & _).
          destruct (_ || _ || _) in Ei2; [discriminate|]. destruct (_ && _) in Ei2; [discriminate|]. injection Ei2 as <-.
          rewrite I1. unfold wanted in Hf |- *. rewrite Z in Hf. cbn in Hf. rewrite <- Hf in *.
          rewrite Nat.ltb_irrefl, Bool.orb_false_r. destruct (_ =? _); reflexivity.
      + destruct (_ || _ || _) in Ei2; [discriminate|]. destruct (_ && _) in Ei2; [discriminate|]. injection Ei2 as <-. exact Hf. }
  destruct HX as (e & s1 & -> & HL1 & R1 & N1 & F1 & P1 & HI1). cbn [obind].
  destruct e; try (eexists _, s1; split; [reflexivity|]; split; [exact HL1|]; split; [exact R1|]; split; [exact N1|];
    split; [exact F1|]; split; [exact P1|]; split; [discriminate|split; discriminate]).
  specialize (HI1 eq_refl). destruct (is_init fp tb s1) eqn:Qi.
  - assert (Hc : fp <= c_fp s1 /\ c_tb s1 = tb).
    { unfold is_init in Qi. apply andb_prop in Qi as [_ Qi]. apply andb_prop in Qi as [Qi Q2]. apply andb_prop in Qi as [Q0 Q1].
      apply Nat.leb_le in Q1, Q2. apply Nat.ltb_lt in Q0. split; [assumption|]. destruct HL1 as (_ & _ & C1). auto. }
    eexists _, s1. split; [reflexivity|]. split; [exact HL1|]. split; [exact R1|]. split; [exact N1|]. split; [exact F1|]. split; [exact P1|].
    split; [intros _; split; [exact HI1|exact Hc]|]. destruct (e_math E (n_h s1)); split; discriminate.
  - destruct (full_init E fp tb (deinit s1)) as [ec s2] eqn:Ef. eexists _, s2. split; [reflexivity|].
    pose proof (Live_deinit _ HL1) as HL2.
    assert (Rd : ran s (deinit s1) []) by (apply (ran_trans _ _ _ s s1 _ [] []); [exact R1|]; eapply (ran_skip _ _ _ VNetDeinit); reflexivity).
    assert (Nd : no_loss s (deinit s1)).
    { eapply no_loss_trans; [exact N1|]. exists [VNetDeinit]. split; [reflexivity|repeat constructor]. }
    unfold full_init in Ef. destruct (e_init E (n_h (with_cd fp tb 0 false (deinit s1)))); injection Ef as <- <-.
    + split; [|split; [|split; [|split; [exact F1|split; [exact P1|split; [intros _; split; [exact HI1|split; [apply Nat.le_refl|reflexivity]]|split; discriminate]]]]]].
      * destruct HL2 as ([Hi _] & L2 & _). split; [|split; [exact L2|intros; reflexivity]].
        split; [apply informed_cons; [exact Hi|exact I]|]. left. split; reflexivity.
      * apply (ran_trans _ _ _ s (deinit s1) _ [] []); [exact Rd|]. eapply (ran_skip _ _ _ (VNetInit fp tb)); reflexivity.
      * eapply no_loss_trans; [exact Nd|]. exists [VNetInit fp tb]. split; [reflexivity|repeat constructor].
    + split; [|split; [|split; [|split; [exact F1|split; [exact P1|split; [discriminate|split; discriminate]]]]]].
      * destruct HL2 as ([Hi _] & L2 & _). split; [|split; [exact L2|intros C; inversion C]].
        split; [apply informed_cons; [exact Hi|exact I]|]. left. split; reflexivity.
      * apply (ran_trans _ _ _ s (deinit s1) _ [] []); [exact Rd|]. eapply (ran_skip _ _ _ VNetDeinit); reflexivity.
      * eapply no_loss_trans; [exact Nd|]. exists [VNetDeinit]. split; [reflexivity|repeat constructor].
Qed.

Lemma Rdy_Live h0 ph s : Rdy oneA oneB S E O fp tb h0 ph s -> Live s.
Proof. intros (H1 & H2 & H3 & H4 & _). split; [exact H4|]. split; [right; eauto|auto]. Qed.

(** the losses reported in the session *)
Definition losses_ok (h0 h : list event) : Prop :=
  forall h1 id v h2, h = h1 ++ VLoss id v :: h2 -> length h0 <= length h2 -> right_loss oneA oneB S E O fp h2 id v.

Lemma no_loss_ok s s' : no_loss s s' -> losses_ok (n_h s) (n_h s').
Proof.
  intros (new & En & Hn) h1 id v h2 Eq Hl. exfalso. rewrite En in Eq. clear En. revert h1 Eq.
  induction new as [|u new IH]; intros h1 Eq; cbn in Eq.
  - rewrite Eq, app_length in Hl. cbn in Hl. lia.
  - inversion_clear Hn. destruct h1 as [|w h1]; cbn in Eq; injection Eq as E1 E2; [subst u; assumption|]. exact (IH H0 h1 E2).
Qed.
Lemma losses_ok_log h0 h (v : event) : losses_ok h0 h -> match v with VLoss _ _ => False | _ => True end -> losses_ok h0 (v :: h).
Proof.
  intros H Hv h1 id l h2 Eq Hl. destruct h1 as [|u h1]; cbn in Eq; injection Eq as E1 E2; [subst v; contradiction|].
  exact (H _ _ _ _ E2 Hl).
Qed.

Definition outcome (ec : ecode) (s s' : nn) : Prop :=
  match ec with
  | ESuccess | EDiverged => exists perms f, ec = code f /\ perms_ok S O perms f /\ ran s s' (session_plan S O fp tb perms f)
  | EObserver => ran s s' [AObsInit false]
  | _ => ran s s' []
  end.

Lemma body_ok s : Live s ->
  exists ec s', train_body oneA oneB S E O s = Some (ec, s') /\ Live s' /\ outcome ec s s' /\ losses_ok (n_h s) (n_h s').
Proof.
  intros HL. unfold train_body.
  assert (HLf : Live (with_full (o_full O) s)) by exact HL.
  destruct (init_ok _ HLf) as (ec & s1 & -> & HL1 & R1 & N1 & F1 & P1 & Hs & Hd & Ho). cbn [obind].
  change (ran s s1 []) in R1. change (no_loss s s1) in N1.
  assert (HB : ec <> ESuccess -> outcome ec s s1).
  { intros Q. destruct ec; try exact R1; congruence. }
  destruct ec; try (eexists _, s1; split; [reflexivity|]; split; [exact HL1|]; split; [apply HB; discriminate|]; apply no_loss_ok; exact N1).
  clear HB. destruct (Hs eq_refl) as ((ph & HI) & Hc1 & Hc2).
  set (s2 := if n_full s1 then with_full (e_addW E || e_addA E) s1 else s1).
  assert (H2 : n_h s2 = n_h s1 /\ n_td s2 = n_td s1 /\ c_fp s2 = c_fp s1 /\ c_tb s2 = c_tb s1 /\ c_cur s2 = c_cur s1 /\
     n_full s2 = o_full O && (e_addW E || e_addA E)).
  { cbn [with_full n_full] in F1. unfold s2. rewrite F1. destruct (o_full O); cbn; rewrite ?F1; repeat split. }
  destruct H2 as (Eh & Et & Ec1 & Ec2 & Ec3 & Ef).
  assert (HL2 : Live s2).
  { destruct HL1 as ([L1 L1'] & L2 & L3). unfold Live, told_ok. rewrite Eh, Et, Ec1, Ec2, Ec3. auto. }
  assert (R2 : ran s s2 []).
  { apply (ran_trans _ _ _ s s1 s2 [] []); [exact R1|]. apply ran_refl. exact Eh. }
  assert (N2 : no_loss s s2) by (eapply no_loss_trans; [exact N1|apply no_loss_refl; exact Eh]).
  destruct (e_oninit E (n_h s2)); cbn [negb];
    [|exists ECallback, s2; split; [reflexivity|]; split; [exact HL2|]; split; [exact R2|apply no_loss_ok; exact N2]].
  set (ok := e_obs E (n_h s2)).
  assert (R3 : ran s (log (VObsInit ok) s2) [AObsInit ok]).
  { apply (ran_trans _ _ _ s s2 _ [] [AObsInit ok]); [exact R2|]. eapply (ran_log _ _ _ (VObsInit ok)); reflexivity. }
  assert (N3 : no_loss s (log (VObsInit ok) s2)) by (eapply no_loss_trans; [exact N2|apply no_loss_log; exact I]).
  assert (T3 : told_ok (log (VObsInit ok) s2)) by (apply told_ok_log; [apply HL2|exact I]).
  destruct ok; cbn [negb].
  2:{ eexists EObserver, _. split; [reflexivity|]. split; [|split; [exact R3|apply no_loss_ok; exact N3]].
      split; [exact T3|]. split; [apply HL2|apply HL2]. }
  set (s4 := log (VStart tb fp) (log (VObsInit true) s2)).
  assert (R4 : ran s s4 [AObsInit true; AStart tb fp]).
  { apply (ran_trans _ _ _ s (log (VObsInit true) s2) _ [AObsInit true] [AStart tb fp]); [exact R3|].
    eapply (ran_log _ _ _ (VStart tb fp)); [reflexivity|cbn; auto|reflexivity]. }
  assert (HR4 : Rdy oneA oneB S E O fp tb (n_h s) ph s4).
  { split; [cbn; rewrite Et; exact HI|]. split; [cbn; congruence|]. split; [cbn; congruence|]. split.
    - apply told_ok_log; [exact T3|exact I].
    - split; [exact Ef|]. apply no_loss_ok. eapply no_loss_trans; [exact N3|apply no_loss_log; exact I]. }
  destruct (report_ok oneA oneB S E O fp tb HS HE (n_h s) (-1)%Z ph s4 HR4) as (l & s5 & E5 & (ph5 & HR5) & R5). rewrite E5. cbn [obind].
  pose proof HR5 as (HI5 & Hf5 & Ht5 & _). pose proof HI5 as (_ & _ & _ & I4 & _).
  destruct (set_mode_ok oneA oneB S E O fp tb (n_h s) _ true tb s5 HR5) as (s6 & E6 & HR6 & T6 & C6 & _ & _ & R6 & _ & _); [lia|cbv iota; lia|].
  unfold set_mode_and_batch_size. cbn [Nat.eqb]. rewrite Ht5, E6. cbn [obind].
  destruct (epochs_ok oneA oneB S E O fp tb HS HE (n_h s) (o_epochs O) 0 _ s6 HR6 T6 C6 eq_refl)
    as (ec & s7 & perms & f & E7 & (ph7 & HR7) & Hec & Hps & Hlen & R7).
  rewrite E7. cbn [obind].
  set (s8 := match ec with ESuccess => if o_time O then s7 else log VEnd s7 | _ => s7 end).
  assert (R8 : ran s7 s8 (match f with Diverged => [] | _ => if o_time O then [] else [AEnd] end)).
  { unfold s8. subst ec. destruct f; cbn [code]; try (apply ran_refl; reflexivity);
      (destruct (o_time O); [apply ran_refl; reflexivity|eapply (ran_log _ _ _ VEnd); [reflexivity|exact I|reflexivity]]). }
  assert (HR8 : Rdy oneA oneB S E O fp tb (n_h s) ph7 s8).
  { unfold s8. destruct ec; try exact HR7. destruct (o_time O); [exact HR7|]. apply Rdy_log; [exact HR7|exact I]. }
  pose proof (Rdy_log oneA oneB S E O fp tb (n_h s) ph7 VObsDeinit s8 HR8 I) as HR9.
  eexists ec, _. split; [reflexivity|]. split; [exact (Rdy_Live _ _ _ HR9)|]. split.
  - assert (RR : ran s (log VObsDeinit s8) (session_plan S O fp tb perms f)).
    { unfold session_plan. eapply ran_trans; [exact R4|]. eapply ran_trans; [exact R5|].
      eapply ran_trans; [exact (ran_trans _ _ _ _ _ _ [] _ R6 R7)|]. eapply ran_trans; [exact R8|].
      eapply (ran_log _ _ _ VObsDeinit); [reflexivity|exact I|reflexivity]. }
    unfold outcome. assert (HP : perms_ok S O perms f) by (split; [exact Hps|]; destruct f; exact Hlen).
    subst ec. destruct f; cbn [code]; exists perms; eexists; (split; [|split; [exact HP|exact RR]]); reflexivity.
  - exact (proj2 (proj2 (proj2 (proj2 (proj2 HR9))))).
Qed.

Theorem session_ok s : Live s ->
  exists ec s' new, train oneA oneB S E O s = Some (ec, s') /\ Live s' /\ n_h s' = new ++ n_h s /\
    session oneA oneB S O fp tb ec (rev new) /\ informed (n_h s') /\ losses_ok (n_h s) (n_h s').
Proof.
  intros HL. unfold train. rewrite (coherent_nonempty oneA S HS).
  destruct (xWidth S =? e_in E); cbn [negb].
  2:{ exists EInvalidInputLayer, s, []. split; [reflexivity|]. split; [exact HL|]. split; [reflexivity|]. split; [reflexivity|].
      split; [apply HL|]. apply no_loss_ok, no_loss_refl. reflexivity. }
  destruct (yWidth S =? e_out E); cbn [negb].
  2:{ exists EInvalidOutputLayer, s, []. split; [reflexivity|]. split; [exact HL|]. split; [reflexivity|]. split; [reflexivity|].
      split; [apply HL|]. apply no_loss_ok, no_loss_refl. reflexivity. }
  set (s1 := if o_insp O then turn_on true s else s).
  assert (H1 : Live s1 /\ ran s s1 [] /\ length (n_h s) <= length (n_h s1) /\ no_loss s s1).
  { unfold s1. destruct (o_insp O).
    - split; [|split; [eapply (ran_skip _ _ _ (VInspector true)); reflexivity|split; [cbn; lia|exists [VInspector true]; split; [reflexivity|repeat constructor]]]].
      destruct HL as ([La Lb] & L2 & L3). split; [|split; assumption]. split; [apply informed_cons; [exact La|exact I]|exact Lb].
    - split; [exact HL|]. split; [apply ran_refl; reflexivity|]. split; [lia|apply no_loss_refl; reflexivity]. }
  destruct H1 as (HL1 & R1 & Ln1 & N1).
  destruct (body_ok s1 HL1) as (ec & s2 & -> & HL2 & Hout & Hls). cbn [obind].
  set (s3 := if o_imm O then deinit (log VTdDeinit (with_td (deinit4all (n_td s2)) s2)) else s2).
  assert (H3 : Live s3 /\ ran s2 s3 [] /\ (losses_ok (n_h s1) (n_h s3))).
  { unfold s3. destruct (o_imm O).
    - split; [exact (Live_deinit _ (Live_td _ HL2))|]. split.
      + exists [VNetDeinit; VTdDeinit]. split; [reflexivity|constructor].
      + apply losses_ok_log; [|exact I]. apply losses_ok_log; [exact Hls|exact I].
    - split; [exact HL2|]. split; [apply ran_refl; reflexivity|exact Hls]. }
  destruct H3 as (HL3 & R3 & Hls3).
  set (s4 := if o_insp O then turn_on (n_insp s) s3 else s3).
  assert (H4 : Live s4 /\ ran s3 s4 [] /\ losses_ok (n_h s1) (n_h s4)).
  { unfold s4. destruct (o_insp O).
    - split; [|split; [eapply (ran_skip _ _ _ (VInspector (n_insp s))); reflexivity|apply losses_ok_log; [exact Hls3|exact I]]].
      destruct HL3 as ([La Lb] & L2 & L3). split; [|split; assumption]. split; [apply informed_cons; [exact La|exact I]|exact Lb].
    - split; [exact HL3|]. split; [apply ran_refl; reflexivity|exact Hls3]. }
  destruct H4 as (HL4 & R4 & Hls4).
  assert (RR : forall a, ran s1 s2 a -> ran s s4 a).
  { intros a Ha. pose proof (ran_trans _ _ _ _ _ _ _ _ (ran_trans _ _ _ _ _ _ _ _ (ran_trans _ _ _ _ _ _ _ _ R1 Ha) R3) R4) as RR.
    cbn [app] in RR. rewrite !app_nil_r in RR. exact RR. }
  assert (HS' : exists new, n_h s4 = new ++ n_h s /\ session oneA oneB S O fp tb ec (rev new)).
  { unfold outcome in Hout. destruct ec;
      try (destruct (RR _ Hout) as (new & En & Fn); exists new; split; [exact En|]; cbn [session]; first [exact Fn|inversion Fn; reflexivity]).
    - destruct Hout as (perms & f & Hc & Hp & Hr). destruct (RR _ Hr) as (new & En & Fn). exists new. split; [exact En|]. exists perms, f. auto.
    - destruct Hout as (perms & f & Hc & Hp & Hr). destruct (RR _ Hr) as (new & En & Fn). exists new. split; [exact En|]. exists perms, f. auto. }
  destruct HS' as (new & En & Hsess).
  exists ec, s4, new. split; [reflexivity|]. split; [exact HL4|]. split; [exact En|]. split; [exact Hsess|]. split; [apply HL4|].
  (* the losses since the very beginning *)
  intros h1 id v h2 Eq Hl. destruct (Nat.le_gt_cases (length (n_h s1)) (length h2)) as [Q|Q]; [exact (Hls4 _ _ _ _ Eq Q)|].
  exfalso. unfold s1 in *. destruct (o_insp O); [|lia].
  cbn [turn_on log n_h length] in Q.
  assert (HG : exists n4, n_h s4 = n4 ++ VInspector true :: n_h s).
  { assert (G : exists n4, n_h s4 = n4 ++ n_h (turn_on true s)).
    { assert (Gb : exists n4, n_h s2 = n4 ++ n_h (turn_on true s)).
      { unfold outcome in Hout. destruct ec; try (destruct Hout as (n4 & Q4 & _); exists n4; exact Q4);
          destruct Hout as (p1 & f1 & _ & _ & (n4 & Q4 & _)); exists n4; exact Q4. }
      destruct Gb as (n4 & Q4). destruct R3 as (n5 & Q5 & _), R4 as (n6 & Q6 & _).
      exists (n6 ++ n5 ++ n4). rewrite Q6, Q5, Q4, !app_assoc. reflexivity. }
    exact G. }
  destruct HG as (n4 & G). rewrite G in Eq.
  assert (length n4 = length h1 /\ VInspector true = VLoss id v :> event) as [_ Bad]; [|discriminate].
  assert (L : length n4 = length h1).
  { apply (f_equal (@length _)) in Eq. rewrite !app_length in Eq. cbn in Eq. lia. }
  split; [exact L|]. clear - Eq L. revert h1 Eq L. induction n4 as [|u n4 IH]; intros [|w h1] Eq L; cbn in *; try lia.
  - injection Eq as E1 _. exact E1.
  - injection Eq as _ E2. apply (IH h1 E2). lia.
Qed.
End Session.

Lemma life_live s : life oneA oneB S fp tb s -> Live s.
Proof.
  induction 1 as [s H1 H2 H3 H4|s E O ec s' H IH HE HO Et|s H IH|s H IH|s H IH].
  - split; [|split; [left; exact H1|intros C; rewrite H2 in C; inversion C]]. split.
    + intros h1 h2 v Eq. rewrite H4 in Eq. destruct h1; discriminate.
    + left. rewrite H4. split; [reflexivity|exact H3].
  - destruct (session_ok E O HE HO s IH) as (ec2 & s2 & new & Q & HL & _). rewrite Q in Et. injection Et as _ <-. exact HL.
  - apply Live_deinit, IH.
  - apply Live_td, IH.
  - exact IH.
Qed.
End P.
