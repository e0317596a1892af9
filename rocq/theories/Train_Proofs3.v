(** Exit paths and divergence: facts about every returning call of train(). *)
From Coq Require Import Reals Lra Permutation.
From Verif Require Import Base BaseLemmas Workers_Model Kern_Model Smx_Model TData_Model TData_Spec Train_Model Train_Spec.
Local Open Scope nat_scope.

Section P.
Context {A B : Type} (oneA : A) (oneB : B).
Notation event := (event A B). Notation env := (env A B). Notation nn := (nn A B).
Context (S : sets A B) (E : env) (O : opts).
Implicit Types (s : nn) (v : event) (P Q : event -> Prop).

Definition em P s s' : Prop := n_insp s' = n_insp s /\ exists new, n_h s' = new ++ n_h s /\ Forall P new.
Lemma em_refl P s s' : n_insp s' = n_insp s -> n_h s' = n_h s -> em P s s'.
Proof. intros H1 H2. split; [exact H1|]. exists []. split; [exact H2|constructor]. Qed.
Lemma em_trans P s1 s2 s3 : em P s1 s2 -> em P s2 s3 -> em P s1 s3.
Proof.
  intros (I1 & n1 & E1 & F1) (I2 & n2 & E2 & F2). split; [congruence|]. exists (n2 ++ n1).
  split; [rewrite E2, E1; apply app_assoc|]. apply Forall_app. split; assumption.
Qed.
Lemma em_log P v s s' : n_insp s' = n_insp s -> n_h s' = v :: n_h s -> P v -> em P s s'.
Proof. intros H1 H2 H3. split; [exact H1|]. exists [v]. split; [exact H2|]. constructor; [exact H3|constructor]. Qed.
Lemma em_log1 P v s : P v -> em P s (log v s).
Proof. apply em_log; reflexivity. Qed.
Lemma em_imp P Q s s' : (forall v, P v -> Q v) -> em P s s' -> em Q s s'.
Proof. intros HI (H1 & n & H2 & H3). split; [exact H1|]. exists n. split; [exact H2|]. eapply Forall_impl; [exact HI|exact H3]. Qed.

Definition in_eval v : Prop := match v with VBatchSize _ | VFprop _ _ _ | VResult _ _ _ | VWalk _ _ | VLoss _ _ => True | _ => False end.
Definition in_init v : Prop := match v with VTdInit _ _ | VNetInit _ _ | VNetDeinit => True | _ => False end.
(** neither a report nor about resources *)
Definition in_epoch v : Prop :=
  match v with VBatchSize _ | VFprop _ _ _ | VResult _ _ _ | VWalk _ _ | VLoss _ _ | VBprop _ _ _ | VEpoch _ _ | VTime _ | VEpochCb _ _
     | VReport _ _ _ => True | _ => False end.
Lemma eval_epoch v : in_eval v -> in_epoch v. Proof. destruct v; cbn; tauto. Qed.

Lemma set_mode_em P tr bs s s' : (forall n, P (VBatchSize n)) -> set_mode tr bs s = Some s' -> em P s s'.
Proof.
  intros HP H. unfold set_mode in H. destruct (guard _) as [[]|]; [|discriminate]. cbn [obind] in H. injection H as <-.
  destruct (_ && _); [apply em_refl; reflexivity|]. eapply em_log; [reflexivity|reflexivity|apply HP].
Qed.

Lemma eval_batch_em id k l s l' s' : eval_batch oneA S E id k (l, s) = Some (l', s') -> em in_eval s s'.
Proof.
  intros H. unfold eval_batch in H. destruct (next_subset _ _ _ _ _) as [t|]; [|discriminate]. cbn [obind] in H.
  destruct (batchX S t) as [x|]; [|discriminate]. destruct (batchY S t) as [y|]; [|discriminate]. cbn [obind] in H.
  destruct (set_mode_and_batch_size _ _) as [s1|] eqn:Q; [|discriminate]. cbn [obind] in H. injection H as _ <-.
  eapply em_trans; [|apply em_log1; exact I].
  eapply em_trans; [|apply em_log1; exact I].
  eapply em_trans; [|eapply set_mode_em; [intros n; exact I|exact Q]]. apply em_refl; reflexivity.
Qed.
Lemma eval_loop_em id n : forall k l s l' s', for_loop k n (eval_batch oneA S E id) (l, s) = Some (l', s') -> em in_eval s s'.
Proof.
  induction n as [|n IH]; intros k l s l' s' H; cbn [for_loop] in H.
  - injection H as _ <-. apply em_refl; reflexivity.
  - destruct (eval_batch _ _ _ _ _ _) as [[l1 s1]|] eqn:Q; [|discriminate]. cbn [obind] in H.
    eapply em_trans; [eapply eval_batch_em; exact Q|eapply IH; exact H].
Qed.
Lemma calc_em id s l s' : calcLossAndReport oneA S E id s = Some (l, s') -> em in_eval s s'.
Proof.
  intros H. unfold calcLossAndReport in H. set (s0 := if e_addA E then _ else _) in H.
  assert (E0 : em in_eval s s0) by (unfold s0; destruct (e_addA E); apply em_refl; reflexivity).
  destruct (walk_over_set _ _ _ _ _ _ _) as [[n t]|]; [|discriminate]. cbn [obind] in H.
  destruct (for_loop _ _ _ _) as [[l1 s1]|] eqn:Q; [|discriminate]. cbn [obind] in H.
  pose proof (eval_loop_em _ _ _ _ _ _ _ Q) as E1.
  assert (E2 : em in_eval s s1).
  { eapply em_trans; [exact E0|]. eapply em_trans; [|exact E1]. eapply (em_log _ (VWalk id n)); [reflexivity|reflexivity|exact I]. }
  destruct (n_full s1).
  - unfold calc_addendum in H. destruct (fl_is0 (n_add s1)); injection H as _ <-;
      (eapply em_trans; [exact E2|]; eapply (em_log _ (VLoss id _)); [reflexivity|reflexivity|exact I]).
  - injection H as _ <-. eapply em_trans; [exact E2|]; eapply (em_log _ (VLoss id _)); [reflexivity|reflexivity|exact I].
Qed.
Lemma report_em e s l s' : report_progress oneA S E e s = Some (l, s') ->
  exists s1 w, em in_eval s s1 /\ s' = log (VReport e l w) s1.
Proof.
  intros H. unfold report_progress in H.
  destruct (calcLossAndReport _ _ _ train_set_id _) as [[l1 s1]|] eqn:Q1; [|discriminate]. cbn [obind] in H.
  destruct (calcLossAndReport _ _ _ test_set_id _) as [[l2 s2]|] eqn:Q2; [|discriminate]. cbn [obind] in H. injection H as <- <-.
  exists s2, l2. split; [|reflexivity]. eapply em_trans; [|eapply calc_em; exact Q2]. eapply em_trans; [|eapply calc_em; exact Q1].
  apply em_refl; reflexivity.
Qed.

Lemma train_loop_em n : forall k s s', for_loop k n (train_batch S E) s = Some s' ->
  em (fun v => match v with VFprop _ _ _ | VBprop _ _ _ => True | _ => False end) s s'.
Proof.
  induction n as [|n IH]; intros k s s' H; cbn [for_loop] in H.
  - injection H as <-. apply em_refl; reflexivity.
  - destruct (train_batch _ _ _ _) as [s1|] eqn:Q; [|discriminate]. cbn [obind] in H.
    eapply em_trans; [|eapply IH; exact H]. unfold train_batch in Q.
    destruct (on_next_batch _ _ _ _) as [t|]; [|discriminate]. cbn [obind] in Q.
    destruct (batchX S t) as [x|]; [|discriminate]. destruct (batchY S t) as [y|]; [|discriminate]. cbn [obind] in Q. injection Q as <-.
    eapply em_trans; [|apply em_log1; exact I]. eapply (em_log _ (VFprop _ _ x)); [reflexivity|reflexivity|exact I].
Qed.

(** an alarm: a checked epoch whose training loss reaches the threshold *)
Definition alarm v : Prop :=
  match v with VReport e l _ => exists n, e = Z.of_nat n /\ checked O n = true /\ fl_ge l (o_thr O) = true | _ => False end.

Lemma epochs_em n : forall e s ec s', epochs oneA S E O n e s = Some (ec, s') ->
  n_insp s' = n_insp s /\ exists new, n_h s' = new ++ n_h s /\ Forall in_epoch new /\
    (ec = ESuccess \/ ec = EDiverged) /\ (ec = EDiverged <-> Exists alarm new).
Proof.
  induction n as [|n IH]; intros e s ec s' H; cbn [epochs] in H.
  - injection H as <- <-. split; [reflexivity|]. exists []. split; [reflexivity|]. split; [constructor|]. split; [auto|].
    split; [discriminate|intros X; inversion X].
  - destruct (on_next_epoch _ _ _ _ _ _) as [[nb t]|]; [|discriminate]. cbn [obind] in H.
    destruct (for_loop 0 nb _ _) as [s1|] eqn:Q1; [|discriminate]. cbn [obind] in H.
    assert (E1 : em (fun v => in_epoch v /\ ~ alarm v) s s1).
    { apply (em_trans _ s (log (VEpoch e nb) (with_td t s))); [apply (em_log _ (VEpoch e nb)); [reflexivity|reflexivity|split; [exact I|exact (fun h => h)]]|].
      eapply em_imp; [|eapply train_loop_em; exact Q1]. intros v Hv; destruct v; try contradiction; split; first [exact I|exact (fun h => h)]. }
    fold (checked O e) in H.
    destruct (if o_cond O e || checked O e then _ else _) as [[dv s2]|] eqn:Q2; [|discriminate]. cbn [obind] in H.
    assert (E2 : n_insp s2 = n_insp s1 /\ exists nw, n_h s2 = nw ++ n_h s1 /\ Forall in_epoch nw /\ (dv = true <-> Exists alarm nw)).
    { assert (HN : em (fun v => in_epoch v /\ ~ alarm v) s1 s2 -> (dv = false) ->
         n_insp s2 = n_insp s1 /\ exists nw, n_h s2 = nw ++ n_h s1 /\ Forall in_epoch nw /\ (dv = true <-> Exists alarm nw)).
      { intros (H1 & nw & H2 & H3) Hd. split; [exact H1|]. exists nw. split; [exact H2|]. rewrite Hd. split.
        - eapply Forall_impl; [|exact H3]. intros v [? _]; assumption.
        - split; [discriminate|]. intros X. exfalso. rewrite Forall_forall in H3. apply Exists_exists in X.
          destruct X as (v & Hin & Ha). destruct (H3 v Hin). contradiction. }
      destruct (o_cond O e || checked O e) eqn:Qc; [|injection Q2 as <- <-; apply HN; [apply em_refl; reflexivity|reflexivity]].
      destruct (o_time O && negb (checked O e)).
      { injection Q2 as <- <-. apply HN; [|reflexivity]. eapply (em_log _ (VTime e)); [reflexivity|reflexivity|]. split; [exact I|exact (fun h => h)]. }
      destruct (report_progress _ _ _ _ _) as [[l s3]|] eqn:Q3; [|discriminate]. cbn [obind] in Q2. injection Q2 as Hd <-.
      destruct (report_em _ _ _ _ Q3) as (s4 & w & (J1 & nw & J2 & J3) & ->). split; [exact J1|].
      exists (VReport (Z.of_nat e) l w :: nw). split; [cbn; rewrite J2; reflexivity|]. split.
      - constructor; [exact I|]. eapply Forall_impl; [|exact J3]. exact eval_epoch.
      - rewrite <- Hd. split.
        + intros X. apply andb_prop in X. destruct X as [X1 X2]. left. exists e. auto.
        + intros X. inversion X as [? ? Ha|? ? Ha]; subst.
          * destruct Ha as (m & Em & Hm1 & Hm2). apply Nat2Z.inj in Em. subst m. rewrite Hm1, Hm2. reflexivity.
          * exfalso. rewrite Forall_forall in J3. apply Exists_exists in Ha. destruct Ha as (v & Hin & Ha). specialize (J3 v Hin).
            destruct v; contradiction. }
    clear Q2. destruct E1 as (I1 & n1 & N1 & F1). destruct E2 as (I2 & n2 & N2 & F2 & A2).
    assert (F1' : Forall in_epoch n1) by (eapply Forall_impl; [|exact F1]; intros v [? _]; assumption).
    assert (A1 : ~ Exists alarm n1).
    { intros X. rewrite Forall_forall in F1. apply Exists_exists in X. destruct X as (v & Hin & Ha). destruct (F1 v Hin). contradiction. }
    destruct dv.
    + injection H as <- <-. split; [congruence|]. exists (n2 ++ n1). split; [rewrite N2, N1; apply app_assoc|].
      split; [apply Forall_app; split; assumption|]. split; [auto|]. split; [|reflexivity]. intros _. apply Exists_app. left. apply A2. reflexivity.
    + assert (A2' : ~ Exists alarm n2) by (intros X; apply A2 in X; discriminate).
      destruct (e_epochcb E (n_h s2) e) eqn:Qg.
      * destruct (set_mode_and_batch_size 0 _) as [s3|] eqn:Q3; [|discriminate]. cbn [obind] in H.
        pose proof (set_mode_em (fun v => in_epoch v /\ ~ alarm v) _ _ _ _ (fun _ => conj I (fun h => h)) Q3) as (I3 & n3 & N3 & F3).
        destruct (IH _ _ _ _ H) as (I4 & n4 & N4 & F4 & C4 & A4).
        split; [cbn [log n_insp] in I3; congruence|]. exists (n4 ++ n3 ++ [VEpochCb e true] ++ n2 ++ n1).
        split; [rewrite N4, N3; cbn [log n_h]; rewrite N2, N1; repeat (cbn [app]; rewrite <- ?app_assoc); reflexivity|].
        split.
        { repeat (apply Forall_app; split); try assumption.
          - eapply Forall_impl; [|exact F3]. intros v [? _]; assumption.
          - constructor; [exact I|constructor]. }
        split; [exact C4|]. rewrite A4, !Exists_app. split; [auto|]. intros [X|[X|[X|[X|X]]]]; auto.
        -- exfalso. rewrite Forall_forall in F3. apply Exists_exists in X. destruct X as (v & Hin & Ha). destruct (F3 v Hin). contradiction.
        -- inversion X as [? ? Ha|? ? Ha]; subst; [contradiction|inversion Ha].
        -- contradiction.
        -- contradiction.
      * injection H as <- <-. split; [cbn; congruence|]. exists (VEpochCb e false :: n2 ++ n1).
        split; [cbn; rewrite N2, N1, <- app_assoc; reflexivity|].
        split; [constructor; [exact I|]; apply Forall_app; split; assumption|]. split; [auto|].
        split; [discriminate|]. intros X. inversion X as [? ? Ha|? ? Ha]; subst; [contradiction|]. apply Exists_app in Ha. tauto.
Qed.

Lemma init_em s ec f t s' : init4train_nn oneA oneB S E O s = Some (ec, f, t, s') -> em in_init s s' /\ ec <> EDiverged.
Proof.
  intros H. unfold init4train_nn in H.
  destruct (match (if o_reinitTd O then None else _) with Some _ => _ | None => _ end) as [[[[e f1] t1] s1]|] eqn:Q; [|discriminate].
  cbn [obind] in H.
  assert (E1 : em in_init s s1).
  { destruct (if o_reinitTd O then None else _) as [[[f2 t2] m2]|].
    - injection Q as _ _ _ <-. apply em_refl; reflexivity.
    - destruct (init4train _ _ _ _ _ _ _ _ _) as [[[[e2 f2] t2] td2]|]; [|discriminate]. cbn [obind] in Q. injection Q as <- <- <- <-.
      destruct e2; try (apply em_refl; reflexivity). eapply em_log; [reflexivity|reflexivity|exact I]. }
  destruct e; try (injection H as <- _ _ <-; split; [exact E1|discriminate]).
  destruct (is_init f1 t1 s1).
  - injection H as <- _ _ <-. split; [exact E1|]. destruct (e_math E (n_h s1)); discriminate.
  - unfold full_init in H. destruct (e_init _ _); injection H as <- _ _ <-; (split; [|discriminate]);
      (eapply em_trans; [exact E1|]; eapply em_trans; [apply (em_log _ VNetDeinit s1 (deinit s1)); [reflexivity|reflexivity|exact I]|]).
    + apply (em_log _ (VNetInit f1 t1)); [reflexivity|reflexivity|exact I].
    + apply (em_log _ VNetDeinit); [reflexivity|reflexivity|exact I].
Qed.

Definition neutral v : Prop := match v with VTdDeinit | VObsInit _ | VObsDeinit => False | _ => True end.
Lemma count_zero f (l : list event) : (forall v, In v l -> f v = false) -> count f l = 0.
Proof.
  intros H. unfold count. induction l as [|v l IH]; [reflexivity|]. cbn. rewrite (H v (or_introl eq_refl)). apply IH.
  intros w Hw. apply H. right. exact Hw.
Qed.
Lemma count_app f (a b : list event) : count f (a ++ b) = count f a + count f b.
Proof. unfold count. rewrite filter_app, app_length. reflexivity. Qed.
Lemma neutral_counts (l : list event) : Forall neutral l -> count is_obs_deinit l = 0 /\ count is_obs_init l = 0 /\ count is_td_deinit l = 0.
Proof.
  intros H. rewrite Forall_forall in H. repeat split; apply count_zero; intros v Hv; specialize (H v Hv); destruct v; try reflexivity; contradiction.
Qed.

Lemma body_em s ec s' : train_body oneA oneB S E O s = Some (ec, s') ->
  n_insp s' = n_insp s /\ exists new, n_h s' = new ++ n_h s /\
    count is_obs_deinit new = count is_obs_init new /\ count is_obs_init new <= 1 /\ count is_td_deinit new = 0 /\
    (ec = EDiverged <-> Exists alarm new).
Proof.
  intros H. unfold train_body in H. destruct (init4train_nn _ _ _ _ _ _) as [[[[ec1 f1] t1] s1]|] eqn:Q; [|discriminate]. cbn [obind] in H.
  destruct (init_em _ _ _ _ _ Q) as [(I1 & n1 & N1 & F1) D1]. cbn [with_full n_insp n_h] in I1, N1.
  assert (C1 : Forall neutral n1) by (eapply Forall_impl; [|exact F1]; intros v; destruct v; cbn; tauto).
  assert (A1 : ~ Exists alarm n1).
  { intros X. rewrite Forall_forall in F1. apply Exists_exists in X. destruct X as (v & Hin & Ha). specialize (F1 v Hin). destruct v; contradiction. }
  destruct (neutral_counts n1 C1) as (c1 & c2 & c3).
  assert (HN : forall e, e <> EDiverged -> (e = EDiverged <-> Exists alarm n1)) by (intros e He; split; [contradiction|intros X; contradiction]).
  assert (HX : forall e, e <> EDiverged -> Some (e, s1) = Some (ec, s') -> n_insp s' = n_insp s /\ exists new, n_h s' = new ++ n_h s /\
    count is_obs_deinit new = count is_obs_init new /\ count is_obs_init new <= 1 /\ count is_td_deinit new = 0 /\
    (ec = EDiverged <-> Exists alarm new)).
  { intros e He Hs. injection Hs as <- <-. split; [exact I1|]. exists n1. split; [exact N1|]. rewrite c1, c2, c3. repeat split; try lia; apply HN, He. }
  destruct ec1; try (apply (HX _ D1 H)). clear HX.
  set (s2 := if n_full s1 then with_full (e_addW E || e_addA E) s1 else s1) in H.
  assert (H2 : n_insp s2 = n_insp s1 /\ n_h s2 = n_h s1) by (unfold s2; destruct (n_full s1); split; reflexivity).
  destruct H2 as [J2 K2].
  destruct (e_oninit E (n_h s2)); cbn [negb] in H.
  2:{ injection H as <- <-. split; [congruence|]. exists n1. split; [congruence|]. rewrite c1, c2, c3. repeat split; try lia; apply HN; discriminate. }
  destruct (e_obs E (n_h s2)); cbn [negb] in H.
  2:{ injection H as <- <-. split; [cbn; congruence|]. exists (VObsInit false :: n1). split; [cbn; rewrite K2, N1; reflexivity|].
      change (VObsInit false :: n1) with ([VObsInit false] ++ n1). rewrite !count_app, c1, c2, c3. cbn.
      split; [lia|]. split; [lia|]. split; [lia|]. split; [discriminate|]. intros X. inversion X as [? ? Ha|? ? Ha]; subst; contradiction. }
  destruct (report_progress _ _ _ _ _) as [[l s3]|] eqn:Q3; [|discriminate]. cbn [obind] in H.
  destruct (report_em _ _ _ _ Q3) as (s4 & w & (I4 & n4 & N4 & F4) & ->). cbn [log n_insp n_h] in I4, N4.
  destruct (set_mode_and_batch_size 0 _) as [s5|] eqn:Q5; [|discriminate]. cbn [obind] in H.
  pose proof (set_mode_em (fun v => in_epoch v /\ ~ alarm v) _ _ _ _ (fun _ => conj I (fun h => h)) Q5) as (I5 & n5 & N5 & F5).
  cbn [log n_insp n_h] in I5, N5.
  destruct (epochs _ _ _ _ _ _ _) as [[ec6 s6]|] eqn:Q6; [|discriminate]. cbn [obind] in H. injection H as <- <-.
  destruct (epochs_em _ _ _ _ _ Q6) as (I6 & n6 & N6 & F6 & C6 & A6).
  set (s7 := match ec6 with ESuccess => _ | _ => _ end).
  assert (H7 : n_insp s7 = n_insp s6 /\ exists n7, n_h s7 = n7 ++ n_h s6 /\ (n7 = [] \/ n7 = [VEnd])).
  { unfold s7. destruct ec6; try (split; [reflexivity|exists []; split; [reflexivity|auto]]). destruct (o_time O).
    - split; [reflexivity|exists []; split; [reflexivity|auto]].
    - split; [reflexivity|exists [VEnd]; split; [reflexivity|auto]]. }
  destruct H7 as (I7 & n7 & N7 & C7). split; [cbn [log n_insp]; congruence|].
  exists ([VObsDeinit] ++ n7 ++ n6 ++ n5 ++ [VReport (-1) l w] ++ n4 ++ [VStart t1 f1] ++ [VObsInit true] ++ n1).
  split.
  { cbn [log n_h]. rewrite N7, N6, N5, N4, K2, N1. repeat (cbn [app]; rewrite <- ?app_assoc). reflexivity. }
  assert (C4 : Forall neutral n4) by (eapply Forall_impl; [|exact F4]; intros v; destruct v; cbn; tauto).
  assert (C5 : Forall neutral n5) by (eapply Forall_impl; [|exact F5]; intros v; destruct v; cbn; tauto).
  assert (C6' : Forall neutral n6) by (eapply Forall_impl; [|exact F6]; intros v; destruct v; cbn; tauto).
  assert (C7' : Forall neutral n7) by (destruct C7 as [-> | ->]; repeat constructor).
  destruct (neutral_counts n4 C4) as (a1 & a2 & a3). destruct (neutral_counts n5 C5) as (b1 & b2 & b3).
  destruct (neutral_counts n6 C6') as (d1 & d2 & d3). destruct (neutral_counts n7 C7') as (e1 & e2 & e3).
  rewrite !count_app, a1, a2, a3, b1, b2, b3, c1, c2, c3, d1, d2, d3, e1, e2, e3. cbn.
  split; [lia|]. split; [lia|]. split; [lia|].
  rewrite A6. rewrite Exists_cons, !Exists_app, !Exists_cons, !Exists_app, !Exists_cons. split; [tauto|].
  assert (K4 : ~ Exists alarm n4).
  { intros X. rewrite Forall_forall in F4. apply Exists_exists in X. destruct X as (v & Hin & Ha). specialize (F4 v Hin). destruct v; contradiction. }
  assert (K5 : ~ Exists alarm n5).
  { intros X. rewrite Forall_forall in F5. apply Exists_exists in X. destruct X as (v & Hin & Ha). destruct (F5 v Hin). contradiction. }
  assert (K7 : ~ Exists alarm n7).
  { destruct C7 as [-> | ->]; intros X; inversion X as [? ? Ha|? ? Ha]; subst; [contradiction|inversion Ha]. }
  assert (Kr : ~ alarm (VReport (-1) l w)) by (intros (m & Em & _); lia).
  cbn [alarm] in *. tauto.
Qed.

Theorem exits s ec s' : train oneA oneB S E O s = Some (ec, s') ->
  (s' = s /\ (ec = EInvalidTD \/ ec = EInvalidInputLayer \/ ec = EInvalidOutputLayer)) \/
  (n_insp s' = n_insp s /\ exists new, n_h s' = new ++ n_h s /\
    count is_obs_deinit new = count is_obs_init new /\ count is_obs_init new <= 1 /\
    count is_td_deinit new = Nat.b2n (o_imm O) /\
    (o_imm O = true -> c_fp s' = 0 /\ c_tb s' = 0 /\ n_td s' = deinit4all (n_td s') /\ net_up (n_h s') = false) /\
    (ec = EDiverged <-> Exists alarm new)).
Proof.
  intros H. unfold train in H. destruct (sets_empty S); [injection H as <- <-; left; auto|].
  destruct (xWidth S =? e_in E); cbn [negb] in H; [|injection H as <- <-; left; auto].
  destruct (yWidth S =? e_out E); cbn [negb] in H; [|injection H as <- <-; left; auto].
  right. set (s1 := if o_insp O then turn_on true s else s) in H.
  destruct (train_body _ _ _ _ _ s1) as [[ec2 s2]|] eqn:Q; [|discriminate]. cbn [obind] in H. injection H as <- <-.
  destruct (body_em _ _ _ Q) as (I2 & n2 & N2 & c1 & c2 & c3 & A2).
  set (s3 := if o_imm O then _ else s2).
  assert (H1 : exists n1, n_h s1 = n1 ++ n_h s /\ (n1 = [] \/ n1 = [VInspector true])).
  { unfold s1. destruct (o_insp O); [exists [VInspector true]; split; [reflexivity|auto]|exists []; split; [reflexivity|auto]]. }
  destruct H1 as (n1 & N1 & C1).
  assert (H3 : n_insp s3 = n_insp s2 /\ exists n3, n_h s3 = n3 ++ n_h s2 /\
     n3 = (if o_imm O then [VNetDeinit; VTdDeinit] else [])).
  { unfold s3. destruct (o_imm O); (split; [reflexivity|]); eexists; (split; [|reflexivity]); reflexivity. }
  destruct H3 as (I3 & n3 & N3 & C3).
  split.
  { destruct (o_insp O) eqn:Qi; [reflexivity|]. unfold s1 in *. cbn in *. congruence. }
  exists ((if o_insp O then [VInspector (n_insp s)] else []) ++ n3 ++ n2 ++ n1).
  split; [destruct (o_insp O); cbn [turn_on log n_h app]; rewrite N3, N2, N1, <- !app_assoc; reflexivity|].
  assert (K : forall f : event -> bool, (forall b, f (VInspector b) = false) ->
     count f ((if o_insp O then [VInspector (n_insp s)] else []) ++ n3 ++ n2 ++ n1) = count f n3 + count f n2).
  { intros f Hf. rewrite !count_app.
    assert (count f (if o_insp O then [VInspector (n_insp s)] else []) = 0) as ->
      by (destruct (o_insp O); unfold count; cbn; rewrite ?Hf; reflexivity).
    assert (count f n1 = 0) as -> by (destruct C1 as [-> | ->]; unfold count; cbn; rewrite ?Hf; reflexivity). lia. }
  assert (AA : Exists alarm ((if o_insp O then [VInspector (n_insp s)] else []) ++ n3 ++ n2 ++ n1) <-> Exists alarm n2).
  { assert (Z1 : ~ Exists alarm (if o_insp O then [VInspector (n_insp s)] else [])).
    { destruct (o_insp O); intros X; inversion X as [? ? Ha|? ? Ha]; subst; [contradiction|inversion Ha]. }
    assert (Z2 : ~ Exists alarm n3).
    { rewrite C3. destruct (o_imm O); intros X; inversion X as [? ? Ha|? ? Ha]; subst; [contradiction|].
      inversion Ha as [? ? Hb|? ? Hb]; subst; [contradiction|inversion Hb]. }
    assert (Z3 : ~ Exists alarm n1).
    { destruct C1 as [-> | ->]; intros X; inversion X as [? ? Ha|? ? Ha]; subst; [contradiction|inversion Ha]. }
    rewrite !Exists_app. tauto. }
  rewrite !K by reflexivity. rewrite c1, c3, C3 in *. rewrite AA.
  split; [|split; [|split; [|split; [|exact A2]]]].
  - destruct (o_imm O); unfold count; cbn; lia.
  - destruct (o_imm O); unfold count in *; cbn; lia.
  - destruct (o_imm O); unfold count; cbn; lia.
  - intros Qm. unfold s3. rewrite Qm. destruct (o_insp O); repeat split.
Qed.
End P.
