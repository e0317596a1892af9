(** A training session follows its plan. *)
From Coq Require Import Reals Lra Permutation.
From Verif Require Import Base BaseLemmas Workers_Model Kern_Model Kern_Spec Smx_Model Smx_Spec TData_Model TData_Spec
  TData_Proofs TData_Proofs2 TData_Proofs3 TData_Proofs4 TData_Proofs5 Train_Model Train_Spec.
Local Open Scope nat_scope.

Section P.
Context {A B : Type} (oneA : A) (oneB : B).
Notation event := (event A B). Notation env := (env A B). Notation nn := (nn A B).
Context (S : sets A B) (E : env) (O : opts) (fp tb : nat).
Context (HS : coherent oneA S) (HE : env_ok E) (h0 : list event).
Notation shows := (shows oneA oneB S).

(** ** Accumulating the trace *)
Definition ran (s s' : nn) (acts : list act) : Prop :=
  exists new, n_h s' = new ++ n_h s /\ Forall2 shows (filter planned (rev new)) acts.

Lemma ran_refl s s' : n_h s' = n_h s -> ran s s' [].
Proof. intros H. exists []. split; [exact H|constructor]. Qed.
Lemma ran_trans s1 s2 s3 a b : ran s1 s2 a -> ran s2 s3 b -> ran s1 s3 (a ++ b).
Proof.
  intros (n1 & E1 & F1) (n2 & E2 & F2). exists (n2 ++ n1). split.
  - rewrite E2, E1. apply app_assoc.
  - rewrite rev_app_distr, filter_app. apply Forall2_app; assumption.
Qed.
Lemma ran_log v s s' a : n_h s' = v :: n_h s -> shows v a -> planned v = true -> ran s s' [a].
Proof.
  intros H Hs Hp. exists [v]. split; [exact H|]. cbn. rewrite Hp. constructor; [exact Hs|constructor].
Qed.
Lemma ran_skip v s s' : n_h s' = v :: n_h s -> planned v = false -> ran s s' [].
Proof. intros H Hp. exists [v]. split; [exact H|]. cbn. rewrite Hp. constructor. Qed.

(** ** What the layers know *)
Definition told_ok (s : nn) : Prop :=
  informed (n_h s) /\ ((told (n_h s) = None /\ c_cur s = 0) \/ (told (n_h s) = Some (c_cur s) /\ 0 < c_cur s)).

Lemma informed_cons (v : event) (h : list event) : informed h ->
  match v with VFprop _ bs _ | VBprop _ bs _ => told h = Some bs | _ => True end -> informed (v :: h).
Proof.
  intros H Hv h1 h2 w Eq. destruct h1 as [|u h1]; cbn in Eq; injection Eq as -> ->; [exact Hv|].
  eapply H. reflexivity.
Qed.

(** only events that leave the weights alone *)
Definition quiet (s s' : nn) : Prop := exists new, n_h s' = new ++ n_h s /\ forallb (fun v => negb (learning v)) new = true.
Lemma quiet_refl s s' : n_h s' = n_h s -> quiet s s'.
Proof. intros H. exists []. split; [exact H|reflexivity]. Qed.
Lemma quiet_trans s1 s2 s3 : quiet s1 s2 -> quiet s2 s3 -> quiet s1 s3.
Proof.
  intros (n1 & E1 & F1) (n2 & E2 & F2). exists (n2 ++ n1). split; [rewrite E2, E1; apply app_assoc|].
  rewrite forallb_app, F1, F2. reflexivity.
Qed.
Lemma quiet_log v s s' : n_h s' = v :: n_h s -> learning v = false -> quiet s s'.
Proof. intros H Hv. exists [v]. split; [exact H|]. cbn. rewrite Hv. reflexivity. Qed.

Lemma loss_of_app L (h1 h : list event) : loss_of oneA oneB S E L (h1 ++ h) -> loss_of oneA oneB S E L h.
Proof. intros H g1 v g2 ->. apply (H (h1 ++ g1)). apply app_assoc. Qed.
Lemma loss_of_quiet L s s' : loss_of oneA oneB S E L (n_h s') -> quiet s s' -> loss_of oneA oneB S E L (n_h s) /\
  forall id i, L (n_h s') id i = L (n_h s) id i.
Proof.
  intros H (new & Eq & F). rewrite Eq in *. split; [exact (loss_of_app _ _ _ H)|].
  clear Eq s'. induction new as [|v new IH]; [reflexivity|]. cbn [forallb] in F. apply andb_prop in F. destruct F as [F1 F2].
  intros id i. cbn [app]. rewrite (proj1 (H [] v _ eq_refl)); [|destruct (learning v); [discriminate|reflexivity]].
  apply IH; [|exact F2]. exact (loss_of_app L [v] _ H).
Qed.
Lemma sum_over_ext (f g : nat -> R) l : (forall i, f i = g i) -> sum_over f l = sum_over g l.
Proof. intros H. induction l as [|i l IH]; [reflexivity|]. cbn. fold (sum_over f l). fold (sum_over g l). rewrite H, IH. reflexivity. Qed.
Lemma mean_over_ext (f g : nat -> R) l : (forall i, f i = g i) -> mean_over f l = mean_over g l.
Proof. intros H. unfold mean_over. rewrite (sum_over_ext _ _ _ H). reflexivity. Qed.

(** losses reported since [h0] *)
Definition right_loss (h : list event) (id : nat) (v : fl) : Prop :=
  forall L, loss_of oneA oneB S E L h -> o_full O && (e_addW E || e_addA E) = false ->
    v = Some (batched (L h id) (cnt S id) (Nat.min fp (cnt S id))).
Definition rep_ok (s : nn) : Prop :=
  n_full s = o_full O && (e_addW E || e_addA E) /\
  forall h1 id v h2, n_h s = h1 ++ VLoss id v :: h2 -> length h0 <= length h2 -> right_loss h2 id v.

Lemma rep_ok_log v s : rep_ok s -> match v with VLoss id l => right_loss (n_h s) id l | _ => True end -> rep_ok (log v s).
Proof.
  intros [H1 H2] Hv. split; [exact H1|]. intros h1 id l h2 Eq Hl. cbn [log n_h] in Eq.
  destruct h1 as [|u h1]; cbn in Eq; injection Eq as Ev Eh.
  - subst v h2. exact Hv.
  - exact (H2 _ _ _ _ Eh Hl).
Qed.

(** the session is under way *)
Definition Rdy (ph : phase) (s : nn) : Prop :=
  Inv oneA oneB S fp tb (n_td s) ph /\ fp <= c_fp s /\ c_tb s = tb /\ told_ok s /\ rep_ok s.

Lemma told_ok_log v s : told_ok s ->
  match v with
  | VFprop _ bs _ | VBprop _ bs _ => told (n_h s) = Some bs
  | VBatchSize _ | VNetInit _ _ | VNetDeinit => False | _ => True end ->
  told_ok (log v s).
Proof.
  intros [Hi Ht] Hv. split.
  - apply informed_cons; [exact Hi|]. destruct v; auto; contradiction.
  - cbn [log n_h c_cur]. destruct v; try contradiction; exact Ht.
Qed.
Lemma Rdy_log ph v s : Rdy ph s ->
  match v with
  | VFprop _ bs _ | VBprop _ bs _ => told (n_h s) = Some bs
  | VBatchSize _ | VNetInit _ _ | VNetDeinit => False
  | VLoss id l => right_loss (n_h s) id l
  | _ => True end ->
  Rdy ph (log v s).
Proof.
  intros (H1 & H2 & H3 & H4 & H5) Hv. do 3 (split; [assumption|]). split.
  - apply told_ok_log; [exact H4|]. destruct v; auto.
  - apply rep_ok_log; [exact H5|]. destruct v; auto.
Qed.
Lemma Rdy_td ph ph' t s : Rdy ph s -> Inv oneA oneB S fp tb t ph' -> Rdy ph' (with_td t s).
Proof. intros (H1 & H2 & H3 & H4 & H5) Hv. do 4 (split; [assumption|]). exact H5. Qed.
Lemma Rdy_add ph a s : Rdy ph s -> Rdy ph (with_add a s).
Proof. intros (H1 & H2 & H3 & H4 & H5). do 4 (split; [assumption|]). exact H5. Qed.

Lemma set_mode_ok ph (tr : bool) bs s : Rdy ph s -> 0 < bs -> (if tr then bs <= tb else bs <= fp) ->
  exists s', set_mode tr bs s = Some s' /\ Rdy ph s' /\ c_train s' = tr /\ c_cur s' = bs /\ n_td s' = n_td s /\
    told (n_h s') = Some bs /\ ran s s' [] /\ quiet s s' /\ n_add s' = n_add s.
Proof.
  intros (H1 & H2 & H3 & [Hi Ht] & H5) Hb Hl. unfold set_mode.
  assert (((0 <? bs) && (if tr then bs <=? c_tb s else bs <=? c_fp s)) = true) as ->.
  { apply andb_true_intro. split; [apply Nat.ltb_lt; exact Hb|]. destruct tr; apply Nat.leb_le; lia. }
  cbn [guard obind]. destruct (Bool.eqb tr (c_train s) && (bs =? c_cur s)) eqn:Q.
  - apply andb_prop in Q. destruct Q as [Q1 Q2]. apply Bool.eqb_prop in Q1. apply Nat.eqb_eq in Q2.
    exists s. split; [reflexivity|]. split; [split; [exact H1|split; [exact H2|split; [exact H3|split; [split; assumption|exact H5]]]]|].
    split; [congruence|]. split; [congruence|]. split; [reflexivity|]. split; [|split; [|split; [apply quiet_refl|]; reflexivity]].
    + destruct Ht as [[_ Ht]|[Ht _]]; [lia|congruence].
    + apply ran_refl. reflexivity.
  - eexists. split; [reflexivity|]. split.
    { split; [exact H1|]. split; [exact H2|]. split; [exact H3|]. split; [|apply (rep_ok_log (VBatchSize bs) s H5 I)]. split; [apply informed_cons; [exact Hi|exact I]|]. right. split; [reflexivity|exact Hb]. }
    do 4 (split; [reflexivity|]). split; [apply (ran_skip (VBatchSize bs)); reflexivity|]. split; [apply (quiet_log (VBatchSize bs)); reflexivity|reflexivity].
Qed.

(** ** Evaluation *)
Lemma subsets_lt n b k : 0 < b -> k < subsets n b -> b * k < n.
Proof.
  intros Hb Hk. unfold subsets in Hk. pose proof (Nat.div_mod n b ltac:(lia)) as D.
  destruct (Nat.ltb_spec 1 (n mod b)).
  - assert (k <= n / b) by lia. nia.
  - assert (k + 1 <= n / b) by lia. nia.
Qed.
Lemma slice_length l n k : length (slice l n k) = Nat.min n (length l - n * k).
Proof. unfold slice. rewrite firstn_length, skipn_length. reflexivity. Qed.

Lemma eval_batch_ok id b k l s : Rdy (Walking id b 0 k) s -> b <= fp -> 0 < b -> k < subsets (cnt S id) b ->
  exists l' s', eval_batch oneA S E id k (l, s) = Some (l', s') /\ Rdy (Walking id b 0 (k + 1)) s' /\
    quiet s s' /\
    (forall L a, id < 2 -> loss_of oneA oneB S E L (n_h s') -> l = Some a ->
       l' = Some (a + mean_over (L (n_h s) id) (slice (seq 0 (cnt S id)) b k))%R) /\
    ran s s' [AEval id (slice (seq 0 (cnt S id)) b k); AResult id k (slice (seq 0 (cnt S id)) b k)].
Proof.
  intros HR Hbf Hb0 Hk. pose proof HR as (HI & H2 & H3 & Ht).
  destruct (subset_step oneA oneB S fp tb (n_td s) _ (e_im E (n_h s)) k HS HI) as (ob & t' & ph' & Es & Hsp & HI').
  { cbn [allowed]. split; [apply HE|]. split; [reflexivity|exact Hk]. }
  cbn [step] in Es. cbn [spec_step] in Hsp. destruct Hsp as [(ox & oy & Eo & (bx & -> & Hx) & (by_ & -> & Hy)) ->].
  unfold eval_batch. destruct (next_subset oneA (e_im E (n_h s)) S (n_td s) k) as [t|]; [|discriminate].
  cbn [obind] in Es. injection Es as Eo' <-. rewrite Eo in Eo'. injection Eo' as Ex Ey.
  cbn [obind n_td with_td]. rewrite Ex, Ey. cbn [obind].
  pose proof (Rdy_td _ _ _ _ HR HI') as HR1.
  pose proof Hx as (Lx & _). set (ids := slice (seq 0 (cnt S id)) b k) in *.
  assert (Hl : 0 < length ids <= fp).
  { unfold ids. rewrite slice_length, seq_length. pose proof (subsets_lt (cnt S id) b k Hb0 Hk). lia. }
  destruct (set_mode_ok _ false (batch_size bx) _ HR1) as (s1 & E1 & HR2 & T1 & C1 & Td & Tl & Rn & Le & A1); [lia|cbv iota; lia|].
  unfold set_mode_and_batch_size. assert ((batch_size bx =? 0) = false) as -> by (apply Nat.eqb_neq; lia).
  rewrite E1. cbn [obind]. rewrite T1, C1. eexists _, _. split; [reflexivity|]. split; [|split; [|split]].
  - apply Rdy_log; [|exact I]. apply Rdy_log; [exact HR2|exact Tl].
  - apply (quiet_trans _ (with_td t s)); [apply quiet_refl; reflexivity|]. eapply quiet_trans; [exact Le|].
    eapply quiet_trans; [eapply (quiet_log (VFprop false (batch_size bx) bx) s1 (log (VFprop false (batch_size bx) bx) s1)); reflexivity|].
    eapply (quiet_log (VResult id k by_)); reflexivity.
  - intros L a Hid HL ->. cbn [log n_h]. rewrite (proj2 (HL [VResult id k by_] _ _ eq_refl) _ _ _ id ids eq_refl Hid Hx Hy).
    assert (HL2 : loss_of oneA oneB S E L (n_h s1)) by (apply (loss_of_app L [VResult id k by_; VFprop false (batch_size bx) bx]); exact HL).
    pose proof (proj2 (loss_of_quiet L _ _ HL2 Le)) as HLe. cbn [with_td n_h] in HLe. pose proof Hy as (Ly & _).
    unfold fl_div, fl_add. cbn [obind]. rewrite Ly. assert ((length ids =? 0) = false) as -> by (apply Nat.eqb_neq; lia).
    rewrite (sum_over_ext _ _ ids (HLe id)). reflexivity.
  - change [AEval id ids; AResult id k ids] with ([] ++ [AEval id ids] ++ [AResult id k ids]).
    eapply ran_trans; [exact Rn|]. eapply ran_trans.
    + eapply (ran_log (VFprop false (batch_size bx) bx) s1 (log (VFprop false (batch_size bx) bx) s1)); [reflexivity| |reflexivity].
      split; [exact Hx|exact Lx].
    + eapply ran_log; [reflexivity| |reflexivity]. cbn. auto.
Qed.

Lemma eval_loop_ok id b : b <= fp -> 0 < b -> forall n k l s, Rdy (Walking id b 0 k) s -> k + n <= subsets (cnt S id) b ->
  exists l' s', for_loop k n (eval_batch oneA S E id) (l, s) = Some (l', s') /\ Rdy (Walking id b 0 (k + n)) s' /\
    quiet s s' /\
    (forall L a, id < 2 -> loss_of oneA oneB S E L (n_h s') -> l = Some a ->
       l' = Some (a + sum_over (fun k => mean_over (L (n_h s) id) (slice (seq 0 (cnt S id)) b k)) (seq k n))%R) /\
    ran s s' (flat_map (fun k => let ids := slice (seq 0 (cnt S id)) b k in [AEval id ids; AResult id k ids]) (seq k n)).
Proof.
  intros Hbf Hb. induction n as [|n IH]; intros k l s HR Hk.
  - exists l, s. split; [reflexivity|]. rewrite Nat.add_0_r. split; [exact HR|]. split; [apply quiet_refl; reflexivity|].
    split; [intros L a _ _ ->; cbn; rewrite Rplus_0_r; reflexivity|]. apply ran_refl. reflexivity.
  - destruct (eval_batch_ok id b k l s HR Hbf Hb ltac:(lia)) as (l1 & s1 & E1 & HR1 & F1 & L1 & R1).
    destruct (IH (Datatypes.S k) l1 s1) as (l2 & s2 & E2 & HR2 & F2 & L2 & R2); [rewrite <- Nat.add_1_r; exact HR1|lia|].
    exists l2, s2. cbn [for_loop]. rewrite E1. cbn [obind]. split; [exact E2|]. split; [replace (k + Datatypes.S n) with (Datatypes.S k + n) by lia; exact HR2|].
    split; [exact (quiet_trans _ _ _ F1 F2)|]. split.
    { intros L a Hid HL Ha. pose proof (proj2 (loss_of_quiet L _ _ (proj1 (loss_of_quiet L _ _ HL F2)) F1)) as HLe. rewrite (L2 L _ Hid HL (L1 L a Hid (proj1 (loss_of_quiet L _ _ HL F2)) Ha)). cbn [seq sum_over fold_right].
      fold (sum_over (fun k => mean_over (L (n_h s) id) (slice (seq 0 (cnt S id)) b k)) (seq (Datatypes.S k) n)).
      rewrite (sum_over_ext (fun k => mean_over (L (n_h s1) id) (slice (seq 0 (cnt S id)) b k))
        (fun k => mean_over (L (n_h s) id) (slice (seq 0 (cnt S id)) b k))) by (intros i; apply mean_over_ext, HLe).
      f_equal. lra. }
    cbn [seq flat_map]. exact (ran_trans _ _ _ _ _ R1 R2).
Qed.

Lemma coherent_nonempty : sets_empty S = false.
Proof.
  destruct HS as ((W1 & W2 & _) & (W3 & W4 & _) & _). unfold sets_empty, empty.
  destruct W1 as (_ & _ & l1 & D1 & _), W2 as (_ & _ & l2 & D2 & _), W3 as (_ & _ & l3 & D3 & _), W4 as (_ & _ & l4 & D4 & _).
  rewrite D1, D2, D3, D4. reflexivity.
Qed.

Lemma calcLossAndReport_ok id ph s : id < 2 -> Rdy ph s ->
  exists l s', calcLossAndReport oneA S E id s = Some (l, s') /\ (exists ph', Rdy ph' s') /\
    ran s s' (eval_plan S fp id).
Proof.
  intros Hid HR. unfold calcLossAndReport.
  set (s0 := if e_addA E then with_add (Some 0%R) s else s).
  assert (HR0 : Rdy ph s0) by (unfold s0; destruct (e_addA E); [apply Rdy_add|]; exact HR).
  assert (Hh : n_h s0 = n_h s) by (unfold s0; destruct (e_addA E); reflexivity).
  pose proof HR0 as (HI & H2 & H3 & Ht). pose proof HI as (I1 & I2 & I3 & I4 & I5 & _).
  destruct (walk_step oneA oneB S fp tb (n_td s0) _ id (c_cur s0) (-1)%Z 0 HS HI) as (ob & t' & ph' & Es & Hsp & HI').
  { cbn [allowed]. split; [exact Hid|]. change (asked fp (c_cur s0) (-1)) with fp. split; [lia|].
    unfold is_initialized4inference. rewrite coherent_nonempty, I1.
    assert ((fp =? 0) = false) as Q by (apply Nat.eqb_neq; lia). rewrite Q. cbn [orb]. rewrite Nat.ltb_irrefl. cbn [andb orb]. reflexivity. }
  cbn [step] in Es. cbn [spec_step] in Hsp. destruct Hsp as [-> ->]. change (asked fp (c_cur s0) (-1)) with fp in *.
  destruct (walk_over_set oneA S (n_td s0) id (c_cur s0) (-1) 0) as [[n t]|]; [|discriminate].
  cbn [obind] in Es. injection Es as -> ->. cbn [obind].
  set (b := Nat.min fp (cnt S id)) in *. set (n := subsets (cnt S id) b) in *.
  assert (Hb : 0 < b) by (unfold b; pose proof (coherent_set oneA S id HS Hid); lia).
  pose proof (Rdy_log _ (VWalk id n) _ (Rdy_td _ _ _ _ HR0 HI') I) as HR1.
  destruct (eval_loop_ok id b ltac:(lia) Hb n 0 (Some 0%R) _ HR1 ltac:(lia)) as (l1 & s1 & E1 & HR2 & F1 & L1 & R1).
  match goal with |- context [obind (for_loop ?a ?b ?f ?x) _] => replace (for_loop a b f x) with (Some (l1, s1)) by (symmetry; exact E1) end.
  cbn [obind].
  assert (HX : exists l2 s2, (if n_full s1 then let '(a, s) := calc_addendum E s1 in (fl_add l1 a, s) else (l1, s1)) = (l2, s2) /\
     Rdy (Walking id b 0 (0 + n)) s2 /\ (n_full s1 = false -> l2 = l1) /\ n_h s2 = n_h s1).
  { destruct (n_full s1) eqn:Q; [|exists l1, s1; split; [reflexivity|]; split; [exact HR2|]; split; reflexivity].
    unfold calc_addendum. destruct (fl_is0 (n_add s1)).
    - exists (fl_add l1 (e_add E (n_h s1))), (with_add (e_add E (n_h s1)) s1). split; [reflexivity|]. split; [apply Rdy_add, HR2|]. split; [discriminate|reflexivity].
    - exists (fl_add l1 (n_add s1)), s1. split; [reflexivity|]. split; [exact HR2|]. split; [discriminate|reflexivity]. }
  destruct HX as (l2 & s2 & -> & HR3 & F2 & Hh2).
  eexists _, _. split; [reflexivity|]. split.
  - exists (Walking id b 0 (0 + n)). apply Rdy_log; [exact HR3|].
    intros L HL Hno. destruct HR2 as (_ & _ & _ & _ & [Hfull _]). rewrite Hh2 in HL.
    pose proof (proj2 (loss_of_quiet L _ _ HL F1)) as HLe.
    rewrite (F2 ltac:(congruence)), (L1 L 0%R Hid HL eq_refl), Hh2. f_equal. rewrite Rplus_0_l. unfold batched. fold b. fold n.
    apply sum_over_ext. intros i. apply mean_over_ext. intros j. symmetry. apply HLe.
  - unfold eval_plan. fold b. fold n.
    change (AWalk id n :: ?x ++ [ALoss id]) with ([AWalk id n] ++ x ++ [ALoss id]).
    apply (ran_trans s (log (VWalk id n) (with_td t' s0)));
      [apply (ran_log (VWalk id n)); [cbn; rewrite Hh; reflexivity|cbn; auto|reflexivity]|].
    eapply ran_trans; [exact R1|]. eapply (ran_log (VLoss id l2)); [cbn; rewrite Hh2; reflexivity|cbn; auto|reflexivity].
Qed.

Lemma report_ok e ph s : Rdy ph s ->
  exists l s', report_progress oneA S E e s = Some (l, s') /\ (exists ph', Rdy ph' s') /\
    ran s s' (report_plan S fp e).
Proof.
  intros HR. unfold report_progress. pose proof (Rdy_add _ (Some 0%R) _ HR) as HR0.
  destruct (calcLossAndReport_ok train_set_id ph _ ltac:(unfold train_set_id; lia) HR0) as (l1 & s1 & E1 & (ph1 & HR1) & R1).
  rewrite E1. cbn [obind].
  destruct (calcLossAndReport_ok test_set_id ph1 _ ltac:(unfold test_set_id; lia) HR1) as (l2 & s2 & E2 & (ph2 & HR2) & R2).
  rewrite E2. cbn [obind]. eexists _, _. split; [reflexivity|]. split.
  - exists ph2. apply Rdy_log; [exact HR2|exact I].
  - unfold report_plan. eapply ran_trans; [exact R1|]. eapply ran_trans; [exact R2|].
    eapply (ran_log (VReport e l1 l2)); [reflexivity|reflexivity|reflexivity].
Qed.

(** ** Learning *)
Lemma train_batch_ok perm k s : Rdy (Training tb perm) s -> c_train s = true -> c_cur s = tb -> k < cnt S 0 / tb ->
  exists s', train_batch S E k s = Some s' /\ Rdy (Training tb perm) s' /\ c_train s' = true /\ c_cur s' = tb /\
    ran s s' [ALearnF (slice perm tb k); ALearnB (slice perm tb k)].
Proof.
  intros HR Htr Hcur Hk. pose proof HR as (HI & H2 & H3 & [Hi Ht] & H5).
  pose proof HI as (I1 & I2 & I3 & I4 & I5 & _ & _ & _ & (_ & Hp & _)).
  destruct (batch_step oneA oneB S fp tb (n_td s) _ (e_im E (n_h s)) k HS HI) as (ob & t' & ph' & Es & Hsp & HI').
  { cbn [allowed]. split; [apply HE|]. exact Hk. }
  cbn [step] in Es. cbn [spec_step] in Hsp. destruct Hsp as [(bx & by_ & Eo & Hx & Hy) ->].
  unfold train_batch. destruct (on_next_batch (e_im E (n_h s)) S (n_td s) k) as [t|]; [|discriminate].
  cbn [obind] in Es. injection Es as Eo' <-. rewrite Eo in Eo'. injection Eo' as Ex Ey.
  cbn [obind]. rewrite Ex, Ey. cbn [obind log c_train c_cur with_td]. rewrite Htr, Hcur.
  pose proof (Rdy_td _ _ _ _ HR HI') as HR1.
  assert (Tl : told (n_h s) = Some tb) by (destruct Ht as [[_ Ht]|[Ht _]]; [lia|congruence]).
  assert (Ll : length (slice perm tb k) = tb).
  { rewrite slice_length, (Permutation_length Hp), seq_length. unfold train_cnt, cnt, set_x in *. cbn [Nat.eqb] in *.
    pose proof (Nat.div_mod (batch_size (x0 S)) tb ltac:(lia)). nia. }
  eexists. split; [reflexivity|]. split; [|split; [exact Htr|split; [exact Hcur|]]].
  - apply Rdy_log; [|exact Tl]. apply Rdy_log; [exact HR1|exact Tl].
  - change [ALearnF (slice perm tb k); ALearnB (slice perm tb k)] with ([ALearnF (slice perm tb k)] ++ [ALearnB (slice perm tb k)]).
    eapply ran_trans.
    + eapply (ran_log (VFprop true tb bx) s (log (VFprop true tb bx) (with_td t s))); [reflexivity| |reflexivity]. split; [exact Hx|auto].
    + eapply (ran_log (VBprop true tb by_)); [reflexivity| |reflexivity]. split; [exact Hy|auto].
Qed.

Lemma train_loop_ok perm : forall n k s, Rdy (Training tb perm) s -> c_train s = true -> c_cur s = tb -> k + n <= cnt S 0 / tb ->
  exists s', for_loop k n (train_batch S E) s = Some s' /\ Rdy (Training tb perm) s' /\ c_train s' = true /\ c_cur s' = tb /\
    ran s s' (flat_map (fun k => [ALearnF (slice perm tb k); ALearnB (slice perm tb k)]) (seq k n)).
Proof.
  induction n as [|n IH]; intros k s HR Ht Hc Hk.
  - exists s. split; [reflexivity|]. do 3 (split; [assumption|]). apply ran_refl. reflexivity.
  - destruct (train_batch_ok perm k s HR Ht Hc ltac:(lia)) as (s1 & E1 & HR1 & T1 & C1 & R1).
    destruct (IH (Datatypes.S k) s1 HR1 T1 C1 ltac:(lia)) as (s2 & E2 & HR2 & T2 & C2 & R2).
    exists s2. cbn [for_loop]. rewrite E1. cbn [obind]. do 4 (split; [assumption|]).
    cbn [seq flat_map]. exact (ran_trans _ _ _ _ _ R1 R2).
Qed.

Lemma epochs_ok : forall n e ph s, Rdy ph s -> c_train s = true -> c_cur s = tb -> e + n = o_epochs O ->
  exists ec s' perms f, epochs oneA S E O n e s = Some (ec, s') /\ (exists ph', Rdy ph' s') /\ ec = code f /\
    Forall (fun p => Permutation p (seq 0 (cnt S 0))) perms /\
    match f with Finished => length perms = n | _ => 0 < length perms <= n end /\
    ran s s' (epochs_plan S O fp tb e perms f).
Proof.
  induction n as [|n IH]; intros e ph s HR Htr Hcur Hn.
  - exists ESuccess, s, [], Finished. split; [reflexivity|]. split; [eauto|]. do 3 (split; [constructor|]). apply ran_refl. reflexivity.
  - pose proof HR as (HI & H2 & H3 & Ht). pose proof HI as (I1 & I2 & I3 & I4 & I5 & _).
    destruct (epoch_step oneA oneB S fp tb (n_td s) _ (e_rv E (n_h s)) (c_cur s) 0 HS HI) as (ob & t' & ph' & Es & Hsp & HI').
    { cbn [allowed]. change (asked tb (c_cur s) 0) with (c_cur s). rewrite Hcur. split; [apply HE|]. split; [lia|auto]. }
    cbn [step] in Es. cbn [spec_step] in Hsp. change (asked tb (c_cur s) 0) with (c_cur s) in Hsp. rewrite Hcur in Hsp.
    destruct Hsp as (perm & Hp & -> & ->). cbn [epochs].
    destruct (on_next_epoch oneA S (n_td s) (e_rv E (n_h s)) (c_cur s) 0) as [[nb t]|]; [|discriminate].
    cbn [obind] in Es. injection Es as -> ->. cbn [obind].
    change (train_cnt S) with (cnt S 0) in *.
    pose proof (Rdy_log _ (VEpoch e (cnt S 0 / tb)) _ (Rdy_td _ _ _ _ HR HI') I) as HR1.
    destruct (train_loop_ok perm (cnt S 0 / tb) 0 _ HR1 Htr Hcur ltac:(lia)) as (s1 & E1 & HR2 & T1 & C1 & R1).
    rewrite E1. cbn [obind]. fold (checked O e).
    set (rep := if o_cond O e || checked O e then _ else _).
    assert (HX : exists dv s2, rep = Some (dv, s2) /\ (exists ph', Rdy ph' s2) /\ 
       ran s1 s2 (if checked O e || (o_cond O e && negb (o_time O)) then report_plan S fp (Z.of_nat e)
          else if o_cond O e then [ATime e] else [])).
    { unfold rep. destruct (checked O e) eqn:Qc.
      - rewrite Bool.orb_true_r, Bool.andb_false_r. cbn [orb].
        destruct (report_ok (Z.of_nat e) _ s1 HR2) as (l & s2 & E2 & P2 & R2). rewrite E2. cbn [obind]. eauto 8.
      - rewrite Bool.orb_false_r. cbn [negb orb]. rewrite Bool.andb_true_r. destruct (o_cond O e); cbn [andb].
        + destruct (o_time O); cbn [negb].
          * eexists _, _. split; [reflexivity|]. split; [eexists; apply Rdy_log; [exact HR2|exact I]|].
            eapply (ran_log (VTime e)); reflexivity.
          * destruct (report_ok (Z.of_nat e) _ s1 HR2) as (l & s2 & E2 & P2 & R2). rewrite E2. cbn [obind]. eauto 8.
        + eexists _, _. split; [reflexivity|]. split; [eauto|]. apply ran_refl. reflexivity. }
    destruct HX as (dv & s2 & -> & (ph2 & HR3) & R2). cbn [obind].
    assert (R12 : ran s s2 (epoch_plan S O fp tb e perm)).
    { unfold epoch_plan.
      change (AEpoch e (cnt S 0 / tb) :: ?x ++ ?y) with ([AEpoch e (cnt S 0 / tb)] ++ x ++ y).
      apply (ran_trans s (log (VEpoch e (cnt S 0 / tb)) (with_td t' s)));
        [apply (ran_log (VEpoch e (cnt S 0 / tb))); [reflexivity|cbn; auto|reflexivity]|].
      eapply ran_trans; [exact R1|exact R2]. }
    destruct dv.
    { exists EDiverged, s2, [perm], Diverged. split; [reflexivity|]. split; [eauto|]. split; [reflexivity|].
      split; [constructor; [exact Hp|constructor]|]. split; [cbn; lia|]. cbn [epochs_plan]. rewrite app_nil_r. exact R12. }
    set (go := e_epochcb E (n_h s2) e).
    pose proof (Rdy_log _ (VEpochCb e go) _ HR3 I) as HR4.
    assert (R13 : ran s (log (VEpochCb e go) s2) (epoch_plan S O fp tb e perm ++ [ACb e go])).
    { eapply ran_trans; [exact R12|]. eapply (ran_log (VEpochCb e go)); [reflexivity|cbn; auto|reflexivity]. }
    destruct go.
    + destruct (set_mode_ok _ true tb _ HR4) as (s3 & E3 & HR5 & T3 & C3 & _ & _ & R3 & F3 & _); [lia|cbv iota; lia|].
      unfold set_mode_and_batch_size. cbn [Nat.eqb]. destruct HR4 as (_ & _ & Htb & _). rewrite Htb, E3. cbn [obind].
      destruct (IH (e + 1) _ s3 HR5 T3 C3 ltac:(lia)) as (ec & s4 & perms & f & E4 & P4 & Hec & Hps & Hlen & R4).
      exists ec, s4, (perm :: perms), f. split; [exact E4|]. split; [exact P4|]. split; [exact Hec|].
      split; [constructor; assumption|]. split; [cbn [length]; destruct f; lia|].
      pose proof (ran_trans _ _ _ _ _ (ran_trans _ _ _ _ _ R13 R3) R4) as RR. rewrite app_nil_r, <- app_assoc in RR.
      destruct perms as [|q perms]; [|exact RR].
      cbn [epochs_plan] in RR |- *. destruct f; [exact RR|cbn in Hlen; lia|cbn in Hlen; lia].
    + exists ESuccess, (log (VEpochCb e false) s2), [perm], Stopped. split; [reflexivity|]. split; [eauto|]. split; [reflexivity|].
      split; [constructor; [exact Hp|constructor]|]. split; [cbn; lia|]. exact R13.
Qed.
End P.
