(** Proofs about the background thread pool. *)
From Coq Require Import Permutation.
From Verif Require Import Base BaseLemmas Bg_Model Bg_Spec.

Definition owes (w : worker) : nat :=
  if w_flag w then 1 else match w_pc w with WDec => 1 | _ => 0 end.
Definition is_notify (w : worker) : nat := match w_pc w with WNotify => 1 | _ => 0 end.

Definition w_begun (w : worker) : bool :=
  negb (w_flag w) || match w_pc w with WCalled _ | WFinLock | WClear => true | _ => false end.
Definition w_ended (w : worker) : bool :=
  negb (w_flag w) || match w_pc w with WFinLock | WClear => true | _ => false end.
Definition b2n (b : bool) : nat := if b then 1 else 0.

Definition m_active (p : mpc) : bool :=
  match p with
  | MClrGo OExec | MUnlock OExec | MWant2 | MPred | MPreSleep | MSleep | MWaitUnlock | MReset => true
  | _ => false
  end.
Definition m_exec (p : mpc) : bool :=
  match p with MSetGo OExec | MWantLock OExec | MHold OExec => true | p => m_active p end.
Definition m_stopping (p : mpc) : bool :=
  match p with MStopGo | MStopNotify | MJoin | MJoined => true | _ => false end.

Definition winv (stop : bool) (fn : option nat) (w : worker) : Prop :=
  match w_pc w with
  | WCall | WFinLock | WClear => w_flag w = true
  | WCalled n => w_flag w = true /\ fn = Some n
  | WDec | WNotify | WFinUnlock => w_flag w = false
  | WExit => stop = true
  | _ => True
  end.

Record Inv (N : nat) (s : state) : Prop := {
  I_len : length (s_workers s) = N;
  I_w : forall i w, nth_error (s_workers s) i = Some w -> winv (s_stop s) (s_fn s) w;
  I_cnt : s_wcnt s = Z.of_nat (sum_of owes (s_workers s));
  I_quiet : m_active (s_mpc s) = false -> sum_of owes (s_workers s) = 0;
  I_lock : m_holds (s_mpc s) = true -> no_shared (s_workers s) = true;
  I_sleep : s_mpc s = MSleep ->
            0 < sum_of owes (s_workers s) \/ 0 < sum_of is_notify (s_workers s);
  I_presleep : s_mpc s = MPreSleep -> 0 < sum_of owes (s_workers s);
  I_wu : s_mpc s = MWaitUnlock \/ s_mpc s = MReset -> sum_of owes (s_workers s) = 0;
  I_stop : s_stop s = m_stopping (s_mpc s);
  I_fn : m_active (s_mpc s) = true -> s_fn s = Some (s_cur s);
  I_ev : m_active (s_mpc s) = true -> forall i,
         match nth_error (s_workers s) i with
         | Some w => begun (s_cur s) i (s_log s) = b2n (w_begun w) /\
                     ended (s_cur s) i (s_log s) = b2n (w_ended w)
         | None => begun (s_cur s) i (s_log s) = 0 /\ ended (s_cur s) i (s_log s) = 0
         end
}.

Lemma begun_app n i l1 l2 : begun n i (l1 ++ l2) = begun n i l1 + begun n i l2.
Proof. induction l1 as [|e l1 IH]; [reflexivity|]. destruct e; simpl; rewrite IH; lia. Qed.
Lemma ended_app n i l1 l2 : ended n i (l1 ++ l2) = ended n i l1 + ended n i l2.
Proof. induction l1 as [|e l1 IH]; [reflexivity|]. destruct e; simpl; rewrite IH; lia. Qed.

Lemma no_shared_nth ws i w :
  no_shared ws = true -> nth_error ws i = Some w -> w_holds (w_pc w) = false.
Proof.
  unfold no_shared. rewrite forallb_forall. intros H Hi.
  apply nth_error_In in Hi. specialize (H _ Hi). destruct (w_holds (w_pc w)); [discriminate|reflexivity].
Qed.

Lemma no_shared_upd ws i w :
  no_shared ws = true -> w_holds (w_pc w) = false -> no_shared (upd ws i w) = true.
Proof.
  unfold no_shared. intros H Hw. revert i. induction ws as [|x ws IH]; intros [|i]; simpl in *; auto.
  - rewrite Hw. simpl. apply andb_true_iff in H. tauto.
  - apply andb_true_iff in H. destruct H as [H1 H2]. rewrite H1. simpl. auto.
Qed.

Lemma no_shared_false ws :
  no_shared ws = false -> exists i w, nth_error ws i = Some w /\ w_holds (w_pc w) = true.
Proof.
  unfold no_shared. induction ws as [|x ws IH]; simpl; [discriminate|].
  destruct (w_holds (w_pc x)) eqn:E; simpl.
  - intros _. exists 0, x. auto.
  - intros H. destruct (IH H) as (i & w & Hi & Hw). exists (S i), w. auto.
Qed.

Lemma upd_none {A} (l : list A) i v j : nth_error (upd l i v) j = None <-> nth_error l j = None.
Proof. rewrite !nth_error_None, upd_length. tauto. Qed.

(** Events that are neither begin nor end of an exec functor. *)
Definition neutral (e : event) : bool :=
  match e with EvExecBegin _ _ | EvExecEnd _ _ => false | _ => true end.

Lemma begun_neutral n i l e : neutral e = true -> begun n i (l ++ [e]) = begun n i l.
Proof. intros H. rewrite begun_app. destruct e; try discriminate; simpl; lia. Qed.
Lemma ended_neutral n i l e : neutral e = true -> ended n i (l ++ [e]) = ended n i l.
Proof. intros H. rewrite ended_app. destruct e; try discriminate; simpl; lia. Qed.

(** A worker moves without touching its obligations. *)
Lemma upd_worker_pure N s i w w' l' :
  Inv N s -> nth_error (s_workers s) i = Some w ->
  winv (s_stop s) (s_fn s) w' ->
  (m_holds (s_mpc s) = true -> w_holds (w_pc w') = false) ->
  owes w' = owes w -> is_notify w' = is_notify w ->
  w_begun w' = w_begun w -> w_ended w' = w_ended w ->
  (forall n k, begun n k l' = begun n k (s_log s) /\ ended n k l' = ended n k (s_log s)) ->
  Inv N (mkS (s_mpc s) (s_fn s) (s_go s) (s_stop s) (s_wcnt s) (s_tasks s) (s_nid s)
           (upd (s_workers s) i w') (s_todo s) (s_cur s) (s_nxt s) l').
Proof.
  intros HI Hi Hw Hh Ho Hn Hb He Hl. destruct HI.
  pose proof (sum_of_upd owes _ _ w' _ Hi) as So.
  pose proof (sum_of_upd is_notify _ _ w' _ Hi) as Sn.
  constructor; simpl; auto.
  - rewrite upd_length; assumption.
  - intros j x Hx. destruct (Nat.eq_dec j i) as [->|Hne].
    + rewrite (upd_nth_same _ _ _ _ Hi) in Hx. injection Hx as <-. exact Hw.
    + rewrite upd_nth_other in Hx by assumption. eauto.
  - rewrite I_cnt0. f_equal. lia.
  - intros H. specialize (I_quiet0 H). lia.
  - intros H. apply no_shared_upd; auto.
  - intros H. destruct (I_sleep0 H); [left|right]; lia.
  - intros H. specialize (I_presleep0 H). lia.
  - intros H. specialize (I_wu0 H). lia.
  - intros H j. specialize (I_ev0 H j). destruct (Hl (s_cur s) j) as [-> ->].
    destruct (Nat.eq_dec j i) as [->|Hne].
    + rewrite (upd_nth_same _ _ _ _ Hi). rewrite Hi in I_ev0. rewrite Hb, He. exact I_ev0.
    + rewrite upd_nth_other by assumption. exact I_ev0.
Qed.

Lemma active_of_owes N s i w :
  Inv N s -> nth_error (s_workers s) i = Some w -> owes w = 1 -> m_active (s_mpc s) = true.
Proof.
  intros HI Hi Ho. destruct (m_active (s_mpc s)) eqn:E; [reflexivity|].
  pose proof (I_quiet _ _ HI E). pose proof (sum_of_le owes _ _ _ Hi). lia.
Qed.

Lemma holds_free N s i w :
  Inv N s -> nth_error (s_workers s) i = Some w -> w_holds (w_pc w) = true -> m_holds (s_mpc s) = false.
Proof.
  intros HI Hi Hh. destruct (m_holds (s_mpc s)) eqn:E; [|reflexivity].
  pose proof (no_shared_nth _ _ _ (I_lock _ _ HI E) Hi). congruence.
Qed.

Ltac pure HI Hi Hpc :=
  apply (upd_worker_pure _ _ _ _ _ _ HI Hi);
  unfold winv, owes, is_notify, w_begun, w_ended; simpl; rewrite ?Hpc; simpl; auto;
  try congruence; try (intros; split; [apply begun_neutral|apply ended_neutral]; reflexivity).

Lemma step_worker_inv N s i r s' : Inv N s -> step_worker s i r = Some s' -> Inv N s'.
Proof.
  intros HI H. unfold step_worker in H.
  destruct (nth_error (s_workers s) i) as [w|] eqn:Hi; [|discriminate].
  pose proof (I_w _ _ HI _ _ Hi) as Hst. unfold winv in Hst.
  destruct (w_pc w) as [|to| | | | | | |n| | | | | | |rem| |] eqn:Hpc.
  - destruct (m_holds (s_mpc s)) eqn:Hh; [discriminate|]. injection H as <-. pure HI Hi Hpc.
  - assert (m_holds (s_mpc s) = false) as Hh by (eapply holds_free; eauto; rewrite Hpc; reflexivity).
    destruct (s_stop s || (r && negb (s_go s) && negb (length (s_tasks s) =? 0)) || w_flag w)%bool;
      [injection H as <-; pure HI Hi Hpc|].
    destruct (to && r)%bool; injection H as <-; pure HI Hi Hpc.
  - injection H as <-. pure HI Hi Hpc.
  - destruct (m_holds (s_mpc s)) eqn:Hh; [discriminate|]. injection H as <-. pure HI Hi Hpc.
  - injection H as <-. pure HI Hi Hpc.
  - injection H as <-. destruct (s_stop s) eqn:Hs; pure HI Hi Hpc.
  - injection H as <-. destruct (w_flag w) eqn:Hf; pure HI Hi Hpc; rewrite Hf; auto.
  - (* WCall *)
    assert (owes w = 1) as Ho by (unfold owes; rewrite Hst; reflexivity).
    pose proof (active_of_owes _ _ _ _ HI Hi Ho) as Hact.
    destruct (s_fn s) as [n|] eqn:Hfn; [|discriminate]. injection H as <-.
    assert (n = s_cur s) as -> by (rewrite (I_fn _ _ HI Hact) in Hfn; congruence).
    set (w' := mkW (WCalled (s_cur s)) (w_flag w)).
    assert (owes w' = owes w) as Hoo by (unfold owes; simpl; rewrite Hpc; reflexivity).
    assert (is_notify w' = is_notify w) as Hnn by (unfold is_notify; simpl; rewrite Hpc; reflexivity).
    pose proof (sum_of_upd owes _ _ w' _ Hi) as So.
    pose proof (sum_of_upd is_notify _ _ w' _ Hi) as Sn.
    destruct HI. constructor; simpl; auto; fold w'; try congruence.
    + rewrite upd_length; assumption.
    + intros j x Hx. destruct (Nat.eq_dec j i) as [->|Hne].
      * rewrite (upd_nth_same _ _ _ _ Hi) in Hx. injection Hx as <-. unfold winv; simpl. auto.
      * rewrite upd_nth_other in Hx by assumption. eauto.
    + rewrite I_cnt0. f_equal. lia.
    + intros Hx. apply no_shared_upd; auto.
    + intros Hx. destruct (I_sleep0 Hx); [left|right]; lia.
    + intros Hx. specialize (I_presleep0 Hx). lia.
    + intros Hx. specialize (I_wu0 Hx). lia.
    + intros _ j. specialize (I_ev0 Hact j). rewrite begun_app, ended_app. simpl.
      rewrite Nat.eqb_refl. simpl.
      destruct (Nat.eq_dec j i) as [->|Hne].
      * rewrite (upd_nth_same _ _ _ _ Hi). rewrite Hi in I_ev0. destruct I_ev0 as [E1 E2].
        rewrite E1, E2, Nat.eqb_refl. unfold w_begun, w_ended; simpl. rewrite Hst, Hpc. auto.
      * rewrite upd_nth_other by assumption. destruct (Nat.eqb_spec i j); [congruence|].
        rewrite !Nat.add_0_r. exact I_ev0.
  - (* WCalled *)
    destruct Hst as [Hst Hfn]. injection H as <-.
    assert (owes w = 1) as Ho by (unfold owes; rewrite Hst; reflexivity).
    pose proof (active_of_owes _ _ _ _ HI Hi Ho) as Hact.
    assert (n = s_cur s) as -> by (rewrite (I_fn _ _ HI Hact) in Hfn; congruence).
    set (w' := mkW WFinLock (w_flag w)).
    assert (owes w' = owes w) as Hoo by (unfold owes; simpl; rewrite Hpc; reflexivity).
    assert (is_notify w' = is_notify w) as Hnn by (unfold is_notify; simpl; rewrite Hpc; reflexivity).
    pose proof (sum_of_upd owes _ _ w' _ Hi) as So.
    pose proof (sum_of_upd is_notify _ _ w' _ Hi) as Sn.
    destruct HI. constructor; simpl; auto; fold w'; try congruence.
    + rewrite upd_length; assumption.
    + intros j x Hx. destruct (Nat.eq_dec j i) as [->|Hne].
      * rewrite (upd_nth_same _ _ _ _ Hi) in Hx. injection Hx as <-. unfold winv; simpl. auto.
      * rewrite upd_nth_other in Hx by assumption. eauto.
    + rewrite I_cnt0. f_equal. lia.
    + intros Hx. apply no_shared_upd; auto.
    + intros Hx. destruct (I_sleep0 Hx); [left|right]; lia.
    + intros Hx. specialize (I_presleep0 Hx). lia.
    + intros Hx. specialize (I_wu0 Hx). lia.
    + intros _ j. specialize (I_ev0 Hact j). rewrite begun_app, ended_app. simpl.
      rewrite Nat.eqb_refl. simpl.
      destruct (Nat.eq_dec j i) as [->|Hne].
      * rewrite (upd_nth_same _ _ _ _ Hi). rewrite Hi in I_ev0. destruct I_ev0 as [E1 E2].
        rewrite E1, E2, Nat.eqb_refl. unfold w_begun, w_ended; simpl. rewrite Hst, Hpc. auto.
      * rewrite upd_nth_other by assumption. destruct (Nat.eqb_spec i j); [congruence|].
        rewrite !Nat.add_0_r. exact I_ev0.
  - destruct (m_holds (s_mpc s)) eqn:Hh; [discriminate|]. injection H as <-. pure HI Hi Hpc.
  - (* WClear *)
    assert (m_holds (s_mpc s) = false) as Hh by (eapply holds_free; eauto; rewrite Hpc; reflexivity).
    injection H as <-. pure HI Hi Hpc; rewrite Hst; auto.
  - (* WDec *)
    injection H as <-.
    assert (m_holds (s_mpc s) = false) as Hh by (eapply holds_free; eauto; rewrite Hpc; reflexivity).
    assert (owes w = 1) as Ho by (unfold owes; rewrite Hst, Hpc; reflexivity).
    pose proof (active_of_owes _ _ _ _ HI Hi Ho) as Hact.
    set (w' := mkW WNotify (w_flag w)).
    assert (owes w' = 0) as Ho' by (unfold owes; simpl; rewrite Hst; reflexivity).
    assert (is_notify w' = 1) as Hn' by reflexivity.
    assert (is_notify w = 0) as Hn0 by (unfold is_notify; rewrite Hpc; reflexivity).
    pose proof (sum_of_upd owes _ _ w' _ Hi) as So.
    pose proof (sum_of_upd is_notify _ _ w' _ Hi) as Sn.
    destruct HI. constructor; simpl; auto; fold w'; try congruence.
    + rewrite upd_length; assumption.
    + intros j x Hx. destruct (Nat.eq_dec j i) as [->|Hne].
      * rewrite (upd_nth_same _ _ _ _ Hi) in Hx. injection Hx as <-. unfold winv; simpl. auto.
      * rewrite upd_nth_other in Hx by assumption. eauto.
    + rewrite I_cnt0. lia.
    + intros _. right. lia.
    + intros Hx. rewrite Hx in Hh. discriminate.
    + intros Hx. specialize (I_wu0 Hx). lia.
    + intros _ j. specialize (I_ev0 Hact j).
      destruct (Nat.eq_dec j i) as [->|Hne].
      * rewrite (upd_nth_same _ _ _ _ Hi). rewrite Hi in I_ev0. destruct I_ev0 as [E1 E2].
        rewrite E1, E2. unfold w_begun, w_ended; simpl. rewrite Hst. auto.
      * rewrite upd_nth_other by assumption. exact I_ev0.
  - (* WNotify *)
    injection H as <-.
    assert (m_holds (s_mpc s) = false) as Hh by (eapply holds_free; eauto; rewrite Hpc; reflexivity).
    set (w' := mkW WFinUnlock (w_flag w)).
    assert (owes w' = owes w) as Hoo by (unfold owes; simpl; rewrite Hst, Hpc; reflexivity).
    pose proof (sum_of_upd owes _ _ w' _ Hi) as So.
    assert (m_active (wake_main (s_mpc s)) = m_active (s_mpc s)) as Ma by (destruct (s_mpc s); reflexivity).
    assert (m_holds (wake_main (s_mpc s)) = false) as Mh by (destruct (s_mpc s); simpl in *; auto).
    destruct HI. constructor; simpl; auto; fold w'; rewrite ?Ma; auto.
    + rewrite upd_length; assumption.
    + intros j x Hx. destruct (Nat.eq_dec j i) as [->|Hne].
      * rewrite (upd_nth_same _ _ _ _ Hi) in Hx. injection Hx as <-. unfold winv; simpl. auto.
      * rewrite upd_nth_other in Hx by assumption. eauto.
    + rewrite I_cnt0. lia.
    + intros Hx. specialize (I_quiet0 Hx). lia.
    + congruence.
    + destruct (s_mpc s); simpl; discriminate.
    + intros Hx. rewrite Hx in Mh. discriminate.
    + intros Hx. assert (s_mpc s = MWaitUnlock \/ s_mpc s = MReset) as Hy.
      { destruct (s_mpc s); simpl in Hx; destruct Hx; try discriminate; auto. }
      specialize (I_wu0 Hy). lia.
    + rewrite I_stop0. destruct (s_mpc s); reflexivity.
    + intros Hact j. specialize (I_ev0 Hact j).
      destruct (Nat.eq_dec j i) as [->|Hne].
      * rewrite (upd_nth_same _ _ _ _ Hi). rewrite Hi in I_ev0. destruct I_ev0 as [E1 E2].
        rewrite E1, E2. unfold w_begun, w_ended; simpl. rewrite Hst. auto.
      * rewrite upd_nth_other by assumption. exact I_ev0.
  - injection H as <-. pure HI Hi Hpc.
  - destruct (m_holds (s_mpc s)) eqn:Hh; [discriminate|]. injection H as <-. pure HI Hi Hpc.
  - assert (m_holds (s_mpc s) = false) as Hh by (eapply holds_free; eauto; rewrite Hpc; reflexivity).
    destruct rem as [|t rem]; [injection H as <-; pure HI Hi Hpc|].
    destruct (s_go s); injection H as <-; pure HI Hi Hpc.
  - injection H as <-. pure HI Hi Hpc.
  - discriminate.
Qed.
