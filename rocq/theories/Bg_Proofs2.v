(** Main-thread steps and the history of exec() calls. *)
From Coq Require Import Permutation.
From Verif Require Import Base BaseLemmas Bg_Model Bg_Spec Bg_Proofs.

Definition m_op (p : mpc) : option op :=
  match p with
  | MSetGo o | MWantLock o | MHold o | MClrGo o | MUnlock o => Some o
  | MWant2 | MPred | MPreSleep | MSleep | MWaitUnlock | MReset => Some OExec
  | _ => None
  end.

Definition call_ok (N : nat) (ops : list op) (n : nat) (before after : list event) : Prop :=
  (match nth_error ops n with
   | Some OExec => once_on_each N n before
   | Some _ => never n before
   | None => False
   end) /\ never n after.

Record Hist (N : nat) (ops : list op) (s : state) : Prop := {
  H_todo : skipn (s_nxt s) ops = s_todo s;
  H_cur : m_op (s_mpc s) <> None ->
          s_nxt s = S (s_cur s) /\ nth_error ops (s_cur s) = m_op (s_mpc s) /\
          (m_active (s_mpc s) = false -> never (s_cur s) (s_log s)) /\
          ~ In (EvReturn (s_cur s)) (s_log s);
  H_fut : forall n, s_nxt s <= n -> never n (s_log s) /\ ~ In (EvReturn n) (s_log s);
  H_ret : forall L1 n L2, s_log s = L1 ++ EvReturn n :: L2 -> call_ok N ops n L1 L2
}.

Lemma never_app n l1 l2 : never n (l1 ++ l2) <-> never n l1 /\ never n l2.
Proof.
  unfold never. split.
  - intros H. split; intros i; specialize (H i); rewrite begun_app, ended_app in H; lia.
  - intros [H1 H2] i. specialize (H1 i). specialize (H2 i). rewrite begun_app, ended_app. lia.
Qed.

Lemma never_neutral n e : neutral e = true -> never n [e].
Proof. intros H i. destruct e; try discriminate; auto. Qed.

Lemma never_nil n : never n [].
Proof. intros i; auto. Qed.

Lemma never_other n m i e :
  n <> m -> e = EvExecBegin m i \/ e = EvExecEnd m i -> never n [e].
Proof.
  intros Hne [->| ->] j; simpl; destruct (Nat.eqb_spec m n); try congruence; auto.
Qed.

Lemma app_one_inv {A} (l : list A) (e : A) L1 x L2 :
  l ++ [e] = L1 ++ x :: L2 ->
  (L2 = [] /\ x = e /\ L1 = l) \/ (exists L2', L2 = L2' ++ [e] /\ l = L1 ++ x :: L2').
Proof.
  intros H. destruct (rev L2) as [|y r] eqn:Er.
  - assert (L2 = []) as -> by (rewrite <- (rev_involutive L2), Er; reflexivity).
    apply app_inj_tail in H. destruct H as [-> ->]. auto.
  - assert (L2 = rev r ++ [y]) as -> by (rewrite <- (rev_involutive L2), Er; reflexivity).
    right. exists (rev r). change (x :: rev r ++ [y]) with ((x :: rev r) ++ [y]) in H.
    rewrite app_assoc in H. apply app_inj_tail in H. destruct H as [-> ->]. auto.
Qed.

(** Appending an event that is not a return. *)
Lemma Hist_event N ops s p fn g st wc ts nid ws e :
  Hist N ops s ->
  (forall n, e <> EvReturn n) ->
  (forall n, never n [e] \/ (n = s_cur s /\ m_active (s_mpc s) = true)) ->
  (m_active p = false -> m_op p <> None -> m_active (s_mpc s) = false) ->
  m_op p = m_op (s_mpc s) ->
  (m_active (s_mpc s) = true -> m_op (s_mpc s) <> None) ->
  Hist N ops (mkS p fn g st wc ts nid ws (s_todo s) (s_cur s) (s_nxt s) (s_log s ++ [e])).
Proof.
  intros HH Hnr Hev Hact Hop Hao. destruct HH. constructor; simpl; auto.
  - rewrite Hop. intros H. destruct (H_cur0 H) as (E1 & E2 & E3 & E4).
    split; [assumption|]. split; [assumption|]. split.
    + intros Ha. rewrite Hop in Hact. specialize (Hact Ha H).
      apply never_app. split; [auto|]. destruct (Hev (s_cur s)) as [H'|[_ H']]; [assumption|congruence].
    + intros Hin. apply in_app_or in Hin. destruct Hin as [Hin|[Hin|[]]]; [auto|].
      apply (Hnr (s_cur s)). assumption.
  - intros n Hn. destruct (H_fut0 n Hn) as [F1 F2]. split.
    + apply never_app. split; [assumption|]. destruct (Hev n) as [H'|[-> H']]; [assumption|].
      destruct (H_cur0 (Hao H')) as (E1 & _). lia.
    + intros Hin. apply in_app_or in Hin. destruct Hin as [Hin|[Hin|[]]]; [auto|].
      apply (Hnr n). assumption.
  - intros L1 n L2 HL. apply app_one_inv in HL. destruct HL as [(-> & Hx & ->)|(L2' & -> & HL)].
    + destruct (Hnr n). auto.
    + specialize (H_ret0 _ _ _ HL). destruct H_ret0 as [A1 A2]. split; [assumption|].
      apply never_app. split; [assumption|]. destruct (Hev n) as [H'|[-> H']]; [assumption|].
      destruct (H_cur0 (Hao H')) as (_ & _ & _ & E4). exfalso. apply E4. rewrite HL.
      apply in_or_app. right. left. reflexivity.
Qed.

Lemma Hist_silent N ops s p fn g st wc ts nid ws :
  Hist N ops s ->
  (m_active p = false -> m_op p <> None -> m_active (s_mpc s) = false) ->
  (m_op p = None \/ m_op p = m_op (s_mpc s)) ->
  Hist N ops (mkS p fn g st wc ts nid ws (s_todo s) (s_cur s) (s_nxt s) (s_log s)).
Proof.
  intros HH Hact Hop. destruct HH. constructor; simpl; auto.
  intros H. destruct Hop as [Hop|Hop]; [congruence|]. rewrite Hop in *.
  destruct (H_cur0 H) as (E1 & E2 & E3 & E4). split; [assumption|]. split; [assumption|].
  split; [|assumption]. intros Ha. apply E3. apply Hact; assumption.
Qed.

Lemma Hist_return N ops s fn g st wc ts nid ws :
  Hist N ops s -> m_op (s_mpc s) <> None ->
  call_ok N ops (s_cur s) (s_log s) [] ->
  Hist N ops (mkS MIdle fn g st wc ts nid ws (s_todo s) (s_cur s) (s_nxt s)
                (s_log s ++ [EvReturn (s_cur s)])).
Proof.
  intros HH Hop Hok. destruct HH. destruct (H_cur0 Hop) as (E1 & E2 & E3 & E4).
  constructor; simpl; auto.
  - congruence.
  - intros n Hn. destruct (H_fut0 n Hn) as [F1 F2]. split.
    + apply never_app. split; [assumption|]. apply never_neutral. reflexivity.
    + intros Hin. apply in_app_or in Hin. destruct Hin as [Hin|[Hin|[]]]; [auto|].
      injection Hin as Hin. lia.
  - intros L1 n L2 HL. apply app_one_inv in HL. destruct HL as [(-> & Hx & ->)|(L2' & -> & HL)].
    + injection Hx as ->. assumption.
    + specialize (H_ret0 _ _ _ HL). destruct H_ret0 as [A1 A2]. split; [assumption|].
      apply never_app. split; [assumption|]. apply never_neutral. reflexivity.
Qed.

Lemma active_op p : m_active p = true -> m_op p <> None.
Proof. destruct p as [|o|o|o|o|o| | | | | | | | | | |]; try destruct o; simpl; discriminate. Qed.

Lemma step_worker_hist N ops s i r s' :
  Inv N s -> Hist N ops s -> step_worker s i r = Some s' -> Hist N ops s'.
Proof.
  intros HI HH H. unfold step_worker in H.
  destruct (nth_error (s_workers s) i) as [w|] eqn:Hi; [|discriminate].
  pose proof (I_w _ _ HI _ _ Hi) as Hst. unfold winv in Hst.
  destruct (w_pc w) as [|to| | | | | | |n| | | | | | |rem| |] eqn:Hpc;
    repeat match type of H with
      | (if ?b then _ else _) = _ => destruct b; try discriminate
      | match ?r with [] => _ | _ :: _ => _ end = _ => destruct r
      end;
    try discriminate.
  all: try (injection H as <-; unfold set_workers, set_wcnt, set_mpc; simpl;
            apply Hist_silent; auto; fail).
  - (* WCall *)
    assert (owes w = 1) as Ho by (unfold owes; rewrite Hst; reflexivity).
    pose proof (active_of_owes _ _ _ _ HI Hi Ho) as Hact.
    rewrite (I_fn _ _ HI Hact) in H. injection H as <-. unfold emit; simpl.
    apply Hist_event; auto; try discriminate; try apply active_op.
    intros n. destruct (Nat.eq_dec n (s_cur s)); [right; auto|left].
    apply (never_other _ (s_cur s) i); auto.
  - destruct Hst as [Hst Hfn].
    assert (owes w = 1) as Ho by (unfold owes; rewrite Hst; reflexivity).
    pose proof (active_of_owes _ _ _ _ HI Hi Ho) as Hact.
    rewrite (I_fn _ _ HI Hact) in Hfn. injection Hfn as <-. injection H as <-. unfold emit; simpl.
    apply Hist_event; auto; try discriminate; try apply active_op.
    intros n. destruct (Nat.eq_dec n (s_cur s)); [right; auto|left].
    apply (never_other _ (s_cur s) i); auto.
  - injection H as <-. unfold set_workers, set_mpc; simpl. apply Hist_silent; auto.
    + destruct (s_mpc s); simpl; auto.
    + right. destruct (s_mpc s); reflexivity.
  - injection H as <-. unfold emit; simpl.
    apply Hist_event; auto; try discriminate; try apply active_op.
    intros m. left. apply never_neutral. reflexivity.
  - injection H as <-. unfold emit; simpl.
    apply Hist_event; auto; try discriminate; try apply active_op.
    intros m. left. apply never_neutral. reflexivity.
Qed.

Lemma sum_owes_all ws :
  sum_of owes (map (fun w => mkW (w_pc w) true) ws) = length ws.
Proof. induction ws as [|w ws IH]; [reflexivity|]. rewrite map_cons, sum_of_cons, IH. reflexivity. Qed.

Lemma sum_wake f ws :
  (forall w, f (wake_worker w) = f w) -> sum_of f (map wake_worker ws) = sum_of f ws.
Proof. intros H. induction ws as [|w ws IH]; [reflexivity|]. simpl map. rewrite !sum_of_cons, IH, H. reflexivity. Qed.

Lemma owes_wake w : owes (wake_worker w) = owes w.
Proof. unfold owes, wake_worker. destruct (w_pc w) eqn:E; rewrite ?E; simpl; auto; destruct (w_flag w); auto. Qed.

Lemma owes_zero ws i w :
  sum_of owes ws = 0 -> nth_error ws i = Some w -> w_flag w = false /\ w_pc w <> WDec.
Proof.
  intros H Hi. pose proof (sum_of_le owes _ _ _ Hi) as L. assert (owes w = 0) as L' by lia.
  clear L. rename L' into L. unfold owes in L.
  destruct (w_flag w); [lia|]. split; [reflexivity|]. intros E. rewrite E in L. lia.
Qed.

Lemma step_main_both N ops s so s' :
  Inv N s -> Hist N ops s -> step_main s so = Some s' -> Inv N s' /\ Hist N ops s'.
Proof.
  intros HI HH H. unfold step_main in H.
  destruct (s_mpc s) as [|o|o|o|o|o| | | | | | | | | | |] eqn:Hm.
  - (* MIdle *)
    destruct (s_todo s) as [|o rest] eqn:Ht; injection H as <-.
    + split.
      * destruct HI. rewrite Hm in *. constructor; unfold set_mpc; simpl; auto; try discriminate; try (intros [?|?]; discriminate).
      * unfold set_mpc. apply Hist_silent; auto. simpl. congruence.
    + split.
      * destruct HI. rewrite Hm in *. constructor; simpl; auto; try discriminate; try (intros [?|?]; discriminate).
      * assert (nth_error ops (s_nxt s) = Some o /\ skipn (s_nxt s + 1) ops = rest) as [Hn Hs].
        { pose proof (H_todo _ _ _ HH) as E. rewrite Ht in E. apply skipn_cons_inv. assumption. }
        destruct (H_fut _ _ _ HH (s_nxt s) (Nat.le_refl _)) as [F1 F2].
        destruct HH. constructor; simpl; auto.
        -- intros _. repeat split; auto; try lia; try (apply F1).
        -- intros n Hn'. apply H_fut0. lia.
  - injection H as <-. split.
    + destruct HI. rewrite Hm in *. constructor; unfold set_mpc, set_go; simpl; auto; try discriminate;
        try (destruct o; simpl; discriminate); try (intros [?|?]; discriminate).
    + unfold set_mpc, set_go; simpl. apply Hist_silent; auto.
      * rewrite Hm. intros Ha _. destruct o; reflexivity.
      * right. rewrite Hm. reflexivity.
  - destruct (no_shared (s_workers s)) eqn:Hns; [|discriminate]. injection H as <-. split.
    + destruct HI. rewrite Hm in *. constructor; unfold set_mpc; simpl; auto; try discriminate;
        try (destruct o; simpl; discriminate); try (intros [?|?]; discriminate).
    + unfold set_mpc; simpl. apply Hist_silent; auto.
      * rewrite Hm. intros Ha _. destruct o; reflexivity.
      * right. rewrite Hm. reflexivity.
  - (* MHold *)
    destruct o as [|p|].
    + injection H as <-.
      pose proof (I_quiet _ _ HI) as Hq. rewrite Hm in Hq. specialize (Hq eq_refl).
      pose proof (I_lock _ _ HI) as Hl. rewrite Hm in Hl. specialize (Hl eq_refl).
      pose proof (H_cur _ _ _ HH) as Hc. rewrite Hm in Hc. simpl in Hc.
      destruct Hc as (C1 & C2 & C3 & C4); [discriminate|]. specialize (C3 eq_refl).
      split.
      * destruct HI. rewrite Hm in *. constructor; simpl; auto; try discriminate; try (intros [?|?]; discriminate).
        -- rewrite map_length. assumption.
        -- intros i w Hw. rewrite nth_error_map in Hw.
           destruct (nth_error (s_workers s) i) as [w0|] eqn:Hi; [|discriminate].
           injection Hw as <-. pose proof (I_w _ _ Hi) as W.
           destruct (owes_zero _ _ _ Hq Hi) as [Z1 Z2].
           pose proof (no_shared_nth _ _ _ Hl Hi) as Z3.
           unfold winv in *. simpl. destruct (w_pc w0); simpl in *; auto; try discriminate.
           destruct W; congruence.
        -- rewrite sum_owes_all. reflexivity.
        -- intros _. unfold no_shared in *. rewrite forallb_forall in *. intros x Hx.
           apply in_map_iff in Hx. destruct Hx as (y & <- & Hy). simpl. auto.
        -- intros _ i. rewrite nth_error_map. destruct (C3 i) as [D1 D2]. rewrite D1, D2.
           destruct (nth_error (s_workers s) i) as [w0|] eqn:Hi; simpl; [|auto].
           destruct (owes_zero _ _ _ Hq Hi) as [Z1 Z2].
           pose proof (no_shared_nth _ _ _ Hl Hi) as Z3. pose proof (I_w _ _ Hi) as W.
           unfold winv, w_begun, w_ended in *; simpl.
           destruct (w_pc w0); simpl in *; auto; try discriminate; try congruence.
           destruct W; congruence.
      * apply Hist_silent; auto.
        -- simpl; discriminate.
        -- right. rewrite Hm. reflexivity.
    + destruct (sort_result_ok _ so); [|discriminate]. injection H as <-. split.
      * destruct HI. rewrite Hm in *. constructor; unfold set_mpc, emit, set_tasks; simpl; auto; try discriminate; try (intros [?|?]; discriminate).
      * unfold set_mpc, emit, set_tasks; simpl. apply Hist_event; auto; try discriminate; try apply active_op.
        -- intros n. left. apply never_neutral. reflexivity.
        -- rewrite Hm. auto.
        -- rewrite Hm. reflexivity.
    + injection H as <-. split.
      * destruct HI. rewrite Hm in *. constructor; unfold set_mpc, emit, set_tasks; simpl; auto; try discriminate; try (intros [?|?]; discriminate).
      * unfold set_mpc, emit, set_tasks; simpl. apply Hist_event; auto; try discriminate; try apply active_op.
        -- intros n. left. apply never_neutral. reflexivity.
        -- rewrite Hm. auto.
        -- rewrite Hm. reflexivity.
  - (* MClrGo *)
    injection H as <-. split.
    + destruct HI. rewrite Hm in *. constructor; unfold set_mpc, set_go; simpl; auto; try discriminate; try (intros [?|?]; discriminate).
    + unfold set_mpc, set_go; simpl. apply Hist_silent; auto.
      * rewrite Hm. destruct o; simpl; auto.
      * right. rewrite Hm. reflexivity.
  - (* MUnlock *)
    assert (Hret : o <> OExec -> s' = set_mpc (emit s (EvReturn (s_cur s))) MIdle ->
                   Inv N s' /\ Hist N ops s').
    { intros Hne ->. split.
      - destruct HI. rewrite Hm in *. constructor; unfold set_mpc, emit; simpl; auto; try discriminate; try (intros [?|?]; discriminate).
        + intros _. apply I_quiet. destruct o; simpl; congruence.
      - unfold set_mpc, emit; simpl. pose proof (H_cur _ _ _ HH) as Hc. rewrite Hm in Hc. simpl in Hc.
        destruct Hc as (C1 & C2 & C3 & C4); [discriminate|].
        apply Hist_return; auto; [rewrite Hm; simpl; discriminate|].
        split; [|apply never_nil]. rewrite C2. destruct o; [congruence| |]; apply C3; reflexivity. }
    destruct o; injection H as <-; [|apply Hret; congruence|apply Hret; congruence].
    split.
    + destruct HI. rewrite Hm in *. constructor; unfold set_mpc; simpl; auto; try discriminate; try (intros [?|?]; discriminate).
    + unfold set_mpc; simpl. apply Hist_silent; auto; rewrite Hm; simpl; auto.
  - destruct (no_shared (s_workers s)) eqn:Hns; [|discriminate]. injection H as <-. split.
    + destruct HI. rewrite Hm in *. constructor; unfold set_mpc; simpl; auto; try discriminate; try (intros [?|?]; discriminate).
    + unfold set_mpc; simpl. apply Hist_silent; auto; rewrite Hm; simpl; auto.
  - (* MPred *)
    assert (Hl : no_shared (s_workers s) = true) by (apply (I_lock _ _ HI); rewrite Hm; reflexivity).
    destruct (s_wcnt s <=? 0)%Z eqn:Hz; injection H as <-.
    + split.
      * destruct HI. rewrite Hm in *. constructor; unfold set_mpc; simpl; auto; try discriminate; try (intros [?|?]; discriminate).
        intros _. apply Z.leb_le in Hz. lia.
      * unfold set_mpc; simpl. apply Hist_silent; auto; rewrite Hm; simpl; auto.
    + split.
      * destruct HI. rewrite Hm in *. constructor; unfold set_mpc; simpl; auto; try discriminate; try (intros [?|?]; discriminate).
        -- intros _. apply Z.leb_gt in Hz. lia.
      * unfold set_mpc; simpl. apply Hist_silent; auto; rewrite Hm; simpl; auto.
  - injection H as <-. split.
    + destruct HI. rewrite Hm in *. constructor; unfold set_mpc; simpl; auto; try discriminate; try (intros [?|?]; discriminate).
    + unfold set_mpc; simpl. apply Hist_silent; auto; rewrite Hm; simpl; auto.
  - discriminate.
  - injection H as <-. split.
    + destruct HI. rewrite Hm in *. constructor; unfold set_mpc; simpl; auto; try discriminate; try (intros [?|?]; discriminate).
    + unfold set_mpc; simpl. apply Hist_silent; auto; rewrite Hm; simpl; auto.
  - (* MReset *)
    injection H as <-.
    assert (sum_of owes (s_workers s) = 0) as Hz by (apply (I_wu _ _ HI); auto).
    split.
    + destruct HI. rewrite Hm in *. constructor; simpl; auto; try discriminate; try (intros [?|?]; discriminate).
      * intros i w Hw. pose proof (I_w _ _ Hw) as W. destruct (owes_zero _ _ _ Hz Hw) as [Z1 Z2].
        unfold winv in *. destruct (w_pc w); auto. destruct W; congruence.
    + pose proof (H_cur _ _ _ HH) as Hc. rewrite Hm in Hc. simpl in Hc.
      destruct Hc as (C1 & C2 & C3 & C4); [discriminate|].
      apply Hist_return; auto; [rewrite Hm; simpl; discriminate|].
      split; [|apply never_nil]. rewrite C2. intros i.
      pose proof (I_ev _ _ HI) as E. rewrite Hm in E. specialize (E eq_refl i).
      destruct (nth_error (s_workers s) i) as [w|] eqn:Hi.
      * destruct (owes_zero _ _ _ Hz Hi) as [Z1 Z2].
        destruct E as [-> ->]. unfold w_begun, w_ended. rewrite Z1. simpl.
        assert (i < N) as Hlt by (rewrite <- (I_len _ _ HI); apply nth_error_Some; congruence).
        destruct (Nat.ltb_spec i N); [auto|lia].
      * apply nth_error_None in Hi. rewrite (I_len _ _ HI) in Hi.
        destruct (Nat.ltb_spec i N); [lia|]. assumption.
  - injection H as <-. split.
    + destruct HI. rewrite Hm in *. constructor; simpl; auto; try discriminate; try (intros [?|?]; discriminate).
      * intros i w Hw. pose proof (I_w _ _ Hw) as W. unfold winv in *. destruct (w_pc w); auto.
    + apply Hist_silent; auto. simpl; congruence.
  - injection H as <-. split.
    + destruct HI. rewrite Hm in *. constructor; unfold set_mpc, set_go; simpl; auto; try discriminate; try (intros [?|?]; discriminate).
    + unfold set_mpc, set_go; simpl. apply Hist_silent; auto. simpl; congruence.
  - injection H as <-. split.
    + destruct HI. rewrite Hm in *. constructor; unfold set_mpc, set_workers; simpl; auto; try discriminate; try (intros [?|?]; discriminate).
      * rewrite map_length. assumption.
      * intros i w Hw. rewrite nth_error_map in Hw.
        destruct (nth_error (s_workers s) i) as [w0|] eqn:Hi; [|discriminate].
        injection Hw as <-. pose proof (I_w _ _ Hi) as W. unfold winv, wake_worker in *.
        destruct (w_pc w0) eqn:E; rewrite ?E; simpl; auto.
      * rewrite (sum_wake _ _ owes_wake). assumption.
      * intros _. rewrite (sum_wake _ _ owes_wake). apply I_quiet. reflexivity.
    + unfold set_mpc, set_workers; simpl. apply Hist_silent; auto. simpl; congruence.
  - destruct (forallb _ _); [|discriminate]. injection H as <-. split.
    + destruct HI. rewrite Hm in *. constructor; unfold set_mpc; simpl; auto; try discriminate; try (intros [?|?]; discriminate).
    + unfold set_mpc; simpl. apply Hist_silent; auto. simpl; congruence.
  - discriminate.
Qed.

Lemma spur_both N ops s s' :
  Inv N s -> Hist N ops s -> spurious_main s = Some s' -> Inv N s' /\ Hist N ops s'.
Proof.
  intros HI HH H. unfold spurious_main in H. destruct (s_mpc s) eqn:Hm; try discriminate.
  injection H as <-. split.
  - destruct HI. rewrite Hm in *. constructor; unfold set_mpc; simpl; auto; try discriminate; try (intros [?|?]; discriminate).
  - unfold set_mpc; simpl. apply Hist_silent; auto; rewrite Hm; simpl; auto.
Qed.

Lemma step_both N ops s l s' :
  Inv N s -> Hist N ops s -> step s l = Some s' -> Inv N s' /\ Hist N ops s'.
Proof.
  intros HI HH H. destruct l as [so|i r|]; simpl in H.
  - eapply step_main_both; eauto.
  - split; [eapply step_worker_inv; eauto|eapply step_worker_hist; eauto].
  - eapply spur_both; eauto.
Qed.

Lemma nth_error_repeat_inv {A} (x : A) n i w : nth_error (repeat x n) i = Some w -> w = x.
Proof. intros H. apply nth_error_In, repeat_spec in H. assumption. Qed.

Lemma sum_repeat {A} (f : A -> nat) x n : f x = 0 -> sum_of f (repeat x n) = 0.
Proof. intros H. induction n as [|n IH]; [reflexivity|]. simpl repeat. rewrite sum_of_cons, IH, H. reflexivity. Qed.

Lemma init_inv N ops : Inv N (init N ops) /\ Hist N ops (init N ops).
Proof.
  split.
  - constructor; simpl; auto; try discriminate; try (intros [?|?]; discriminate).
    + apply repeat_length.
    + intros i w Hw. apply nth_error_repeat_inv in Hw as ->. exact I.
    + rewrite sum_repeat; reflexivity.
    + intros _. rewrite sum_repeat; reflexivity.
  - constructor; simpl; auto.
    + congruence.
    + intros n _. split; [apply never_nil|auto].
    + intros L1 n L2 H. destruct L1; discriminate.
Qed.

Lemma exec_both N ops : forall ls s s',
  Inv N s -> Hist N ops s -> exec s ls = Some s' -> Inv N s' /\ Hist N ops s'.
Proof.
  induction ls as [|l ls IH]; intros s s' HI HH H; simpl in H.
  - injection H as <-. auto.
  - destruct (step s l) as [s1|] eqn:E; [|discriminate]. simpl in H.
    destruct (step_both _ _ _ _ _ HI HH E) as [HI1 HH1]. eapply IH; eauto.
Qed.
