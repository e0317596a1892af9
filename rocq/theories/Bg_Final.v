(** Final lemmas and example executions of the background pool. *)
From Coq Require Import Permutation.
From Verif Require Import Base BaseLemmas Bg_Model Bg_Spec Bg_Proofs Bg_Proofs2 Bg_Proofs3.

Lemma event_dec (a b : event) : {a = b} + {a <> b}.
Proof. repeat decide equality. Qed.

Lemma exec_once N ops sched s before n after :
  exec (init N ops) sched = Some s -> s_log s = before ++ EvReturn n :: after ->
  nth_error ops n = Some OExec -> once_on_each N n before /\ never n after.
Proof.
  intros H HL Hn. destruct (reach_all _ _ _ _ H) as (HI & HH & HT).
  destruct (H_ret _ _ _ HH _ _ _ HL) as [A B]. rewrite Hn in A. auto.
Qed.

Lemma begun_split m j i L1 L2 : begun m i (L1 ++ EvExecBegin m j :: L2) = begun m i L1 + (if j =? i then 1 else 0) + begun m i L2.
Proof. rewrite begun_app. simpl. rewrite Nat.eqb_refl. simpl. lia. Qed.

Definition called_ok (s : state) : Prop :=
  forall k, k < s_nxt s -> In (EvReturn k) (s_log s) \/ (m_op (s_mpc s) <> None /\ k = s_cur s).

(** At any moment no thread has begun the functor of a call twice, and nothing
    runs it before the call is made. *)
Lemma exec_at_most_once N ops sched s n i :
  exec (init N ops) sched = Some s ->
  ended n i (s_log s) <= begun n i (s_log s) <= 1 /\ (s_nxt s <= n -> begun n i (s_log s) = 0).
Proof.
  intros H. destruct (reach_all _ _ _ _ H) as (HI & HH & HT).
  destruct (le_lt_dec (s_nxt s) n) as [Hn|Hn].
  { destruct (H_fut _ _ _ HH n Hn) as [F _]. destruct (F i). lia. }
  split; [|lia].
  destruct (in_dec event_dec (EvReturn n) (s_log s)) as [Hin|Hnin].
  - apply in_split in Hin. destruct Hin as (L1 & L2 & HL).
    destruct (H_ret _ _ _ HH _ _ _ HL) as [A B]. destruct (B i) as [B1 B2].
    rewrite HL, begun_app, ended_app. simpl. rewrite B1, B2.
    destruct (nth_error ops n) as [o|]; [|contradiction].
    destruct o; destruct (A i) as [A1 A2]; rewrite A1, A2; try lia. destruct (i <? N); lia.
  - assert (Hc : forall k, k < s_nxt s -> In (EvReturn k) (s_log s) \/ (m_op (s_mpc s) <> None /\ k = s_cur s)).
    { clear -H HH HI HT. revert H. change (exec (init N ops) sched = Some s -> called_ok s).
      assert (G : forall ls s0 s', Inv N s0 -> Hist N ops s0 -> TInv ops s0 -> called_ok s0 -> exec s0 ls = Some s' -> called_ok s').
      { induction ls as [|l ls IH]; intros s0 s' I0 H0 T0 P0 E; simpl in E; [injection E as <-; assumption|].
        destruct (step s0 l) as [s1|] eqn:E1; [|discriminate]. simpl in E.
        destruct (step_both _ _ _ _ _ I0 H0 E1) as [I1 H1]. pose proof (step_tinv _ _ _ _ _ I0 T0 E1) as T1.
        apply (IH s1 s' I1 H1 T1); [|assumption]. clear IH E I1 H1 T1 T0 s' s HH HI HT.
        assert (Keep : forall p fn g st wc ts nid ws l', (exists e, l' = s_log s0 ++ e) ->
                  (m_op (s_mpc s0) <> None -> m_op p <> None) ->
                  called_ok (mkS p fn g st wc ts nid ws (s_todo s0) (s_cur s0) (s_nxt s0) l')).
        { intros p fn g st wc ts nid ws l' (e & ->) Hp k Hk. simpl in *.
          destruct (P0 k Hk) as [P1|[P1 P2]]; [left; apply in_or_app; auto|right; auto]. }
        assert (Ret : forall fn g st wc ts nid ws, m_op (s_mpc s0) <> None ->
                  called_ok (mkS MIdle fn g st wc ts nid ws (s_todo s0) (s_cur s0) (s_nxt s0) (s_log s0 ++ [EvReturn (s_cur s0)]))).
        { intros fn g st wc ts nid ws Hp k Hk. simpl in *. left. apply in_or_app.
          destruct (P0 k Hk) as [P1|[P1 P2]]; [auto|subst; right; left; reflexivity]. }
        assert (Enil : exists e, s_log s0 = s_log s0 ++ e) by (exists []; rewrite app_nil_r; reflexivity).
        destruct l as [so|i0 r|]; simpl in E1.
        - unfold step_main in E1.
          destruct (s_mpc s0) as [|o|o|o|o|o| | | | | | | | | | |] eqn:Hm.
          + destruct (s_todo s0) as [|o rest] eqn:Ht in E1; injection E1 as <-.
            * unfold set_mpc. apply Keep; auto.
            * intros k Hk. simpl in *. destruct (Nat.eq_dec k (s_nxt s0)) as [->|]; [right; split; [discriminate|reflexivity]|].
              left. destruct (P0 k ltac:(lia)) as [P1|[P1 _]]; [assumption|]. rewrite Hm in P1. simpl in P1. congruence.
          + injection E1 as <-. apply Keep; simpl; auto; discriminate.
          + destruct (no_shared _); [|discriminate]. injection E1 as <-. apply Keep; simpl; auto; discriminate.
          + destruct o; try (injection E1 as <-; apply Keep; simpl; eauto; discriminate).
            destruct (sort_result_ok _ _); [|discriminate]. injection E1 as <-; apply Keep; simpl; eauto; discriminate.
          + injection E1 as <-. apply Keep; simpl; auto; discriminate.
          + destruct o; injection E1 as <-; [apply Keep; simpl; auto; discriminate|apply Ret; rewrite ?Hm; discriminate|apply Ret; rewrite ?Hm; discriminate].
          + destruct (no_shared _); [|discriminate]. injection E1 as <-. apply Keep; simpl; auto; discriminate.
          + destruct (_ <=? _)%Z; injection E1 as <-; apply Keep; simpl; auto; discriminate.
          + injection E1 as <-. apply Keep; simpl; auto; discriminate.
          + discriminate.
          + injection E1 as <-. apply Keep; simpl; auto; discriminate.
          + injection E1 as <-. apply Ret; rewrite ?Hm; discriminate.
          + injection E1 as <-. apply Keep; rewrite ?Hm; simpl; auto; discriminate.
          + injection E1 as <-. apply Keep; rewrite ?Hm; simpl; auto; discriminate.
          + injection E1 as <-. apply Keep; rewrite ?Hm; simpl; auto; discriminate.
          + destruct (forallb _ _); [|discriminate]. injection E1 as <-. apply Keep; rewrite ?Hm; simpl; auto; discriminate.
          + discriminate.
        - unfold step_worker in E1. destruct (nth_error (s_workers s0) i0) as [w|]; [|discriminate].
          destruct (w_pc w) as [|to| | | | | | |m| | | | | | |rem| |];
            repeat match type of E1 with
            | (if ?b then _ else _) = _ => destruct b; try discriminate
            | match ?r with [] => _ | _ :: _ => _ end = _ => destruct r
            | match ?r with Some _ => _ | None => _ end = _ => destruct r
            end; try discriminate; injection E1 as <-; apply Keep; simpl; eauto.
          destruct (s_mpc s0); simpl; auto.
        - unfold spurious_main in E1. destruct (s_mpc s0) eqn:Hm; try discriminate. injection E1 as <-.
          apply Keep; simpl; auto. }
      intros H. destruct (init_inv N ops) as [I0 H0]. apply (G _ _ _ I0 H0 (init_tinv N ops)) in H; [exact H|].
      intros k Hk. simpl in Hk. lia. }
    destruct (Hc n Hn) as [|[Hop ->]]; [contradiction|].
    destruct (m_active (s_mpc s)) eqn:Ha.
    + pose proof (I_ev _ _ HI Ha i) as E. destruct (nth_error (s_workers s) i) as [w|]; [|lia].
      destruct E as [-> ->]. unfold w_begun, w_ended. destruct (w_flag w), (w_pc w); simpl; lia.
    + destruct (H_cur _ _ _ HH Hop) as (_ & _ & C3 & _). destruct (C3 Ha i). lia.
Qed.

Lemma idle_pending p : p = MIdle -> pending p = [].
Proof. intros ->. reflexivity. Qed.

Lemma task_list_at_rest N ops sched s :
  exec (init N ops) sched = Some s -> s_mpc s = MIdle ->
  Permutation (s_tasks s) (registered (firstn (s_nxt s) ops)) /\ by_priority (s_tasks s).
Proof.
  intros H Hm. destruct (reach_all _ _ _ _ H) as (HI & HH & HT). split.
  - destruct (T_done _ _ HT) as (d & D1 & D2 & D3 & D4). rewrite Hm in D1. simpl in D1.
    rewrite <- (firstn_skipn (s_nxt s) ops) in D1. rewrite (H_todo _ _ _ HH) in D1.
    rewrite filter_app in D1. apply app_inv_tail in D1. subst d.
    unfold registered in *. rewrite registered_filter in D3. assumption.
  - apply sorted_desc_by_priority. apply HT.
Qed.

Lemma task_list_history N ops sched s before ts after :
  exec (init N ops) sched = Some s -> s_log s = before ++ EvChange ts :: after ->
  Permutation ts (registered (firstn (S (changes before)) (filter is_change ops))) /\ by_priority ts.
Proof.
  intros H HL. destruct (reach_all _ _ _ _ H) as (HI & HH & HT).
  destruct (T_log _ _ HT _ _ _ HL). split; [assumption|]. apply sorted_desc_by_priority. assumption.
Qed.

Lemma tasks_served N ops sched s before i ts during rest :
  exec (init N ops) sched = Some s ->
  s_log s = before ++ EvPass i ts :: during ++ rest ->
  existsb (starts_pass i) during = false ->
  ts = in_force before /\ exists left, serve ts (task_calls i during) = Some left.
Proof.
  intros H HL Hs. destruct (reach_all _ _ _ _ H) as (HI & HH & HT).
  destruct (T_pass _ _ HT) as (P1 & P2 & P3). split; [eapply P1; eauto|].
  pose proof (P2 _ _ _ _ _ HL Hs) as Hn. destruct (serve ts (task_calls i during)) as [l|]; [eauto|congruence].
Qed.

Lemma tasks_only_in_passes N ops sched s before i id r after :
  exec (init N ops) sched = Some s -> s_log s = before ++ EvTask i id r :: after ->
  existsb (starts_pass i) before = true.
Proof.
  intros H HL. destruct (reach_all _ _ _ _ H) as (HI & HH & HT).
  destruct (T_pass _ _ HT) as (P1 & P2 & P3). eauto.
Qed.

(** m_bGo2Waiting is only up while an API call waits for or holds the lock, or
    during destruction. *)
Definition go_ok (s : state) : Prop :=
  s_go s = true ->
  match s_mpc s with
  | MWantLock _ | MHold _ | MClrGo _ | MStopNotify | MJoin | MJoined => True
  | _ => False
  end.

Lemma step_go s l s' : go_ok s -> step s l = Some s' -> go_ok s'.
Proof.
  intros G H. destruct l as [so|i r|]; simpl in H.
  - unfold step_main in H. unfold go_ok in *.
    destruct (s_mpc s) as [|o|o|o|o|o| | | | | | | | | | |] eqn:Hm;
      repeat match type of H with
      | (if ?b then _ else _) = _ => destruct b; try discriminate
      | match ?o with OExec => _ | OAdd _ => _ | ODelete => _ end = _ => destruct o
      | match ?r with [] => _ | _ :: _ => _ end = _ => destruct r
      end; try discriminate; injection H as <-; simpl; auto; discriminate.
  - assert (s_go s' = s_go s /\ (s_mpc s' = s_mpc s \/ s_mpc s' = wake_main (s_mpc s))) as [E1 E2].
    { unfold step_worker in H. destruct (nth_error (s_workers s) i) as [w|]; [|discriminate].
      destruct (w_pc w) as [|to| | | | | | |m| | | | | | |rem| |];
        repeat match type of H with
        | (if ?b then _ else _) = _ => destruct b eqn:?; try discriminate
        | match ?r with [] => _ | _ :: _ => _ end = _ => destruct r
        | match ?r with Some _ => _ | None => _ end = _ => destruct r
        end; try discriminate; injection H as <-; simpl; auto. }
    unfold go_ok in *. rewrite E1. intros Hg. specialize (G Hg).
    destruct E2 as [-> | ->]; destruct (s_mpc s); simpl in *; auto.
  - unfold spurious_main in H. unfold go_ok in *. destruct (s_mpc s) eqn:Hm; try discriminate.
    injection H as <-. simpl. assumption.
Qed.

Lemma exec_go : forall ls s s', go_ok s -> exec s ls = Some s' -> go_ok s'.
Proof.
  induction ls as [|l ls IH]; intros s s' G H; simpl in H; [injection H as <-; assumption|].
  destruct (step s l) as [s1|] eqn:E; [|discriminate]. simpl in H.
  eapply IH; [|exact H]. eapply step_go; eauto.
Qed.

(** A thread stops serving the tasks only if all of them reported false or an
    API call or the destructor asks for the lock. *)
Lemma pass_completes N ops sched s i r s' w rem w' :
  exec (init N ops) sched = Some s ->
  nth_error (s_workers s) i = Some w -> w_pc w = WTask rem ->
  step s (LWorker i r) = Some s' -> nth_error (s_workers s') i = Some w' ->
  (forall rem', w_pc w' <> WTask rem') ->
  (exists before during, s_log s = before ++ EvPass i (s_tasks s) :: during /\
     existsb (starts_pass i) during = false /\
     serve (s_tasks s) (task_calls i during) = Some []) \/
  match s_mpc s with
  | MWantLock _ | MHold _ | MClrGo _ | MStopNotify | MJoin | MJoined => True
  | _ => False
  end.
Proof.
  intros H Hi Hw Hs Hi' Hn. destruct (reach_all _ _ _ _ H) as (HI & HH & HT).
  pose proof (T_serv _ _ HT _ _ _ Hi Hw) as Hsv.
  assert (go_ok s) as G.
  { eapply exec_go; [|exact H]. intros E. discriminate. }
  simpl in Hs. unfold step_worker in Hs. rewrite Hi, Hw in Hs.
  destruct rem as [|t rem]; [left; exact Hsv|]. right.
  destruct (s_go s) eqn:Hg; [exact (G Hg)|].
  injection Hs as <-. simpl in Hi'. rewrite (upd_nth_same _ _ _ _ Hi) in Hi'. injection Hi' as <-.
  exfalso. eapply Hn. reflexivity.
Qed.

Lemma bg_progress N ops sched s :
  exec (init N ops) sched = Some s -> s_mpc s <> MJoined -> can_step s.
Proof. intros H Hj. destruct (reach_all _ _ _ _ H) as (HI & HH & HT). eapply progress; eauto. Qed.

(** ** Example executions *)
Fixpoint greedy (fuel : nat) (s : state) (pick order : list label) : list label * state :=
  match fuel with
  | 0 => ([], s)
  | S fuel' =>
      match pick with
      | [] => ([], s)
      | l :: pick' =>
          match step s l with
          | Some s' => let '(ls, sf) := greedy fuel' s' (pick' ++ [l]) order in (l :: ls, sf)
          | None => greedy fuel' s (pick' ++ [l]) order
          end
      end
  end.

Definition ex_ops : list op := [OAdd 1%Z; OAdd 5%Z; OExec].
Definition ex_lab : list label :=
  [LMain [mkT 0 1%Z]; LMain [mkT 1 5%Z; mkT 0 1%Z]; LWorker 0 true; LWorker 1 true; LWorker 0 false; LWorker 1 false].

Definition ex_log : list event :=
  Eval vm_compute in s_log (snd (greedy 220 (init 2 ex_ops) ex_lab ex_lab)).

Lemma ex_exec : exists sched s before after,
  exec (init 2 ex_ops) sched = Some s /\ s_log s = before ++ EvReturn 2 :: after /\
  nth_error ex_ops 2 = Some OExec.
Proof.
  exists (fst (greedy 220 (init 2 ex_ops) ex_lab ex_lab)). eexists.
  exists (firstn 12 ex_log), (skipn 13 ex_log).
  split; [vm_compute; reflexivity|]. split; reflexivity.
Qed.

Lemma ex_idle : exists sched s,
  exec (init 2 ex_ops) sched = Some s /\ s_mpc s = MIdle /\
  s_tasks s = [mkT 1 5%Z; mkT 0 1%Z] /\ s_nxt s = 2.
Proof.
  exists [LMain []; LMain []; LMain []; LMain [mkT 0 1%Z]; LMain []; LMain [];
          LMain []; LMain []; LMain []; LMain [mkT 1 5%Z; mkT 0 1%Z]; LMain []; LMain []].
  eexists. split; [vm_compute; reflexivity|]. split; [reflexivity|]. split; reflexivity.
Qed.

(** thread 0 serves the tasks: the important one twice, then the other one *)
Definition ex_pass_sched : list label :=
  [LMain []; LMain []; LMain []; LMain [mkT 0 1%Z]; LMain []; LMain [];
   LMain []; LMain []; LMain []; LMain [mkT 1 5%Z; mkT 0 1%Z]; LMain []; LMain []] ++
  [LWorker 0 true; LWorker 0 true; LWorker 0 true; LWorker 0 true; LWorker 0 true; LWorker 0 true;
   LWorker 0 true; LWorker 0 false; LWorker 0 false; LWorker 0 true].

Lemma ex_pass : exists s before during,
  exec (init 2 ex_ops) ex_pass_sched = Some s /\
  s_log s = before ++ EvPass 0 [mkT 1 5%Z; mkT 0 1%Z] :: during ++ [] /\
  existsb (starts_pass 0) during = false /\
  task_calls 0 during = [(1, true); (1, false); (0, false)].
Proof.
  eexists. exists [EvChange [mkT 0 1%Z]; EvReturn 0; EvChange [mkT 1 5%Z; mkT 0 1%Z]; EvReturn 1],
    [EvTask 0 1 true; EvTask 0 1 false; EvTask 0 0 false].
  split; [vm_compute; reflexivity|]. split; [reflexivity|]. split; reflexivity.
Qed.

Lemma ex_pass_end : exists s s' w w',
  exec (init 2 ex_ops) (firstn 21 ex_pass_sched) = Some s /\
  nth_error (s_workers s) 0 = Some w /\ w_pc w = WTask [] /\
  step s (LWorker 0 true) = Some s' /\ nth_error (s_workers s') 0 = Some w' /\ w_pc w' = WTUnlock.
Proof.
  do 4 eexists. split; [vm_compute; reflexivity|]. split; [reflexivity|]. split; [reflexivity|].
  split; [vm_compute; reflexivity|]. split; reflexivity.
Qed.

(** std::sort may exchange equal priorities *)
Lemma equal_priority_swapped : exists N ops sched s,
  exec (init N ops) sched = Some s /\ s_mpc s = MIdle /\
  exists i j a b, i < j /\ nth_error (s_tasks s) i = Some a /\ nth_error (s_tasks s) j = Some b /\
    t_prio a = t_prio b /\ t_id b < t_id a.
Proof.
  exists 1, [OAdd 3%Z; OAdd 3%Z],
    [LMain []; LMain []; LMain []; LMain [mkT 0 3%Z]; LMain []; LMain [];
     LMain []; LMain []; LMain []; LMain [mkT 1 3%Z; mkT 0 3%Z]; LMain []; LMain []].
  eexists. split; [vm_compute; reflexivity|]. split; [reflexivity|].
  exists 0, 1, (mkT 1 3%Z), (mkT 0 3%Z). repeat split; simpl; lia.
Qed.

(** exec() may wait forever for a task that always has something to do *)
Definition starve_sched : list label :=
  [LMain []; LMain []; LMain []; LMain [mkT 0 1%Z]; LMain []; LMain [];        (* add_task *)
   LWorker 0 true; LWorker 0 true; LWorker 0 true; LWorker 0 true; LWorker 0 true; (* at WTLock *)
   LMain []; LMain []; LMain []; LMain []; LMain []; LMain [];                  (* exec up to the second lock *)
   LWorker 0 true].                                                               (* shared lock, starts tasks *)

Lemma starve_loop : forall k s,
  s_go s = false -> s_workers s = [mkW (WTask [mkT 0 1%Z]) true] -> s_mpc s = MWant2 ->
  exists s', exec s (repeat (LWorker 0 true) k) = Some s' /\
    s_go s' = false /\ s_workers s' = [mkW (WTask [mkT 0 1%Z]) true] /\ s_mpc s' = MWant2.
Proof.
  induction k as [|k IH]; intros s Hg Hw Hm; [exists s; auto|].
  simpl. unfold step_worker. rewrite Hw. simpl. rewrite Hg. simpl. apply IH; simpl; auto.
Qed.

Lemma exec_starves : exists ops sched,
  nth_error ops 1 = Some OExec /\
  forall k, exists s, exec (init 1 ops) (sched ++ repeat (LWorker 0 true) k) = Some s /\
    s_cur s = 1 /\ m_op (s_mpc s) = Some OExec /\
    (forall so, step s (LMain so) = None) /\ step s LSpurMain = None /\
    (forall i r, i <> 0 -> step s (LWorker i r) = None).
Proof.
  exists [OAdd 1%Z; OExec], starve_sched. split; [reflexivity|]. intros k.
  assert (exec_app : forall l1 l2 s, exec s (l1 ++ l2) = obind (exec s l1) (fun s' => exec s' l2)).
  { induction l1 as [|l l1 IH]; intros l2 s; simpl; [reflexivity|].
    destruct (step s l); simpl; [apply IH|reflexivity]. }
  rewrite exec_app.
  destruct (exec (init 1 [OAdd 1%Z; OExec]) starve_sched) as [s|] eqn:E; [|vm_compute in E; discriminate].
  simpl.
  assert (s_go s = false /\ s_workers s = [mkW (WTask [mkT 0 1%Z]) true] /\ s_mpc s = MWant2 /\ s_cur s = 1)
    as (A1 & A2 & A3 & A4) by (vm_compute in E; injection E as <-; auto).
  clear E exec_app.
  destruct (starve_loop k s A1 A2 A3) as (s' & E & B1 & B2 & B3). exists s'.
  split; [assumption|]. split.
  { clear -E A4 A2 A1. revert s E A4 A2 A1. induction k as [|k IH]; intros s E A4 A2 A1; simpl in E; [injection E as <-; assumption|].
    unfold step_worker in E. rewrite A2 in E. simpl in E. rewrite A1 in E. simpl in E.
    eapply IH; [exact E| | |]; simpl; auto. }
  split; [rewrite B3; reflexivity|].
  split; [intros so; simpl; unfold step_main; rewrite B3, B2; reflexivity|].
  split; [simpl; unfold spurious_main; rewrite B3; reflexivity|].
  intros [|i] r Hi; [congruence|]. simpl. unfold step_worker. rewrite B2. simpl. destruct i; reflexivity.
Qed.

Definition ex_dlab : list label := [LMain []; LWorker 0 false; LWorker 1 false].
Fixpoint until_stop (ls : list label) (s : state) : list label :=
  match s_mpc s, ls with
  | MStopGo, _ | _, [] => []
  | _, l :: ls' => match step s l with Some s' => l :: until_stop ls' s' | None => [] end
  end.
Definition ex_dsched : list label :=
  Eval vm_compute in until_stop (fst (greedy 300 (init 2 [OExec]) ex_dlab ex_dlab)) (init 2 [OExec]).
Definition ex_dstate : option state :=
  Eval vm_compute in exec (init 2 [OExec]) (ex_dsched ++ [LMain []]).
Definition ex_dsched2 : list label :=
  Eval vm_compute in match ex_dstate with Some s1 => fst (greedy 200 s1 ex_dlab ex_dlab) | None => [] end.

Lemma ex_destructor : exists sched s s1,
  exec (init 2 [OExec]) sched = Some s /\ s_mpc s = MStopGo /\ step s (LMain []) = Some s1 /\
  exists sched' s', exec s1 sched' = Some s' /\ s_mpc s' = MJoined.
Proof.
  exists ex_dsched. eexists. eexists. split; [vm_compute; reflexivity|]. split; [reflexivity|].
  split; [vm_compute; reflexivity|]. exists ex_dsched2. eexists.
  split; [vm_compute; reflexivity|reflexivity].
Qed.
