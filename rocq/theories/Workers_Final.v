(** The lemmas behind Workers_Props. *)
From Coq Require Import Permutation.
From Verif Require Import Base BaseLemmas Workers_Model Workers_Spec
  Workers_Proofs Workers_Proofs2 Workers_Proofs3.

Lemma filter_flat_map rs :
  flat_map idxs (filter (fun r => negb (r_cnt r =? 0)) rs) = flat_map idxs rs.
Proof.
  induction rs as [|r rs IH]; [reflexivity|]. simpl.
  destruct (Nat.eqb_spec (r_cnt r) 0) as [E|E]; simpl; rewrite IH; [|reflexivity].
  unfold idxs. rewrite E. reflexivity.
Qed.

Lemma filter_count working rs : forall base,
  (forall k r, nth_error rs k = Some r -> (r_cnt r =? 0) = (working <=? base + k)) ->
  working <= base + length rs ->
  length (filter (fun r => negb (r_cnt r =? 0)) rs) = working - base.
Proof.
  induction rs as [|r rs IH]; simpl; intros base H HL; [lia|].
  rewrite (H 0 r eq_refl), Nat.add_0_r.
  specialize (IH (S base)). rewrite <- Nat.add_succ_comm in HL.
  destruct (Nat.leb_spec working base) as [E|E]; simpl.
  - rewrite IH; [lia| |lia]. intros k x Hx. rewrite (H (S k) x Hx). f_equal. lia.
  - rewrite IH; [lia| |lia]. intros k x Hx. rewrite (H (S k) x Hx). f_equal. lia.
Qed.

Lemma partition_exact : forall cnt req rs working rs' ofs,
  1 < cnt -> partition cnt req rs = (working, rs', ofs) ->
  let parts := filter (fun r => negb (r_cnt r =? 0)) rs' ++ [main_range cnt ofs] in
  flat_map idxs parts = seq 0 cnt /\
  length parts = Nat.min cnt (max_threads (length rs) req) /\
  working + 1 = length parts /\
  (forall r, In r parts -> cnt / length parts <= r_cnt r <= cnt / length parts + 1 /\ 0 < r_cnt r) /\
  map r_tid rs' = map r_tid rs /\ r_tid (main_range cnt ofs) = 0.
Proof.
  intros cnt req rs working rs' ofs Hc H. cbv zeta.
  destruct (partition_facts _ _ _ _ _ _ Hc H) as (F1 & F2 & F3 & F4 & F5 & F6 & F7).
  pose proof (working_threads (length rs) cnt req Hc) as Hw.
  pose proof (working_cnt_le (length rs) cnt req) as Hle.
  rewrite <- F1 in Hw, Hle.
  assert (0 < cnt / (working + 1)) as Hq by lia.
  assert (length (filter (fun r => negb (r_cnt r =? 0)) rs') = working) as HL.
  { rewrite (filter_count working rs' 0); [lia| |lia].
    intros k r Hr. simpl. specialize (F7 k r Hr).
    destruct (Nat.leb_spec working k); rewrite F7; [reflexivity|].
    apply Nat.eqb_neq. lia. }
  rewrite app_length, HL. cbn [length].
  split; [|split; [|split; [|split; [|split]]]].
  - rewrite flat_map_app, filter_flat_map, <- flat_map_app. exact F5.
  - exact Hw.
  - reflexivity.
  - intros r Hr. apply in_app_or in Hr. destruct Hr as [Hr|[<-|[]]].
    + apply filter_In in Hr. destruct Hr as [Hr Hn]. apply In_nth_error in Hr.
      destruct Hr as [k Hk]. specialize (F7 k r Hk).
      destruct (working <=? k); rewrite F7 in *; [discriminate|].
      destruct (k <? cnt mod (working + 1)); lia.
    + simpl. lia.
  - exact F3.
  - reflexivity.
Qed.

Lemma reach_good W jobs sched s : exec (init W jobs) sched = Some s -> Good W jobs s.
Proof. intros H. eapply exec_good; [apply init_good|exact H]. Qed.

Lemma run_exactly_once : forall W jobs sched s before n v after,
  exec (init W jobs) sched = Some s ->
  s_log s = before ++ EvReturn n v :: after ->
  exists j, nth_error jobs n = Some j /\
    ran_exactly_once n (j_cnt j) before /\
    quiet_after n after /\
    (forall v', ~ In (EvReturn n v') (before ++ after)).
Proof.
  intros W jobs sched s before n v after H HL. apply reach_good in H.
  destruct H as (_ & HH & _). destruct (H_done _ _ HH _ _ _ _ HL) as (j & A & B & C & D & E & F).
  exists j. repeat split; try apply A; try apply B; try apply D.
  intros v' Hv. apply in_app_or in Hv. destruct Hv; [eapply E|eapply F]; eauto.
Qed.

Lemma all_calls_return : forall W jobs sched s n,
  exec (init W jobs) sched = Some s -> all_returned s -> n < length jobs ->
  exists v, In (EvReturn n v) (s_log s).
Proof.
  intros W jobs sched s n H [Hm Ht] Hn. apply reach_good in H. destruct H as (_ & HH & _).
  apply (H_all _ _ HH).
  - pose proof (H_todo _ _ HH) as E. rewrite Ht in E.
    assert (length (skipn (s_nxt s) jobs) = 0) as E' by (rewrite <- E; reflexivity).
    rewrite skipn_length in E'. lia.
  - rewrite Hm. discriminate.
Qed.

Lemma no_deadlock : forall W jobs sched s,
  exec (init W jobs) sched = Some s -> s_bstop s = false -> ~ all_returned s -> can_step s.
Proof. intros W jobs sched s H. eapply progress. eapply reach_good. exact H. Qed.

Lemma run_terminates : forall W jobs sched s,
  exec (init W jobs) sched = Some s -> s_bstop s = false ->
  length sched <= 3 * W + length jobs * (30 * W + 21) + 4 * spurious_count sched.
Proof.
  intros W jobs sched s H Hb. pose proof (exec_bound W jobs sched _ _ (init_good W jobs) H Hb) as E.
  rewrite init_measure in E. lia.
Qed.

Lemma destructor_terminates : forall W jobs sched s s1 sched' s',
  exec (init W jobs) sched = Some s -> s_mpc s = MStopNotify ->
  (forall i w, nth_error (s_workers s) i = Some w -> w_pc w <> WPreSleep) ->
  step s LMain = Some s1 -> exec s1 sched' = Some s' ->
  length sched' <= 8 * W + 1 /\ (s_mpc s' <> MJoined -> can_step s').
Proof.
  intros W jobs sched s s1 sched' s' H. eapply destructor_ok. eapply reach_good. exact H.
Qed.

Lemma reduce_cells : forall W jobs sched s before n v after,
  exec (init W jobs) sched = Some s ->
  s_log s = before ++ EvReturn n v :: after ->
  exists j, nth_error jobs n = Some j /\ return_ok n j v before.
Proof.
  intros W jobs sched s before n v after H HL. apply reach_good in H.
  destruct H as (_ & HH & _). destruct (H_done _ _ HH _ _ _ _ HL) as (j & A & B & C & D).
  exists j. auto.
Qed.

Lemma cells_value_map {A} (op : A -> A -> A) e f n rs :
  cells_value op e f (map (fun r => Some (n, r)) rs) =
  Some (fold_right op e (map (fun r => folded op e f (idxs r)) rs)).
Proof. induction rs as [|r rs IH]; simpl; [reflexivity|]. rewrite IH. reflexivity. Qed.

Lemma reduce_value : forall A (op : A -> A -> A) (e : A) (f : nat -> A),
  (forall x y z, op x (op y z) = op (op x y) z) ->
  (forall x y, op x y = op y x) -> (forall x, op e x = x) ->
  forall W jobs sched s before n v after j,
  exec (init W jobs) sched = Some s ->
  s_log s = before ++ EvReturn n v :: after ->
  nth_error jobs n = Some j -> j_kind j = JReduce ->
  reduce_result op e f v = Some (fold_right op e (map f (seq 0 (j_cnt j)))).
Proof.
  intros A op e f Ha Hc He W jobs sched s before n v after j H HL Hj Hk.
  destruct (reduce_cells _ _ _ _ _ _ _ _ H HL) as (j' & Hj' & Hr).
  assert (j' = j) by congruence. subst j'. unfold return_ok in Hr. rewrite Hk in Hr.
  destruct v as [|c|cs]; [contradiction| |].
  - destruct Hr as [-> _]. reflexivity.
  - destruct Hr as (r0 & rs & -> & _ & Ht & _).
    unfold reduce_result. rewrite cells_value_map.
    rewrite (folded_rotate op e f Ha Hc He), Ht. reflexivity.
Qed.

(** ** Concrete executions *)

Definition ex_jobs : list job :=
  [mkJob JRun 1 0; mkJob JReduce 7 0; mkJob JRun 5 2; mkJob JReduce 4 1].

Definition ex_order : list label := [LMain; LWorker 0; LWorker 1].
Definition ex_sched : list label := fst (greedy 400 (init 2 ex_jobs) ex_order).

Lemma ex_execution :
  exists sched s before n v after,
    exec (init 2 ex_jobs) sched = Some s /\ s_log s = before ++ EvReturn n v :: after /\
    all_returned s /\ length (calls_ended 1 (s_log s)) = 3.
Proof.
  exists ex_sched.
  destruct (exec (init 2 ex_jobs) ex_sched) as [s|] eqn:E; [|vm_compute in E; discriminate].
  vm_compute in E. injection E as <-.
  eexists. exists (firstn 2 (s_log (snd (greedy 400 (init 2 ex_jobs) ex_order)))), 0, RRun,
    (skipn 3 (s_log (snd (greedy 400 (init 2 ex_jobs) ex_order)))).
  split; [reflexivity|]. split; [vm_compute; reflexivity|].
  split; [split; reflexivity|reflexivity].
Qed.

Lemma ex_midway :
  exists sched s, exec (init 2 ex_jobs) sched = Some s /\ s_bstop s = false /\ ~ all_returned s.
Proof.
  exists (firstn 12 ex_sched).
  destruct (exec (init 2 ex_jobs) (firstn 12 ex_sched)) as [s|] eqn:E; [|vm_compute in E; discriminate].
  vm_compute in E. injection E as <-. eexists. split; [reflexivity|]. split; [reflexivity|].
  intros [H _]. discriminate.
Qed.

Lemma ex_stop : exists sched s,
  exec (init 2 ex_jobs) sched = Some s /\ s_mpc s = MStopNotify /\
  (forall i w, nth_error (s_workers s) i = Some w -> w_pc w <> WPreSleep) /\ length (s_workers s) = 2.
Proof.
  exists (ex_sched ++ [LMain]).
  destruct (exec (init 2 ex_jobs) (ex_sched ++ [LMain])) as [s|] eqn:E; [|vm_compute in E; discriminate].
  vm_compute in E. injection E as <-. eexists. split; [reflexivity|]. split; [reflexivity|].
  split; [|reflexivity]. intros [|[|[|i]]] w H; simpl in H; try discriminate; injection H as <-; simpl; discriminate.
Qed.

(** The lost wakeup: the worker finds its predicate false, the destructor sets
    m_bStop and notifies, only then the worker blocks. *)
Lemma destructor_can_hang : exists W jobs sched s,
  exec (init W jobs) sched = Some s /\ forallb no_spurious sched = true /\
  s_mpc s = MJoin /\ ~ can_step s.
Proof.
  exists 1, [], [LWorker 0; LWorker 0; LMain; LMain; LWorker 0].
  eexists. split; [vm_compute; reflexivity|]. split; [reflexivity|]. split; [reflexivity|].
  intros (l & s' & Hl & H). destruct l as [|i| |i]; try discriminate.
  destruct i as [|[|i]]; vm_compute in H; discriminate.
Qed.

Lemma reduce_noncomm :
  exists W jobs sched s before n v after j,
  exec (init W jobs) sched = Some s /\
  s_log s = before ++ EvReturn n v :: after /\
  nth_error jobs n = Some j /\ j_kind j = JReduce /\
  reduce_result (@app nat) [] (fun i => [i]) v <>
    Some (fold_right (@app nat) [] (map (fun i => [i]) (seq 0 (j_cnt j)))).
Proof.
  set (jobs := [mkJob JReduce 4 0%Z]).
  exists 1, jobs, (fst (greedy 60 (init 1 jobs) [LMain; LWorker 0])).
  destruct (exec (init 1 jobs) (fst (greedy 60 (init 1 jobs) [LMain; LWorker 0]))) as [s|] eqn:E;
    [|vm_compute in E; discriminate].
  vm_compute in E. injection E as <-. eexists.
  exists (firstn 4 (s_log (snd (greedy 60 (init 1 jobs) [LMain; LWorker 0])))), 0,
    (RReduced [Some (0, mkR 2 2 0); Some (0, mkR 0 2 1)]), [], (mkJob JReduce 4 0%Z).
  split; [reflexivity|]. split; [vm_compute; reflexivity|]. split; [reflexivity|].
  split; [reflexivity|]. vm_compute. discriminate.
Qed.
