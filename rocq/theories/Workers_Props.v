(** C01-C05: the thread pool. *)
From Coq Require Import Permutation.
From Verif Require Import Base BaseLemmas Workers_Model Workers_Spec
  Workers_Proofs Workers_Proofs2 Workers_Proofs3 Workers_Final.

(** C01.  For a pool of any size with whatever stale ranges, any item count > 1
    and any requested thread count: the ranges given to the workers followed by
    the caller's range enumerate 0..cnt-1 in order; exactly
    min(cnt, requested-or-all) threads get a non-empty range; sizes differ by at
    most one; thread ids are unchanged. *)
Theorem C01_partition_exact : forall cnt req rs working rs' ofs,
  1 < cnt -> partition cnt req rs = (working, rs', ofs) ->
  let parts := filter (fun r => negb (r_cnt r =? 0)) rs' ++ [main_range cnt ofs] in
  flat_map idxs parts = seq 0 cnt /\
  length parts = Nat.min cnt (max_threads (length rs) req) /\
  working + 1 = length parts /\
  (forall r, In r parts -> cnt / length parts <= r_cnt r <= cnt / length parts + 1 /\ 0 < r_cnt r) /\
  map r_tid rs' = map r_tid rs /\ r_tid (main_range cnt ofs) = 0.
Proof. exact partition_exact. Qed.
Print Assumptions C01_partition_exact.

Example C01_example :
  partition 11 3%Z [mkR 7 7 1; mkR 0 0 2; mkR 5 2 3] =
    (2, [mkR 0 4 1; mkR 4 4 2; mkR 5 0 3], 8).
Proof. reflexivity. Qed.

(** C02.  Whatever the pool size, the sequence of API calls and the schedule
    (with spurious wakeups): when a call returns, its functor has been run to
    completion on ranges covering every index exactly once, at most once per
    thread, each range carrying the executing thread's id; it returns once, and
    the functor is never entered or left after the return. *)
Theorem C02_run_exactly_once : forall W jobs sched s before n v after,
  exec (init W jobs) sched = Some s ->
  s_log s = before ++ EvReturn n v :: after ->
  exists j, nth_error jobs n = Some j /\
    ran_exactly_once n (j_cnt j) before /\
    quiet_after n after /\
    (forall v', ~ In (EvReturn n v') (before ++ after)).
Proof. exact run_exactly_once. Qed.
Print Assumptions C02_run_exactly_once.

(** and once no call is in progress and none is left, every call has returned. *)
Theorem C02_all_return : forall W jobs sched s n,
  exec (init W jobs) sched = Some s -> all_returned s -> n < length jobs ->
  exists v, In (EvReturn n v) (s_log s).
Proof. exact all_calls_return. Qed.
Print Assumptions C02_all_return.

Example C02_example :
  exists sched s before n v after,
    exec (init 2 ex_jobs) sched = Some s /\ s_log s = before ++ EvReturn n v :: after /\
    all_returned s /\ length (calls_ended 1 (s_log s)) = 3.
Proof. exact ex_execution. Qed.

(** C03.  No deadlock: while API calls remain to be completed, some thread can
    step (without help of spurious wakeups)... *)
Theorem C03_no_deadlock : forall W jobs sched s,
  exec (init W jobs) sched = Some s -> s_bstop s = false -> ~ all_returned s -> can_step s.
Proof. exact no_deadlock. Qed.
Print Assumptions C03_no_deadlock.

(** ... and no livelock: an execution of n calls on W workers has at most
    3W + n(30W+21) steps plus 4 per spurious wakeup before the pool is destroyed. *)
Theorem C03_terminates : forall W jobs sched s,
  exec (init W jobs) sched = Some s -> s_bstop s = false ->
  length sched <= 3 * W + length jobs * (30 * W + 21) + 4 * spurious_count sched.
Proof. exact run_terminates. Qed.
Print Assumptions C03_terminates.

Example C03_example :
  exists sched s, exec (init 2 ex_jobs) sched = Some s /\ s_bstop s = false /\ ~ all_returned s.
Proof. exact ex_midway. Qed.

(** C04 as stated (the destructor always terminates) is false: there is a
    schedule after which the destructor waits for a worker that sleeps forever
    (only a spurious wakeup could help). *)
Theorem C04_destructor_terminates_refuted : exists W jobs sched s,
  exec (init W jobs) sched = Some s /\ forallb no_spurious sched = true /\
  s_mpc s = MJoin /\ ~ can_step s.
Proof. exact destructor_can_hang. Qed.
Print Assumptions C04_destructor_terminates_refuted.

(** What does hold: if no worker stands between evaluating its (false) wait
    predicate and blocking at the moment of the destructor's notify_all, the
    destructor completes in at most 8W+1 further steps, whatever the schedule. *)
Theorem C04_destructor_terminates_partial : forall W jobs sched s s1 sched' s',
  exec (init W jobs) sched = Some s -> s_mpc s = MStopNotify ->
  (forall i w, nth_error (s_workers s) i = Some w -> w_pc w <> WPreSleep) ->
  step s LMain = Some s1 -> exec s1 sched' = Some s' ->
  length sched' <= 8 * W + 1 /\ (s_mpc s' <> MJoined -> can_step s').
Proof. exact destructor_terminates. Qed.
Print Assumptions C04_destructor_terminates_partial.

Example C04_example : exists sched s,
  exec (init 2 ex_jobs) sched = Some s /\ s_mpc s = MStopNotify /\
  (forall i w, nth_error (s_workers s) i = Some w -> w_pc w <> WPreSleep) /\ length (s_workers s) = 2.
Proof. exact ex_stop. Qed.

(** C05.  What reduce() hands to the final reduction: the t-th cell is the value
    the functor gave on thread t's range during this very call, all ranges tile
    0..cnt-1 with the caller's range last. *)
Theorem C05_reduce_cells : forall W jobs sched s before n v after,
  exec (init W jobs) sched = Some s ->
  s_log s = before ++ EvReturn n v :: after ->
  exists j, nth_error jobs n = Some j /\ return_ok n j v before.
Proof. exact reduce_cells. Qed.
Print Assumptions C05_reduce_cells.

(** Hence for a commutative monoid (op, e), a functor folding [f] over its range
    and a final reduction folding the cells, reduce() returns the fold of [f]
    over all indices. *)
Theorem C05_reduce_value : forall A (op : A -> A -> A) (e : A) (f : nat -> A),
  (forall x y z, op x (op y z) = op (op x y) z) ->
  (forall x y, op x y = op y x) -> (forall x, op e x = x) ->
  forall W jobs sched s before n v after j,
  exec (init W jobs) sched = Some s ->
  s_log s = before ++ EvReturn n v :: after ->
  nth_error jobs n = Some j -> j_kind j = JReduce ->
  reduce_result op e f v = Some (fold_right op e (map f (seq 0 (j_cnt j)))).
Proof. exact reduce_value. Qed.
Print Assumptions C05_reduce_value.

(** Without commutativity this fails (the caller's range, cell 0, is the last
    one): concatenation of lists as [op]. *)
Theorem C05_reduce_value_noncommutative_refuted :
  exists W jobs sched s before n v after j,
  exec (init W jobs) sched = Some s /\
  s_log s = before ++ EvReturn n v :: after /\
  nth_error jobs n = Some j /\ j_kind j = JReduce /\
  reduce_result (@app nat) [] (fun i => [i]) v <>
    Some (fold_right (@app nat) [] (map (fun i => [i]) (seq 0 (j_cnt j)))).
Proof. exact reduce_noncomm. Qed.
Print Assumptions C05_reduce_value_noncommutative_refuted.
