(** C06, C07, C58, C59: the background thread pool. *)
From Coq Require Import Permutation.
From Verif Require Import Base BaseLemmas Bg_Model Bg_Spec Bg_Proofs Bg_Proofs2 Bg_Proofs3 Bg_Final.

(** C06.  When exec(f) returns, f has been begun and ended exactly once on each
    of the N threads and is not touched afterwards, whatever the schedule, the
    registered tasks and their behaviour. *)
Theorem C06_exec_once_per_thread : forall N ops sched s before n after,
  exec (init N ops) sched = Some s -> s_log s = before ++ EvReturn n :: after ->
  nth_error ops n = Some OExec -> once_on_each N n before /\ never n after.
Proof. exact exec_once. Qed.
Print Assumptions C06_exec_once_per_thread.

Example C06_example : exists sched s before after,
  exec (init 2 ex_ops) sched = Some s /\ s_log s = before ++ EvReturn 2 :: after /\
  nth_error ex_ops 2 = Some OExec.
Proof. exact ex_exec. Qed.

(** At no moment has a thread entered the functor of a call twice, or before the
    call was made. *)
Theorem C06_exec_at_most_once : forall N ops sched s n i,
  exec (init N ops) sched = Some s ->
  ended n i (s_log s) <= begun n i (s_log s) <= 1 /\ (s_nxt s <= n -> begun n i (s_log s) = 0).
Proof. exact exec_at_most_once. Qed.
Print Assumptions C06_exec_at_most_once.

(** The pool never deadlocks (and never calls an empty functor): until the
    destructor has completed some thread can move without a spurious wakeup. *)
Theorem C06_no_deadlock : forall N ops sched s,
  exec (init N ops) sched = Some s -> s_mpc s <> MJoined -> can_step s.
Proof. exact bg_progress. Qed.
Print Assumptions C06_no_deadlock.

(** C07.  Between API calls the list holds exactly the registered and not deleted
    tasks, sorted by non-increasing priority. *)
Theorem C07_task_list_partial : forall N ops sched s,
  exec (init N ops) sched = Some s -> s_mpc s = MIdle ->
  Permutation (s_tasks s) (registered (firstn (s_nxt s) ops)) /\ by_priority (s_tasks s).
Proof. exact task_list_at_rest. Qed.
Print Assumptions C07_task_list_partial.

Example C07_list_example : exists sched s,
  exec (init 2 ex_ops) sched = Some s /\ s_mpc s = MIdle /\
  s_tasks s = [mkT 1 5%Z; mkT 0 1%Z] /\ s_nxt s = 2.
Proof. exact ex_idle. Qed.

(** So is every version of the list the threads have ever seen. *)
Theorem C07_task_list_history_partial : forall N ops sched s before ts after,
  exec (init N ops) sched = Some s -> s_log s = before ++ EvChange ts :: after ->
  Permutation ts (registered (firstn (S (changes before)) (filter is_change ops))) /\ by_priority ts.
Proof. exact task_list_history. Qed.
Print Assumptions C07_task_list_history_partial.

(** A thread serving the tasks goes through the list in force, calls each task
    until it reports false and only then the next, less important, one. *)
Theorem C07_served_by_priority : forall N ops sched s before i ts during rest,
  exec (init N ops) sched = Some s ->
  s_log s = before ++ EvPass i ts :: during ++ rest ->
  existsb (starts_pass i) during = false ->
  ts = in_force before /\ exists left, serve ts (task_calls i during) = Some left.
Proof. exact tasks_served. Qed.
Print Assumptions C07_served_by_priority.

Example C07_served_example : exists s before during,
  exec (init 2 ex_ops) ex_pass_sched = Some s /\
  s_log s = before ++ EvPass 0 [mkT 1 5%Z; mkT 0 1%Z] :: during ++ [] /\
  existsb (starts_pass 0) during = false /\
  task_calls 0 during = [(1, true); (1, false); (0, false)].
Proof. exact ex_pass. Qed.

(** Tasks are called in such passes only. *)
Theorem C07_only_in_passes : forall N ops sched s before i id r after,
  exec (init N ops) sched = Some s -> s_log s = before ++ EvTask i id r :: after ->
  existsb (starts_pass i) before = true.
Proof. exact tasks_only_in_passes. Qed.
Print Assumptions C07_only_in_passes.

(** A thread stops serving the list only when every task has reported false, or
    an API call or the destructor is asking for the lock. *)
Theorem C07_pass_completes : forall N ops sched s i r s' w rem w',
  exec (init N ops) sched = Some s ->
  nth_error (s_workers s) i = Some w -> w_pc w = WTask rem ->
  step s (LWorker i r) = Some s' -> nth_error (s_workers s') i = Some w' ->
  (forall rem', w_pc w' <> WTask rem') ->
  (exists before during, s_log s = before ++ EvPass i (s_tasks s) :: during /\
     existsb (starts_pass i) during = false /\
     serve (s_tasks s) (task_calls i during) = Some []) \/
  match s_mpc s with
  | MWantLock _ | MHold _ | MClrGo _ | MStopNotify | MJoin | MJoined => True
  | _ => False
  end.
Proof. exact pass_completes. Qed.
Print Assumptions C07_pass_completes.

Example C07_pass_example : exists s s' w w',
  exec (init 2 ex_ops) (firstn 21 ex_pass_sched) = Some s /\
  nth_error (s_workers s) 0 = Some w /\ w_pc w = WTask [] /\
  step s (LWorker 0 true) = Some s' /\ nth_error (s_workers s') 0 = Some w' /\ w_pc w' = WTUnlock.
Proof. exact ex_pass_end. Qed.

(** Registration order of equal priorities is not kept: std::sort is unstable. *)
Theorem C07_equal_priority_order_refuted : exists N ops sched s,
  exec (init N ops) sched = Some s /\ s_mpc s = MIdle /\
  exists i j a b, i < j /\ nth_error (s_tasks s) i = Some a /\ nth_error (s_tasks s) j = Some b /\
    t_prio a = t_prio b /\ t_id b < t_id a.
Proof. exact equal_priority_swapped. Qed.
Print Assumptions C07_equal_priority_order_refuted.

(** C58.  Once the destructor has raised its two flags, it completes within
    12N+2 further steps of whatever schedule (a task call in progress counts as
    one step). *)
Theorem C58_destructor_terminates : forall N ops sched s so s1 sched' s',
  exec (init N ops) sched = Some s -> s_mpc s = MStopGo -> step s (LMain so) = Some s1 ->
  exec s1 sched' = Some s' ->
  length sched' <= 12 * N + 2 /\ (s_mpc s' <> MJoined -> can_step s').
Proof. exact destructor_ends. Qed.
Print Assumptions C58_destructor_terminates.

Example C58_example : exists sched s s1,
  exec (init 2 [OExec]) sched = Some s /\ s_mpc s = MStopGo /\ step s (LMain []) = Some s1 /\
  exists sched' s', exec s1 sched' = Some s' /\ s_mpc s' = MJoined.
Proof. exact ex_destructor. Qed.

(** C59 (exec() returns whatever the tasks do) is false: with one thread and one
    task that always reports more work there is an execution in which exec()'s
    caller is never able to move again, and nobody else but the task is. *)
Theorem C59_exec_returns_refuted : exists ops sched,
  nth_error ops 1 = Some OExec /\
  forall k, exists s, exec (init 1 ops) (sched ++ repeat (LWorker 0 true) k) = Some s /\
    s_cur s = 1 /\ m_op (s_mpc s) = Some OExec /\
    (forall so, step s (LMain so) = None) /\ step s LSpurMain = None /\
    (forall i r, i <> 0 -> step s (LWorker i r) = None).
Proof. exact exec_starves. Qed.
Print Assumptions C59_exec_returns_refuted.
