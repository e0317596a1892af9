(** Model of the thread pool [nntl/interface/threads/workers.h].

    Concurrency is modelled at the granularity of lock operations, atomic
    variable accesses and condition variable operations; interleaving is
    sequentially consistent (the code uses an SRW lock / std::shared_timed_mutex
    and std::atomic with the default order).  Spurious wakeups are allowed. *)
From Verif Require Import Base.

(** ** Ranges: [parallel_range], nntl/interface/threads/parallel_range.h:37-68. *)
Record prange := mkR { r_ofs : nat; r_cnt : nat; r_tid : nat }.

(** ** [Workers::partition_count_to_workers], workers.h:264-284.

    [W] is [m_workersCnt] (number of threads besides the caller), [req] is
    [_useNThreads] (any int, hence [Z]); [cnt > 1] is asserted by the callers
    (177, 235).  Simplification: 64-bit arithmetic does not overflow. *)

(** workers.h:266 *)
Definition use_n_threads (W : nat) (req : Z) : nat :=
  if ((1 <? req) && (req <=? Z.of_nat W + 1))%Z%bool then Z.to_nat (req - 1) else W.

(** workers.h:267-268: the value stored to [m_workingCnt] *)
Definition working_cnt (W cnt : nat) (req : Z) : nat :=
  let u := use_n_threads W req in
  if u <? cnt then u else cnt - 1.

(** workers.h:274-282, the loop over [m_ranges]; [i] is the loop variable,
    [prev] is [prevOfs].  Returns the ranges and the final [prevOfs]. *)
Fixpoint assign_ranges (working each residual i prev : nat) (rs : list prange)
  : list prange * nat :=
  match rs with
  | [] => ([], prev)
  | r :: rs' =>
      if working <=? i then
        let (t, ofs) := assign_ranges working each residual (S i) prev rs' in
        (mkR (r_ofs r) 0 (r_tid r) :: t, ofs)
      else
        let n := each + (if i <? residual then 1 else 0) in
        let (t, ofs) := assign_ranges working each residual (S i) (prev + n) rs' in
        (mkR prev n (r_tid r) :: t, ofs)
  end.

(** workers.h:264-284 as a whole.  Result: (m_workingCnt, m_ranges, returned
    offset). *)
Definition partition (cnt : nat) (req : Z) (rs : list prange)
  : nat * list prange * nat :=
  let W := length rs in
  let working := working_cnt W cnt req in
  let total := working + 1 in
  let (rs', ofs) := assign_ranges working (cnt / total) (cnt mod total) 0 0 rs in
  (working, rs', ofs).

(** workers.h:192 / 252: the range processed by the calling thread *)
Definition main_range (cnt ofs : nat) : prange := mkR ofs (cnt - ofs) 0.

(** ** The protocol *)

Inductive jobkind := JRun | JReduce.

(** Arguments of one API call: run(F, cnt, useNThreads) or
    reduce(FRed, FRF, cnt, useNThreads). *)
Record job := mkJob { j_kind : jobkind; j_cnt : nat; j_req : Z }.

(** workers.h:165 and workers.h:221: is the functor called directly? *)
Definition is_direct (j : job) : bool :=
  match j_kind j with
  | JRun => j_cnt j <=? 1
  | JReduce => (j_cnt j <=? 1) || (j_req j =? 1)%Z
  end.

(** A cell of [m_reduceCache]: [None] is the initial value, [Some (n, r)] is the
    (symbolic) value of the functor of the [n]-th job on range [r]. *)
Definition cell := option (nat * prange).

Inductive retval :=
| RRun                      (* run() *)
| RDirect (c : cell)        (* reduce() called the functor directly, :222 *)
| RReduced (cs : list cell) (* reduce() passed these cells to the final reduction *).

(** Observable events; [n] is the number of the API call, [tid] the executing
    thread (0 = caller, i+1 = worker i). *)
Inductive event :=
| EvBegin (n tid : nat) (r : prange)
| EvEnd (n tid : nat) (r : prange)
| EvReturn (n : nat) (v : retval).

(** Program counter of a worker, workers.h:297-323 and
    _sync_primitives.h:lockShared_wait_unlock. *)
Inductive wpc :=
| WLock        (* before lock_shared of the wait *)
| WPred        (* shared lock held; evaluates the predicate, :300 *)
| WPreSleep    (* predicate was false; about to release and block atomically *)
| WSleep       (* blocked on m_waitingOrders *)
| WUnlock      (* predicate was true; about to unlock_shared *)
| WChk         (* :302 *)
| WCall        (* :304, about to call the functor *)
| WCalled (n : nat)   (* functor of job n in progress *)
| WFinLock     (* :318 *)
| WClear       (* shared lock held, :319 *)
| WDec         (* :320 *)
| WNotify      (* :321 *)
| WFinUnlock   (* :322 *)
| WExit.       (* left the loop *)

(** [w_rng] is [m_ranges[i]].  [w_asg] is a ghost field (not in the code): the
    range given to this worker for the job being processed, if any. *)
Record worker := mkW { w_pc : wpc; w_rng : prange; w_asg : list prange }.

(** Program counter of the calling thread. *)
Inductive mpc :=
| MIdle         (* outside of the API *)
| MDirect       (* :167 / :222, before the direct call *)
| MDirectCalled
| MSubmit       (* :178 / :236, before lock() *)
| MNotify (ofs : nat)   (* lock held, job published; :187 / :248 *)
| MUnlock (ofs : nat)   (* :188 / :249 *)
| MCall (ofs : nat)     (* :192 / :252 *)
| MCalled (ofs : nat)
| MCheck        (* :194 / :254 *)
| MWantLock     (* lock_wait_unlock *)
| MPred         (* exclusive lock held *)
| MPreSleep     (* predicate false; about to release and block atomically *)
| MSleep        (* blocked on m_orderDone *)
| MWaitUnlock   (* predicate true *)
| MStopNotify   (* destructor, :98 (m_bStop already set) *)
| MJoin         (* destructor, :101 *)
| MJoined.

Record state := mkS {
  s_mpc : mpc;
  s_mjob : nat * job;             (* number and arguments of the current API call *)
  s_pub : nat * jobkind;          (* m_fnRun/m_fnReduce and m_jobType *)
  s_wcnt : Z;                     (* m_workingCnt *)
  s_nred : nat;                   (* workersOnReduce, :245 *)
  s_workers : list worker;
  s_cache : list cell;            (* m_reduceCache *)
  s_bstop : bool;
  s_todo : list job;              (* API calls the user will make *)
  s_nxt : nat;                    (* number of API calls made so far *)
  s_log : list event              (* chronological *)
}.

(** State right after the constructor (workers.h:104-125) returned; every worker
    is at the head of its loop (the start-up handshake is not modelled). *)
Definition init_worker (i : nat) : worker := mkW WLock (mkR 0 0 (i + 1)) [].

Definition init (W : nat) (jobs : list job) : state :=
  mkS MIdle (0, mkJob JRun 0 0%Z) (0, JRun) 0%Z 0
      (map init_worker (seq 0 W)) (repeat None (W + 1)) false jobs 0 [].

(** Lock state derived from the program counters. *)
Definition w_holds (p : wpc) : bool :=
  match p with
  | WPred | WPreSleep | WUnlock | WClear | WDec | WNotify | WFinUnlock => true
  | _ => false
  end.

Definition m_holds (p : mpc) : bool :=
  match p with
  | MNotify _ | MUnlock _ | MPred | MPreSleep | MWaitUnlock => true
  | _ => false
  end.

Definition no_shared (ws : list worker) : bool :=
  forallb (fun w => negb (w_holds (w_pc w))) ws.

(** notify_all on m_waitingOrders *)
Definition wake_worker (w : worker) : worker :=
  match w_pc w with
  | WSleep => mkW WLock (w_rng w) (w_asg w)
  | _ => w
  end.

(** notify_one on m_orderDone (the caller is the only possible waiter) *)
Definition wake_main (p : mpc) : mpc :=
  match p with MSleep => MWantLock | _ => p end.

(** Field updates *)
Definition set_mpc (s : state) (p : mpc) : state :=
  mkS p (s_mjob s) (s_pub s) (s_wcnt s) (s_nred s) (s_workers s) (s_cache s)
      (s_bstop s) (s_todo s) (s_nxt s) (s_log s).
Definition set_workers (s : state) (ws : list worker) : state :=
  mkS (s_mpc s) (s_mjob s) (s_pub s) (s_wcnt s) (s_nred s) ws (s_cache s)
      (s_bstop s) (s_todo s) (s_nxt s) (s_log s).
Definition set_cache (s : state) (c : list cell) : state :=
  mkS (s_mpc s) (s_mjob s) (s_pub s) (s_wcnt s) (s_nred s) (s_workers s) c
      (s_bstop s) (s_todo s) (s_nxt s) (s_log s).
Definition set_wcnt (s : state) (n : Z) : state :=
  mkS (s_mpc s) (s_mjob s) (s_pub s) n (s_nred s) (s_workers s) (s_cache s)
      (s_bstop s) (s_todo s) (s_nxt s) (s_log s).
Definition emit (s : state) (e : event) : state :=
  mkS (s_mpc s) (s_mjob s) (s_pub s) (s_wcnt s) (s_nred s) (s_workers s) (s_cache s)
      (s_bstop s) (s_todo s) (s_nxt s) (s_log s ++ [e]).

Definition upd_worker (s : state) (i : nat) (w : worker) : state :=
  set_workers s (upd (s_workers s) i w).

(** Ranges written back to the workers by the partitioning; the ghost field
    records non-empty assignments. *)
Definition give_range (w : worker) (r : prange) : worker :=
  mkW (w_pc w) r (if r_cnt r =? 0 then [] else [r]).

Fixpoint zip_ranges (ws : list worker) (rs : list prange) : list worker :=
  match ws, rs with
  | w :: ws', r :: rs' => give_range w r :: zip_ranges ws' rs'
  | _, _ => []
  end.

(** [if m_workingCnt <= 0 then return]: what the API call returns *)
Definition m_return (s : state) : state :=
  let (n, j) := s_mjob s in
  let v := match j_kind j with
           | JRun => RRun
           | JReduce => RReduced (firstn (s_nred s) (s_cache s))
           end in
  set_mpc (emit s (EvReturn n v)) MIdle.

(** One step of the calling thread. [None] = blocked (or finished). *)
Definition step_main (s : state) : option state :=
  let (n, j) := s_mjob s in
  match s_mpc s with
  | MIdle =>
      match s_todo s with
      | jb :: rest =>
          Some (mkS (if is_direct jb then MDirect else MSubmit)
                    (s_nxt s, jb) (s_pub s) (s_wcnt s) (s_nred s) (s_workers s)
                    (s_cache s) (s_bstop s) rest (s_nxt s + 1) (s_log s))
      | [] => (* ~Workers, :95 *)
          Some (mkS MStopNotify (s_mjob s) (s_pub s) (s_wcnt s) (s_nred s)
                    (s_workers s) (s_cache s) true [] (s_nxt s) (s_log s))
      end
  | MDirect =>
      Some (set_mpc (emit s (EvBegin n 0 (mkR 0 (j_cnt j) 0))) MDirectCalled)
  | MDirectCalled =>
      let r := mkR 0 (j_cnt j) 0 in
      let v := match j_kind j with JRun => RRun | JReduce => RDirect (Some (n, r)) end in
      Some (set_mpc (emit (emit s (EvEnd n 0 r)) (EvReturn n v)) MIdle)
  | MSubmit => (* lock(); publish the functor and the ranges, :178-185 / :236-246 *)
      if no_shared (s_workers s) then
        let '(working, rs, ofs) := partition (j_cnt j) (j_req j) (map w_rng (s_workers s)) in
        Some (mkS (MNotify ofs) (n, j) (n, j_kind j) (Z.of_nat working) (working + 1)
                  (zip_ranges (s_workers s) rs) (s_cache s) (s_bstop s) (s_todo s)
                  (s_nxt s) (s_log s))
      else None
  | MNotify ofs => Some (set_mpc (set_workers s (map wake_worker (s_workers s))) (MUnlock ofs))
  | MUnlock ofs => Some (set_mpc s (MCall ofs))
  | MCall ofs =>
      Some (set_mpc (emit s (EvBegin n 0 (main_range (j_cnt j) ofs))) (MCalled ofs))
  | MCalled ofs =>
      let r := main_range (j_cnt j) ofs in
      let s1 := match j_kind j with
                | JRun => s
                | JReduce => set_cache s (upd (s_cache s) 0 (Some (n, r)))
                end in
      Some (set_mpc (emit s1 (EvEnd n 0 r)) MCheck)
  | MCheck => if (0 <? s_wcnt s)%Z then Some (set_mpc s MWantLock) else Some (m_return s)
  | MWantLock => if no_shared (s_workers s) then Some (set_mpc s MPred) else None
  | MPred => if (s_wcnt s <=? 0)%Z then Some (set_mpc s MWaitUnlock) else Some (set_mpc s MPreSleep)
  | MPreSleep => Some (set_mpc s MSleep)
  | MSleep => None
  | MWaitUnlock => Some (m_return s)
  | MStopNotify => Some (set_mpc (set_workers s (map wake_worker (s_workers s))) MJoin)
  | MJoin =>
      if forallb (fun w => match w_pc w with WExit => true | _ => false end) (s_workers s)
      then Some (set_mpc s MJoined) else None
  | MJoined => None
  end.

(** One step of worker [i], workers.h:297-323. *)
Definition step_worker (s : state) (i : nat) : option state :=
  match nth_error (s_workers s) i with
  | None => None
  | Some w =>
      let go p := mkW p (w_rng w) (w_asg w) in
      match w_pc w with
      | WLock => if m_holds (s_mpc s) then None else Some (upd_worker s i (go WPred))
      | WPred => if s_bstop s || negb (r_cnt (w_rng w) =? 0)
                 then Some (upd_worker s i (go WUnlock))
                 else Some (upd_worker s i (go WPreSleep))
      | WPreSleep => Some (upd_worker s i (go WSleep))
      | WSleep => None
      | WUnlock => Some (upd_worker s i (go WChk))
      | WChk => Some (upd_worker s i (go (if s_bstop s then WExit else WCall)))
      | WCall =>
          let n := fst (s_pub s) in
          Some (emit (upd_worker s i (go (WCalled n))) (EvBegin n (i + 1) (w_rng w)))
      | WCalled n =>
          let s1 := match snd (s_pub s) with
                    | JRun => s
                    | JReduce => set_cache s (upd (s_cache s) (i + 1) (Some (n, w_rng w)))
                    end in
          Some (emit (upd_worker s1 i (go WFinLock)) (EvEnd n (i + 1) (w_rng w)))
      | WFinLock => if m_holds (s_mpc s) then None else Some (upd_worker s i (go WClear))
      | WClear =>
          Some (upd_worker s i (mkW WDec (mkR (r_ofs (w_rng w)) 0 (r_tid (w_rng w))) (w_asg w)))
      | WDec => Some (set_wcnt (upd_worker s i (go WNotify)) (s_wcnt s - 1)%Z)
      | WNotify => Some (set_mpc (upd_worker s i (go WFinUnlock)) (wake_main (s_mpc s)))
      | WFinUnlock => Some (upd_worker s i (go WLock))
      | WExit => None
      end
  end.

(** Spurious wakeups. *)
Definition spurious_main (s : state) : option state :=
  match s_mpc s with MSleep => Some (set_mpc s MWantLock) | _ => None end.

Definition spurious_worker (s : state) (i : nat) : option state :=
  match nth_error (s_workers s) i with
  | Some w => match w_pc w with
              | WSleep => Some (upd_worker s i (mkW WLock (w_rng w) (w_asg w)))
              | _ => None
              end
  | None => None
  end.

Inductive label := LMain | LWorker (i : nat) | LSpurMain | LSpurWorker (i : nat).

Definition step (s : state) (l : label) : option state :=
  match l with
  | LMain => step_main s
  | LWorker i => step_worker s i
  | LSpurMain => spurious_main s
  | LSpurWorker i => spurious_worker s i
  end.

(** Execute a schedule; [None] if some step of it is not enabled. *)
Fixpoint exec (s : state) (ls : list label) : option state :=
  match ls with
  | [] => Some s
  | l :: ls' => do s' <- step s l; exec s' ls'
  end.
