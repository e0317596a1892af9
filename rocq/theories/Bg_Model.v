(** Model of the background thread pool [nntl/interface/threads/bgworkers.h].

    Interleaving semantics at the granularity of lock operations, accesses to
    shared variables and user calls (sequentially consistent).  Timeouts of
    [wait_for] may fire at any moment.  Both variants of [wait_for] are covered:
    the native one loops until the predicate holds, the std one may also return
    after a timeout with the predicate false (_sync_primitives.h:307-337,
    399-425); here a worker may leave the wait with any predicate value after a
    timeout. The constructor's handshake (145-169, 283-286) is not modelled. *)
From Verif Require Import Base.

(** [TaskDescr], bgworkers.h:43-52: a task is an identity and a priority. *)
Record task := mkT { t_id : nat; t_prio : Z }.

(** API calls of the main thread: exec(f) 256-271, add_task(t, prio) 229-246,
    delete_tasks() 248-252. *)
Inductive op := OExec | OAdd (prio : Z) | ODelete.

Inductive event :=
| EvExecBegin (n tid : nat)          (* functor of the n-th API call entered on thread tid *)
| EvExecEnd (n tid : nat)
| EvReturn (n : nat)                 (* n-th API call returned *)
| EvPass (tid : nat) (ts : list task) (* thread tid starts to serve the task list *)
| EvTask (tid : nat) (id : nat) (ret : bool) (* a task call returned [ret] *)
| EvChange (ts : list task).         (* the task list was changed by add/delete *)

(** Worker, bgworkers.h:289-322. *)
Inductive wpc :=
| WLock          (* lock_shared of the wait *)
| WPred (to : bool) (* shared lock held, evaluates 296; [to]: a timeout has just fired *)
| WPreSleep | WSleep
| WUnlock        (* leaving the wait *)
| WStop          (* 298 *)
| WChk           (* 300 *)
| WCall          (* 301 *)
| WCalled (n : nat)
| WFinLock       (* 303 *)
| WClear         (* 305 *)
| WDec           (* 306 *)
| WNotify        (* 307 *)
| WFinUnlock     (* 309 *)
| WTLock         (* 311 *)
| WTask (rem : list task)  (* 315-318: shared lock held, next task is the head *)
| WTUnlock       (* 320 *)
| WExit.

(** [w_flag] is [m_threadHasSmth2Exec[i]]. *)
Record worker := mkW { w_pc : wpc; w_flag : bool }.

(** Main thread. *)
Inductive mpc :=
| MIdle
| MSetGo (o : op)     (* 257 / 76: about to set m_bGo2Waiting *)
| MWantLock (o : op)  (* 258 / 77 *)
| MHold (o : op)      (* lock held: 260-262 / 243-244 / 250 *)
| MClrGo (o : op)     (* 264 / 80 *)
| MUnlock (o : op)    (* 265 / 81 *)
| MWant2              (* 267 lock *)
| MPred | MPreSleep | MSleep
| MWaitUnlock
| MReset              (* 269 *)
| MStop               (* destructor, 173 *)
| MStopGo             (* 174 *)
| MStopNotify         (* 177 *)
| MJoin               (* 180 *)
| MJoined.

Record state := mkS {
  s_mpc : mpc;
  s_fn : option nat;      (* m_execFn: number of the call it belongs to *)
  s_go : bool;            (* m_bGo2Waiting *)
  s_stop : bool;
  s_wcnt : Z;             (* m_workingCnt *)
  s_tasks : list task;
  s_nid : nat;            (* identity for the next added task *)
  s_workers : list worker;
  s_todo : list op;
  s_cur : nat;            (* number of the API call in progress *)
  s_nxt : nat;
  s_log : list event
}.

Definition init (N : nat) (ops : list op) : state :=
  mkS MIdle None false false 0 [] 0 (repeat (mkW WLock false) N) ops 0 0 [].

Definition w_holds (p : wpc) : bool :=
  match p with
  | WPred _ | WPreSleep | WUnlock | WClear | WDec | WNotify | WFinUnlock | WTask _ | WTUnlock => true
  | _ => false
  end.

Definition m_holds (p : mpc) : bool :=
  match p with
  | MHold _ | MClrGo _ | MUnlock _ | MPred | MPreSleep | MWaitUnlock => true
  | _ => false
  end.

Definition no_shared (ws : list worker) : bool :=
  forallb (fun w => negb (w_holds (w_pc w))) ws.

Definition wake_worker (w : worker) : worker :=
  match w_pc w with WSleep => mkW WLock (w_flag w) | _ => w end.

Definition wake_main (p : mpc) : mpc := match p with MSleep => MWant2 | _ => p end.

(** [std::sort] with [TaskDescrComp_t] (54-59): some permutation sorted by
    non-increasing priority; which one is not specified for equal priorities. *)
Fixpoint sorted_desc (ts : list task) : bool :=
  match ts with
  | t1 :: (t2 :: _) as ts' => (t_prio t2 <=? t_prio t1)%Z && sorted_desc ts'
  | _ => true
  end.

Definition task_eqb (a b : task) : bool := (t_id a =? t_id b) && (t_prio a =? t_prio b)%Z.

Fixpoint remove_one (t : task) (ts : list task) : option (list task) :=
  match ts with
  | [] => None
  | x :: ts' => if task_eqb t x then Some ts'
                else do r <- remove_one t ts'; Some (x :: r)
  end.

Fixpoint is_perm (a b : list task) : bool :=
  match a with
  | [] => match b with [] => true | _ => false end
  | t :: a' => match remove_one t b with Some b' => is_perm a' b' | None => false end
  end.

Definition sort_result_ok (before after : list task) : bool :=
  is_perm before after && sorted_desc after.

Definition set_mpc (s : state) (p : mpc) : state :=
  mkS p (s_fn s) (s_go s) (s_stop s) (s_wcnt s) (s_tasks s) (s_nid s) (s_workers s)
      (s_todo s) (s_cur s) (s_nxt s) (s_log s).
Definition set_go (s : state) (b : bool) : state :=
  mkS (s_mpc s) (s_fn s) b (s_stop s) (s_wcnt s) (s_tasks s) (s_nid s) (s_workers s)
      (s_todo s) (s_cur s) (s_nxt s) (s_log s).
Definition set_workers (s : state) (ws : list worker) : state :=
  mkS (s_mpc s) (s_fn s) (s_go s) (s_stop s) (s_wcnt s) (s_tasks s) (s_nid s) ws
      (s_todo s) (s_cur s) (s_nxt s) (s_log s).
Definition set_wcnt (s : state) (n : Z) : state :=
  mkS (s_mpc s) (s_fn s) (s_go s) (s_stop s) n (s_tasks s) (s_nid s) (s_workers s)
      (s_todo s) (s_cur s) (s_nxt s) (s_log s).
Definition set_tasks (s : state) (ts : list task) (nid : nat) : state :=
  mkS (s_mpc s) (s_fn s) (s_go s) (s_stop s) (s_wcnt s) ts nid (s_workers s)
      (s_todo s) (s_cur s) (s_nxt s) (s_log s).
Definition emit (s : state) (e : event) : state :=
  mkS (s_mpc s) (s_fn s) (s_go s) (s_stop s) (s_wcnt s) (s_tasks s) (s_nid s) (s_workers s)
      (s_todo s) (s_cur s) (s_nxt s) (s_log s ++ [e]).

(** Main thread; [sorted] is the outcome of std::sort if the step is add_task's. *)
Definition step_main (s : state) (sorted : list task) : option state :=
  match s_mpc s with
  | MIdle =>
      match s_todo s with
      | o :: rest => Some (mkS (MSetGo o) (s_fn s) (s_go s) (s_stop s) (s_wcnt s) (s_tasks s)
                             (s_nid s) (s_workers s) rest (s_nxt s) (s_nxt s + 1) (s_log s))
      | [] => Some (set_mpc s MStop)
      end
  | MSetGo o => Some (set_mpc (set_go s true) (MWantLock o))
  | MWantLock o => if no_shared (s_workers s) then Some (set_mpc s (MHold o)) else None
  | MHold OExec =>
      Some (mkS (MClrGo OExec) (Some (s_cur s)) (s_go s) (s_stop s)
                (Z.of_nat (length (s_workers s))) (s_tasks s) (s_nid s)
                (map (fun w => mkW (w_pc w) true) (s_workers s))
                (s_todo s) (s_cur s) (s_nxt s) (s_log s))
  | MHold (OAdd p) =>
      if sort_result_ok (s_tasks s ++ [mkT (s_nid s) p]) sorted
      then Some (set_mpc (emit (set_tasks s sorted (s_nid s + 1)) (EvChange sorted)) (MClrGo (OAdd p)))
      else None
  | MHold ODelete =>
      Some (set_mpc (emit (set_tasks s [] (s_nid s)) (EvChange [])) (MClrGo ODelete))
  | MClrGo o => Some (set_mpc (set_go s false) (MUnlock o))
  | MUnlock OExec => Some (set_mpc s MWant2)
  | MUnlock _ => Some (set_mpc (emit s (EvReturn (s_cur s))) MIdle)
  | MWant2 => if no_shared (s_workers s) then Some (set_mpc s MPred) else None
  | MPred => if (s_wcnt s <=? 0)%Z then Some (set_mpc s MWaitUnlock) else Some (set_mpc s MPreSleep)
  | MPreSleep => Some (set_mpc s MSleep)
  | MSleep => None
  | MWaitUnlock => Some (set_mpc s MReset)
  | MReset =>
      Some (mkS MIdle None (s_go s) (s_stop s) (s_wcnt s) (s_tasks s) (s_nid s) (s_workers s)
                (s_todo s) (s_cur s) (s_nxt s) (s_log s ++ [EvReturn (s_cur s)]))
  | MStop => Some (mkS MStopGo (s_fn s) (s_go s) true (s_wcnt s) (s_tasks s) (s_nid s)
                       (s_workers s) (s_todo s) (s_cur s) (s_nxt s) (s_log s))
  | MStopGo => Some (set_mpc (set_go s true) MStopNotify)
  | MStopNotify => Some (set_mpc (set_workers s (map wake_worker (s_workers s))) MJoin)
  | MJoin =>
      if forallb (fun w => match w_pc w with WExit => true | _ => false end) (s_workers s)
      then Some (set_mpc s MJoined) else None
  | MJoined => None
  end.

(** Worker [i]; [ret] is what the task returns if the step is a task call, and
    in [WPred] whether now > sleepUntil (296). *)
Definition step_worker (s : state) (i : nat) (ret : bool) : option state :=
  match nth_error (s_workers s) i with
  | None => None
  | Some w =>
      let go p := Some (set_workers s (upd (s_workers s) i (mkW p (w_flag w)))) in
      let exit_wait := Some (set_workers s (upd (s_workers s) i (mkW WUnlock (w_flag w)))) in
      match w_pc w with
      | WLock => if m_holds (s_mpc s) then None else go (WPred false)
      | WPred to =>
          if s_stop s || (ret && negb (s_go s) && negb (length (s_tasks s) =? 0)) || w_flag w
          then go WUnlock
          else if to && ret then go WUnlock (* std variant: timed out, predicate false *)
          else go WPreSleep
      | WPreSleep => go WSleep
      | WSleep => (* timeout; re-acquires the shared lock *)
          if m_holds (s_mpc s) then None else go (WPred true)
      | WUnlock => go WStop
      | WStop => go (if s_stop s then WExit else WChk)
      | WChk => go (if w_flag w then WCall else WTLock)
      | WCall =>
          match s_fn s with
          | Some n => Some (emit (set_workers s (upd (s_workers s) i (mkW (WCalled n) (w_flag w))))
                                 (EvExecBegin n i))
          | None => None (* call of an empty functor: undefined *)
          end
      | WCalled n => Some (emit (set_workers s (upd (s_workers s) i (mkW WFinLock (w_flag w))))
                                (EvExecEnd n i))
      | WFinLock => if m_holds (s_mpc s) then None else go WClear
      | WClear => Some (set_workers s (upd (s_workers s) i (mkW WDec false)))
      | WDec => Some (set_wcnt (set_workers s (upd (s_workers s) i (mkW WNotify (w_flag w))))
                               (s_wcnt s - 1)%Z)
      | WNotify => Some (set_mpc (set_workers s (upd (s_workers s) i (mkW WFinUnlock (w_flag w))))
                                 (wake_main (s_mpc s)))
      | WFinUnlock => go WLock
      | WTLock => if m_holds (s_mpc s) then None
                  else Some (emit (set_workers s (upd (s_workers s) i (mkW (WTask (s_tasks s)) (w_flag w))))
                                  (EvPass i (s_tasks s)))
      | WTask [] => go WTUnlock
      | WTask (t :: rem) =>
          if s_go s then go WTUnlock
          else Some (emit (set_workers s (upd (s_workers s) i
                             (mkW (WTask (if ret then t :: rem else rem)) (w_flag w))))
                          (EvTask i (t_id t) ret))
      | WTUnlock => go WLock
      | WExit => None
      end
  end.

Definition spurious_main (s : state) : option state :=
  match s_mpc s with MSleep => Some (set_mpc s MWant2) | _ => None end.

Inductive label := LMain (sorted : list task) | LWorker (i : nat) (ret : bool) | LSpurMain.

Definition step (s : state) (l : label) : option state :=
  match l with
  | LMain so => step_main s so
  | LWorker i r => step_worker s i r
  | LSpurMain => spurious_main s
  end.

Fixpoint exec (s : state) (ls : list label) : option state :=
  match ls with
  | [] => Some s
  | l :: ls' => do s' <- step s l; exec s' ls'
  end.
