(** Synchronisation primitives: the spin lock and the timed waits.
    nntl/interface/threads/_sync_primitives.h.

    Memory is sequentially consistent (the fences and memory orders are not modelled).  The
    native locks and condition variables are not modelled either; a timed wait is described by
    the times and the values of the predicate it sees. *)
From Verif Require Import Base.

(** ** spin_lock, _sync_primitives.h:93-118.  Any number of threads repeatedly lock, increment
    a shared variable by a plain read and a plain write, and unlock. *)
Inductive pc :=
| Idle
| Spin (yield : bool)  (** about to test_and_set in lock() or lock_yield(): 107, 111 *)
| Yielding             (** 112 *)
| Locked               (** lock() has returned *)
| Read (r : nat)       (** the variable was read *)
| Written.             (** the variable was written; unlock() comes next *)

Record sstate := mkS { s_flag : bool; s_x : nat; s_done : nat; s_pcs : list pc }.

(** One step of thread [i]; [y]: which of the two locking functions an idle thread calls (through
    lock_guard_yield, 135-160, it is lock_yield()) *)
Definition sstep (i : nat) (y : bool) (s : sstate) : sstate :=
  match nth_error (s_pcs s) i with
  | None => s
  | Some p =>
      let go fl x d q := mkS fl x d (upd (s_pcs s) i q) in
      match p with
      | Idle => go (s_flag s) (s_x s) (s_done s) (Spin y)
      | Spin b =>
          if s_flag s then go true (s_x s) (s_done s) (if b then Yielding else Spin b)
          else go true (s_x s) (s_done s) Locked
      | Yielding => go (s_flag s) (s_x s) (s_done s) (Spin true)
      | Locked => go (s_flag s) (s_x s) (s_done s) (Read (s_x s))
      | Read r => go (s_flag s) (S r) (s_done s) Written
      | Written => go false (s_x s) (S (s_done s)) Idle  (* 116-117 *)
      end
  end.
(** ATOMIC_FLAG_INIT: 95 *)
Definition sinit (n : nat) : sstate := mkS false 0 0 (repeat Idle n).
Fixpoint srun (sch : list (nat * bool)) (s : sstate) : sstate :=
  match sch with [] => s | (i, y) :: sch' => srun sch' (sstep i y s) end.
(** the state before the [n]-th step of an endless schedule *)
Fixpoint sat (f : nat -> nat * bool) (n : nat) (s : sstate) : sstate :=
  match n with O => s | S n' => let s' := sat f n' s in sstep (fst (f n')) (snd (f n')) s' end.

(** ** Timed waits of win_condition_var *)
Inductive cv_status := no_timeout | timeout.

(** 283-296: wait_for and wait_for_shared without a predicate: called at [t0], woken at [t1] *)
Definition wait_for (t0 rel t1 : Z) : cv_status :=
  let sleepUntil := (t0 + rel)%Z in
  if (t1 <? sleepUntil)%Z then timeout else no_timeout.

(** 308-316, 324-332: wait_for and wait_for_shared with a predicate: [pr k]: the value of its [k]-th evaluation,
    which happens at [ev k]; the thread is woken after the [k]-th wait at [ev (S k)].
    [fuel]: at most so many evaluations; [None]: still waiting *)
Fixpoint wait_loop (pr : nat -> bool) (ev : nat -> Z) (rel : Z) (fuel k : nat) (r : cv_status) : option (bool * nat) :=
  match fuel with
  | O => None
  | S fuel' =>
      let b := pr k in
      if b then Some (match r with no_timeout => true | timeout => b end, k)
      else wait_loop pr ev rel fuel' (S k) (wait_for (ev k) rel (ev (S k)))
  end.
Definition wait_for_pred (pr : nat -> bool) (ev : nat -> Z) (rel : Z) (fuel : nat) : option (bool * nat) :=
  wait_loop pr ev rel fuel 0 no_timeout.

(** ** The wait of a background worker, interface/threads/bgworkers.h:290-298, while no stop and
    no exec() is requested: entered at [ev 0]; [reg t]: tasks are registered and m_bGo2Waiting
    is not set at the time [t] *)
Definition worker_pred (reg : Z -> bool) (ev : nat -> Z) (rel : Z) (k : nat) : bool :=
  (ev 0%nat + rel <? ev k)%Z && reg (ev k).
