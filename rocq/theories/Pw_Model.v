(** Priorities of threads: the scoped guard [prioritize_workers] and the function
    [ChangeThreadsPriorities].  nntl/interface/threads/prioritize_workers.h, the Windows
    variant.

    The operating system: the priority class of the process, the priority of the calling
    thread and those of the worker threads.  The system calls that change a priority may
    fail; [ok] and [okr] tell for the n-th call whether it succeeds ([okr]: the calls that
    restore).  Not modelled: other threads, the error outputs. *)
From Verif Require Import Base.

Record os := mkOs { os_class : Z; os_main : Z; os_wrk : list Z; os_calls : nat }.

Section W.
Context (ok okr : nat -> bool).

Definition tick s := mkOs (os_class s) (os_main s) (os_wrk s) (S (os_calls s)).
(** SetPriorityClass, SetThreadPriority of the calling thread, SetThreadPriority of worker [i] *)
Definition set_class (o : nat -> bool) (c : Z) s : bool * os :=
  if o (os_calls s) then (true, tick (mkOs c (os_main s) (os_wrk s) (os_calls s))) else (false, tick s).
Definition set_main (o : nat -> bool) (p : Z) s : bool * os :=
  if o (os_calls s) then (true, tick (mkOs (os_class s) p (os_wrk s) (os_calls s))) else (false, tick s).
Definition set_wrk (o : nat -> bool) (i : nat) (p : Z) s : bool * os :=
  if o (os_calls s) then (true, tick (mkOs (os_class s) (os_main s) (upd (os_wrk s) i p) (os_calls s))) else (false, tick s).

(** prioritize_workers.h:206-210, 95-99, 144-148: [n] workers from the [i]-th on are given the priority [p]; failures are only printed *)
Fixpoint restore_wrk (i n : nat) (p : Z) s : os :=
  match n with O => s | S n' => restore_wrk (S i) n' p (snd (set_wrk okr i p s)) end.
(** 202-214, 91-103: until the first failure; [true]: all *)
Fixpoint raise_wrk (i n : nat) (p orig : Z) s : bool * os :=
  match n with
  | O => (true, s)
  | S n' =>
      let '(b, s) := set_wrk ok i p s in
      if b then raise_wrk (S i) n' p orig s else (false, restore_wrk 0 i orig s)
  end.

(** m_origPriorityClass, m_origThreadPriority, m_bRestore, m_bAllThreads (115-119) *)
Record guard_t := mkG { g_class : Z; g_main : Z; g_restore : bool; g_all : bool }.

(** 121-133: what a mode sets (three of them) *)
Record mode := mkMode { md_class : Z; md_prio : Z }.

(** 189-236 _apply, except the test of 191: m_bRestore *)
Definition apply (md : mode) (oc om : Z) (all : bool) s : bool * os :=
  let '(b, s) := set_class ok (md_class md) s in
  if negb b then (false, s)
  else
    let '(mset, s) := set_main ok (md_prio md) s in
    let '(r, s) :=
      if mset then
        if all then raise_wrk 0 (length (os_wrk s)) (md_prio md) om s else (true, s)
      else (false, s) in
    if r then (true, s)
    else
      let s := if mset then snd (set_main okr om s) else s in
      (false, snd (set_class okr oc s)).
(** 153-161, 191: the constructor; [gets]: the original values could be obtained *)
Definition construct (gets : bool) (md : mode) (all : bool) s : guard_t * os :=
  let oc := os_class s in let om := os_main s in
  let '(r, s) := if gets then apply md oc om all s else (false, s) in
  (mkG oc om r all, s).
(** 136-151: the destructor *)
Definition destruct_guard (g : guard_t) s : os :=
  if g_restore g then
    let s := snd (set_class okr (g_class g) s) in
    let s := snd (set_main okr (g_main g) s) in
    if g_all g then restore_wrk 0 (length (os_wrk s)) (g_main g) s else s
  else s.

(** 80-105; [below]: 0, 1 or 2 by the value of the PriorityClass *)
Definition change_priorities (below : Z) s : bool * os :=
  raise_wrk 0 (length (os_wrk s)) (os_main s - below) (os_main s) s.
End W.
