(** Threads that accumulate in memory: a kernel is a state transformer on the
    storage which also records its writes.  In a parallel call every thread sees the
    storage as it was before the call plus its own writes; this is exact when no
    thread reads a cell which another one writes, which for the kernels modelled so
    is the case: the cells they read are written by themselves or by no thread of
    the call. *)
From Verif Require Import Base Workers_Model Kern_Model.

Section P.
Context {A : Type}.

Definition mem := list A.

(** store *)
Definition mset (a : nat) (v : A) : mem -> option (mem * list (wr A)) :=
  fun m => do m' <- bset m a v; Some (m', [(a, v)]).

(** one after the other *)
Definition mseq (k1 k2 : mem -> option (mem * list (wr A))) : mem -> option (mem * list (wr A)) :=
  fun m => do (m1, w1) <- k1 m; do (m2, w2) <- k2 m1; Some (m2, w1 ++ w2).

Definition mskip : mem -> option (mem * list (wr A)) := fun m => Some (m, []).

(** for (i = lo; i < lo+n; ++i) *)
Definition mfor (lo n : nat) (body : nat -> mem -> option (mem * list (wr A))) : mem -> option (mem * list (wr A)) :=
  fun m => wfor lo n body m.

(** run() of a kernel over ranges *)
Definition ppar (kern : prange -> mem -> option (mem * list (wr A))) (parts : list prange) (d : mem) :
  option (list (list (wr A))) :=
  par (fun p => do (_, w) <- kern p d; Some w) parts.
End P.
