(** What locks and timed waits are for. *)
From Verif Require Import Base Sy_Model.

(** Between the return of lock() and the end of unlock() *)
Definition holds (p : pc) : Prop := match p with Locked | Read _ | Written => True | _ => False end.
Definition waits (p : pc) : Prop := match p with Spin _ | Yielding => True | _ => False end.
Definition at_pc (s : sstate) (i : nat) (p : pc) : Prop := nth_error (s_pcs s) i = Some p.

(** Every thread gets to run again and again *)
Definition fair (n : nat) (f : nat -> nat * bool) : Prop := forall i k, i < n -> exists m, k <= m /\ fst (f m) = i.

(** What the status of a timed wait should be: whether the time has expired *)
Definition status_spec (t0 rel t1 : Z) : cv_status := if (t0 + rel <=? t1)%Z then timeout else no_timeout.
