(** What an in-place elementwise operation must leave in the storage. *)
From Verif Require Import Base.

(** The first [cnt] cells are mapped, the others are as before. *)
Definition mapped_prefix {A} (cnt : nat) (f : nat -> A -> option A) (d d' : list A) : Prop :=
  (forall i v, i < cnt -> bget d i = Some v -> bget d' i = f i v /\ f i v <> None) /\
  (forall i, cnt <= i -> bget d' i = bget d i).
