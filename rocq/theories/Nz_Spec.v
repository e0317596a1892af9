(** Zeros and their neighbours, by their bits. *)
From Coq Require Import NArith List.
Import ListNotations.
Local Open Scope N_scope.

Section Format.
Context (p e : N).
(** The bits without the sign *)
Definition mag (b : N) : N := b mod 2 ^ (p + e).
Definition is_zero (b : N) : Prop := mag b = 0.
Definition is_subnormal (b : N) : Prop := 0 < mag b < 2 ^ p.
(** above the bits of infinity *)
Definition is_nan (b : N) : Prop := 2 ^ p * (2 ^ e - 1) < mag b.
Definition neg_zero : N := 2 ^ (p + e).
Definition pattern (b : N) : Prop := b < 2 ^ (p + e + 1).
(** Elements different from zero in the mode [daz] *)
Definition differs (daz : bool) (b : N) : Prop := ~ is_zero b /\ (daz = true -> ~ is_subnormal b).
End Format.

(** [n] of the elements of [v] satisfy [P] *)
Inductive counts (P : N -> Prop) : list N -> N -> Prop :=
  | counts_nil : counts P [] 0
  | counts_yes b v n : P b -> counts P v n -> counts P (b :: v) (n + 1)
  | counts_no b v n : ~ P b -> counts P v n -> counts P (b :: v) n.
