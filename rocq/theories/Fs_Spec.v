(** Floating-point numbers and what the sums are compared with. *)
From Coq Require Import Reals.
From Flocq Require Import Core.
From Verif Require Import Base Act_Spec.
Local Open Scope R_scope.

(** Binary numbers with [prec] bits and exponents from [emin] on (float: 24, -149; double:
    53, -1074), and rounding to the nearest, ties going anywhere. *)
Definition float (prec emin : Z) (x : R) : Prop := generic_format radix2 (FLT_exp emin prec) x.
Definition nearest (prec emin : Z) (choice : Z -> bool) (x : R) : R := round radix2 (FLT_exp emin prec) (Znearest choice) x.
(** the relative error of an operation, and the absolute one near 0 *)
Definition unit_roundoff (prec : Z) : R := bpow radix2 (- prec).
Definition tiny_error (emin : Z) : R := bpow radix2 (emin - 1).

Definition abs_total (l : list R) : R := sumR (map Rabs l).
(** [s] is the sum of [l], with an error that depends on their number by terms of second
    order only *)
Definition stable_sum (u : R) (l : list R) (s : R) : Prop :=
  Rabs (s - sumR l) <= u * Rabs (sumR l) + (2 * u + 10 * INR (length l) * u * u) * abs_total l.
(** ... or in the worst case grows with it *)
Definition plain_sum (u : R) (l : list R) (s : R) : Prop :=
  Rabs (s - sumR l) <= ((1 + u) ^ length l - 1) * abs_total l.
