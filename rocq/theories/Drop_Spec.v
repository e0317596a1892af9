(** Specification of dropout. *)
From Coq Require Import Reals.
From Verif Require Import Base Act_Spec Drop_Model.
Local Open Scope R_scope.

(** one activation [x] and a random number [v] *)
Definition dropped (p x v : R) : R := if Rlt_dec v p then x / p else 0.
Definition alpha_dropped (al a b p x v : R) : R := a * (if Rlt_dec v p then x else al) + b.

(** a finite distribution of activations: probabilities and values *)
Definition dist (l : list (R * R)) : Prop := Forall (fun q => 0 <= fst q) l /\ sumR (map fst l) = 1.
Definition mean (l : list (R * R)) (f : R -> R) : R := sumR (map (fun q => fst q * f (snd q)) l).

Definition xat (d : list xcell) (i : nat) (c : xcell) : Prop := bget d i = Some c.
