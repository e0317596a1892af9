(** Specification of the random vectors: independent of how the loops run. *)
From Verif Require Import Base Workers_Model Workers_Spec Kern_Model Kern_Spec.
From Coq Require Import Reals.
Local Open Scope nat_scope.

Section Spec.
Context {E D : Type} (d0 : D) (draw : E * D -> R * (E * D)).

(** The state of an engine (and of its distribution object) after k numbers. *)
Fixpoint after (k : nat) (sd : E * D) : E * D :=
  match k with O => sd | S k' => snd (draw (after k' sd)) end.

(** The number with the ordinal k an engine gives from state s on. *)
Definition number (s : E) (k : nat) : R := fst (draw (after k (s, d0))).

(** [use i] names the engine and the ordinal of the number that element i is made of. *)
Definition fresh_numbers (use : nat -> nat * nat) (n : nat) (rngs : list E) : Prop :=
  (forall i, i < n -> fst (use i) < length rngs) /\
  (forall i j, i < n -> j < n -> use i = use j -> i = j) /\
  (* the ordinals taken from one engine have no gaps *)
  (forall i k, i < n -> k < snd (use i) -> exists j, j < n /\ use j = (fst (use i), k)).

(** Each of the n elements at [ptr] is made of its number by f, everything else is as
    before. *)
Definition filled (f : R -> R) (ptr n : nat) (rngs : list E) (use : nat -> nat * nat)
  (d d' : list R) : Prop :=
  (forall i, i < n -> exists s, nth_error rngs (fst (use i)) = Some s /\
      nth_error d' (ptr + i) = Some (f (number s (snd (use i))))) /\
  (forall a, ~ ptr <= a < ptr + n -> nth_error d' a = nth_error d a).

(** How many numbers engine t gives. *)
Definition taken (use : nat -> nat * nat) (n t : nat) : nat :=
  length (filter (fun i => fst (use i) =? t) (seq 0 n)).

(** The engines afterwards. *)
Definition advanced (use : nat -> nat * nat) (n : nat) (rngs rngs' : list E) : Prop :=
  length rngs' = length rngs /\
  forall t s, nth_error rngs t = Some s ->
    nth_error rngs' t = Some (fst (after (taken use n t) (s, d0))).
End Spec.

(** The workers of a pool have the thread numbers 1, 2, ... *)
Definition pool (rs : list prange) : Prop := map r_tid rs = seq 1 (length rs).

(** Every element that was written satisfies P and nothing else changed. *)
Definition all_in (P : R -> Prop) (ptr n : nat) (d d' : list R) : Prop :=
  (forall i, i < n -> exists x, nth_error d' (ptr + i) = Some x /\ P x) /\
  (forall a, ~ ptr <= a < ptr + n -> nth_error d' a = nth_error d a).
