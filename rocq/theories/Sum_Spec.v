(** What the sums are supposed to be. *)
From Coq Require Import Reals.
From Verif Require Import Base Kern_Model Act_Spec Tri_Spec.
Local Open Scope R_scope.

(** f 0 + ... + f (n-1) *)
Definition total (n : nat) (f : nat -> R) : R := sumR (map f (seq 0 n)).

(** element i of the storage of a matrix; element in row r and column c *)
Definition elem (m : mtx R) (i : nat) : R := nth i (m_data m) 0.
Definition entry (m : mtx R) (r c : nat) : R := nth (r + m_rows m * c) (m_data m) 0.

(** sum over the elements below / above the diagonal *)
Definition triangle_total (lower : bool) (n : nat) (f : nat -> nat -> R) : R :=
  sumR (map (fun rc => f (fst rc) (snd rc)) (triangle lower n)).

(** A second matrix with (at least) as many elements. *)
Definition fits (A B : mtx R) : Prop := alloc A /\ (numel A <= length (m_data B))%nat /\ (0 < numel A)%nat.
