(** The elements of a triangle (without the diagonal), column after column. *)
From Verif Require Import Base.

Definition column_rows (lower : bool) (n c : nat) : list nat :=
  if lower then seq (c + 1) (n - (c + 1)) else seq 0 c.
Definition triangle (lower : bool) (n : nat) : list (nat * nat) :=
  flat_map (fun c => map (fun r => (r, c)) (column_rows lower n c)) (seq 0 n).

(** offset of an element in the column-major storage of an n x n matrix *)
Definition offset (n : nat) (rc : nat * nat) : nat := fst rc + n * snd rc.
