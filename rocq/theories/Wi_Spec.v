(** What initial weights are to look like. *)
From Coq Require Import Reals.
From Verif Require Import Base.
Local Open Scope nat_scope.

(** element of a matrix of [rows] rows stored by columns *)
Definition at_ (rows : nat) (W : list R) (r c : nat) : R := nth (r + rows * c) W 0%R.

(** [sparse K W r cs vs]: neuron r has exactly the incoming weights [vs] from the distinct
    inputs [cs], and no other *)
Definition sparse (rows prev : nat) (W : list R) (r : nat) (cs : list nat) (vs : list R) : Prop :=
  length cs = length vs /\ NoDup cs /\ (forall c, In c cs -> c < prev) /\
  (forall j, j < length cs -> at_ rows W r (nth j cs 0) = nth j vs 0%R) /\
  (forall c, c < prev -> ~ In c cs -> at_ rows W r c = 0%R).

(** sums of products of two columns, or two rows *)
Definition sumf (n : nat) (f : nat -> R) : R := fold_right Rplus 0%R (map f (seq 0 n)).
Definition orthogonal_cols (s : R) (rows cols : nat) (W : list R) : Prop :=
  forall a b, a < cols -> b < cols -> sumf rows (fun r => at_ rows W r a * at_ rows W r b)%R = (if a =? b then s else 0%R).
Definition orthogonal_rows (s : R) (rows cols : nat) (W : list R) : Prop :=
  forall a b, a < rows -> b < rows -> sumf cols (fun c => at_ rows W a c * at_ rows W b c)%R = (if a =? b then s else 0%R).
(** the shorter side is orthogonal, all of its vectors have the square [s] *)
Definition orthogonal (s : R) (rows cols : nat) (W : list R) : Prop :=
  if cols <=? rows then orthogonal_cols s rows cols W else orthogonal_rows s rows cols W.
(** gesvd: keeps the size of the matrix; if it reports success the matrix is orthogonal *)
Definition svd_ok (svd : nat -> nat -> list R -> bool * list R) : Prop :=
  forall rows cols b, length b = rows * cols -> length (snd (svd rows cols b)) = rows * cols /\
    (fst (svd rows cols b) = true -> orthogonal 1 rows cols (snd (svd rows cols b))).
(** a matrix of numbers *)
Definition numbers (n : nat) (z : nat -> R) : list R := map z (seq 0 n).
