(** What penalties are supposed to be. *)
From Coq Require Import Reals.
From Coquelicot Require Import Coquelicot.
From Verif Require Import Base Act_Spec Sum_Spec La_Model Tri_Props.
Local Open Scope R_scope.

(** Values of [rows] samples of [cols] variables: mean of a variable, covariance of two. *)
Definition mean_of (rows : nat) (V : list R) (j : nat) : R := / INR rows * total rows (fun r => nth (r + rows * j) V 0).
Definition cov (rows : nat) (V : list R) (i j : nat) : R :=
  / INR rows * total rows (fun r => (nth (r + rows * i) V 0 - mean_of rows V i) * (nth (r + rows * j) V 0 - mean_of rows V j)).

(** Sum of absolute values; half the sum of squares; half the sum of the squared
    covariances of different variables, per number of variables less one. *)
Definition penalty (k : kind) (rows cols : nat) (V : list R) : R :=
  match k with
  | KL1 => total (rows * cols) (fun i => Rabs (nth i V 0))
  | KL2 => / 2 * total (rows * cols) (fun i => nth i V 0 ^ 2)
  | KDeCov _ _ => / INR (cols - 1) *
      (/ 2 * total cols (fun i => total cols (fun j => if Nat.eqb i j then 0 else cov rows V i j ^ 2)))
  end.

(** There are at least two variables, not more than the indexing of a triangle copes
    with (C25), and the temporary memory suffices. *)
Definition usable (a : adn) (rows cols : nat) (t : tmem) : Prop :=
  (0 < rows)%nat /\ (0 < cols)%nat /\
  match a_kind a with
  | KDeCov _ _ => (1 < cols)%nat /\ in_range cols /\
      (rows * cols <= length (tm_D t))%nat /\ (cols * cols <= length (tm_C t))%nat /\
      (rows * cols <= length (tm_L t))%nat
  | _ => True
  end.

(** the absolute value has no derivative at 0 *)
Definition regular (a : adn) (x : R) : Prop := a_kind a = KL1 -> x <> 0.

(** The regularizers of a weight matrix whose last column are the bias weights, which
    those with the flag ignore. *)
Definition shown (ib : bool) (cols : nat) : nat := (cols - Nat.b2n ib)%nat.
Definition reg_value (las : list (adn * bool)) (rows cols : nat) (W : list R) : R :=
  sumR (map (fun q => a_scale (fst q) * penalty (a_kind (fst q)) rows (shown (snd q) cols) W) las).
(** ... of activations *)
Definition pen_value (las : list adn) (rows cols : nat) (A : list R) : R :=
  sumR (map (fun a => a_scale a * penalty (a_kind a) rows cols A) las).

(** A penalty adds the derivative of its term at the entry [i] of [V0] (when it is
    computed on forward propagation) or of [V]; those with the flag leave zeros alone. *)
Definition same_adn (a a' : adn) : Prop :=
  a_kind a' = a_kind a /\ a_scale a' = a_scale a /\ a_fp a' = a_fp a /\ a_nz a' = a_nz a /\ length (a_mtx a') = length (a_mtx a).
Inductive penalised (rows cols : nat) (V0 V : list R) (i : nat) : list adn -> R -> R -> Prop :=
| pen_none d : penalised rows cols V0 V i [] d d
| pen_off a las d d' : a_scale a = 0 -> penalised rows cols V0 V i las d d' -> penalised rows cols V0 V i (a :: las) d d'
| pen_skip a las d' : a_nz a = true -> penalised rows cols V0 V i las 0 d' -> penalised rows cols V0 V i (a :: las) 0 d'
| pen_add a las d g d' : a_scale a <> 0 -> (a_nz a = true -> d <> 0) ->
    let X := if a_fp a then V0 else V in
    is_derive (fun x => a_scale a * penalty (a_kind a) rows cols (setn i x X)) (nth i X 0) g ->
    penalised rows cols V0 V i las (d + g) d' -> penalised rows cols V0 V i (a :: las) d d'.
