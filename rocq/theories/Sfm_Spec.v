(** Specification of softmax. *)
From Coq Require Import Reals.
From Verif Require Import Base Workers_Model Kern_Model IdxMax_Model IdxMax_Spec Act_Spec Sfm_Model.
Local Open Scope R_scope.

(** element in row r and column c of column-major storage *)
Definition elt (rows : nat) (d : list R) (r c : nat) : R := nth (rows * c + r) d 0.

(** e^z_rc / (sum over the row of e^z_rj) *)
Definition softmax_of (rows cols : nat) (d : list R) (r c : nat) : R :=
  exp (elt rows d r c) / sumR (map (fun j => exp (elt rows d r j)) (seq 0 cols)).

(** Arguments of a legal call: non-empty matrix, workers numbered from 1, a
    temporary block of the documented size, ColsPerThread > 0 *)
Definition sfm_ready (t : sthr) (pool : list prange) (A : mtx R) (m : list R) : Prop :=
  (0 < m_rows A)%nat /\ (0 < cols_nb A)%nat /\ (m_rows A * cols_nb A <= length (m_data A))%nat /\
  pool_ok pool /\ (0 < t_parts_cpt t)%nat /\ length m = softmax_mem A pool.

(** v is the greatest element of a row *)
Definition row_max_is (rows cols : nat) (d : list R) (r : nat) (v : R) : Prop :=
  (exists c, (c < cols)%nat /\ v = elt rows d r c) /\ forall c, (c < cols)%nat -> elt rows d r c <= v.

(** -log of the probability the labels assign to a row, summed over the rows: the
    cross-entropy of a batch as a function of the net inputs [Z] *)
Definition smx_batch_loss (rows cols : nat) (Y Z : list R) : R :=
  sumR (map (fun r => sumR (map (fun c =>
    - (elt rows Y r c * ln (softmax_of rows cols Z r c))) (seq 0 cols))) (seq 0 rows)).

(** sum of the labels of a row *)
Definition label_sum (rows cols : nat) (Y : list R) (r : nat) : R :=
  sumR (map (fun c => elt rows Y r c) (seq 0 cols)).
