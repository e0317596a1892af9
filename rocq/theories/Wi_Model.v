(** Static initialisation of weights: nntl/weights_init/static.h.

    A weight matrix has a row per neuron, a column per incoming neuron and a last column of
    biases; it is stored by columns.  Arithmetic over the real numbers.  [z i] is the i-th
    number the standard normal distribution gives during the call; [rv r k] is what the
    generator answers when asked for a number less than k in the r-th shuffle.  Template
    parameters in millionths are integers. *)
From Coq Require Import Reals.
From Verif Require Import Base Kern_Model Rng_Model TData_Model.
Local Open Scope nat_scope.

(** real_t(x)/real_t(1000000) *)
Definition millionths (x : Z) : R := (IZR x / 1000000)%R.

(** distr_normal_naive.h 62-65: gen_vector(ptr, n) with mean 0 *)
Definition gen_normal (sd : R) (z : nat -> R) (p n : nat) (b : list R) : option (list R) :=
  for_loop 0 n (fun i b => bset b (p + i) (0 + sd * z i)%R) b.
(** smatrix.h 563-570 fill_column_with *)
Definition fill_column (rows c : nat) (v : R) (b : list R) : option (list R) :=
  for_loop 0 rows (fun i b => bset b (rows * c + i) v) b.
(** smatrix.h zeros *)
Definition zeros (n : nat) (b : list R) : option (list R) := for_loop 0 n (fun i b => bset b i 0%R) b.

(** static.h 57-75 Xavier: the number passed to gen_matrix (C51) *)
Definition xavier_scale (coeff : Z) (rows cols : nat) : R := (millionths coeff * sqrt (6 / INR (rows + cols)))%R.
Definition xavier_mt {E D} (d0 : D) draw (coeff : Z) (rows cols : nat) rs bnd (rngs : list E) :=
  mt_call d0 draw (el_sym (xavier_scale coeff rows cols)) 0 (rows * cols) rs bnd rngs.
Definition xavier_st {E D} (d0 : D) draw (coeff : Z) (rows cols : nat) (s : E) :=
  st_call d0 draw (el_sym1 (xavier_scale coeff rows cols)) 0 (rows * cols) s.

(** 87-112 He_Zhang, 116-141 He_Zhang2 (SNNInit: parameter 1) *)
Definition he_sd (coeff : Z) (prev : nat) : R := (millionths coeff * sqrt (2 / INR prev))%R.
Definition he2_sd (param : Z) (prev : nat) : R := sqrt (millionths param / INR prev).
Definition he_weights (sd : R) (rows cols : nat) (z : nat -> R) (b : list R) : option (list R) :=
  let prev := cols - 1 in
  do b <- gen_normal sd z 0 (rows * prev) b;
  fill_column rows prev 0%R b.
Definition he_zhang (coeff : Z) (rows cols : nat) := he_weights (he_sd coeff (cols - 1)) rows cols.
Definition he_zhang2 (param : Z) (rows cols : nat) := he_weights (he2_sd param (cols - 1)) rows cols.

(** 157-215 Martens_SI; [m1], [m2]: memory for the indices and for the numbers; the
    condition on the size of the previous layer is checked by debug builds only *)
Definition martens_row (rows K r : nat) (src : list R) (idx : list nat) (b : list R) : option (list R) :=
  for_loop 0 K (fun j b => do c <- bget idx j; do v <- bget src (r * K + j); bset b (r + rows * c) v) b.
Definition martens (biases stddev : Z) (K rows cols : nat) (m1 m2 : bool) (z : nat -> R) (rv : nat -> nat -> nat) (b : list R)
  : option (bool * list R) :=
  let prev := cols - 1 in
  do b <- zeros (rows * cols) b;
  if negb m1 then Some (false, b) else
  let idx := seq 0 prev in
  if negb m2 then Some (false, b) else
  do src <- gen_normal (millionths stddev) z 0 (K * rows) (repeat 0%R (K * rows));
  do (_, b) <- for_loop 0 rows (fun r st =>
      let (idx, b) := st : list nat * list R in
      do idx <- random_shuffle (rv r) idx;
      do b <- martens_row rows K r src idx b;
      Some (idx, b)) (idx, b);
  if Req_EM_T (millionths biases) 0 then Some (true, b) else
  do b <- fill_column rows prev (millionths biases) b;
  Some (true, b).

(** 233-266 OrthoInit; [zs i]: the numbers of try i; [svd]: mSVD_Orthogonalize_ss (mathn.h
    2689-2719): what LAPACK's gesvd reports and leaves in the matrix *)
Section O.
Context (svd : nat -> nat -> list R -> bool * list R) (rows cols : nat) (zs : nat -> nat -> R).
Fixpoint ortho_tries (k i : nat) (b : list R) : option (bool * list R) :=
  match k with
  | 0 => Some (false, b)
  | S k =>
      do b <- gen_normal 1 (zs i) 0 (rows * cols) b;
      let (ok, b) := svd rows cols b in
      if ok then Some (true, b) else ortho_tries k (i + 1) b
  end.
Definition ortho (gain : Z) (maxTries : nat) (b : list R) : option (bool * list R) :=
  do (ok, b) <- ortho_tries maxTries 0 b;
  Some (ok, if (gain =? 1000000)%Z then b else map (fun w => w * millionths gain)%R b).
End O.
