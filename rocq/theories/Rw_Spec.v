(** What the kernels of [Rw_Model] are to do, said of the elements of matrices. *)
From Coq Require Import Reals NArith.
From Verif Require Import Base Kern_Model Kern_Spec Act_Spec Sum_Spec.
Local Open Scope R_scope.

(** Element (i, j) is one of the emulated biases: the last row when a sample is a column, the
    last column when a sample is a row. *)
Definition bias_cell {A} (m : mtx A) (i j : nat) : Prop :=
  m_bias m = true /\ (if m_bir m then i = (m_rows m - 1)%nat else j = (m_cols m - 1)%nat).

(** The storage after the elements asked for have been put through [f]: all of the matrix, or,
    with [ib], all but the biases; nothing else has changed. *)
Definition adjusted (f : R -> R) (ib : bool) (m : mtx R) (d' : list R) : Prop :=
  length d' = length (m_data m) /\
  (forall i j, (i < m_rows m)%nat -> (j < m_cols m)%nat ->
     (ib = false \/ ~ bias_cell m i j) -> nth (i + m_rows m * j) d' 0 = f (nth (i + m_rows m * j) (m_data m) 0)) /\
  (forall i j, (i < m_rows m)%nat -> (j < m_cols m)%nat ->
     ib = true -> bias_cell m i j -> nth (i + m_rows m * j) d' 0 = nth (i + m_rows m * j) (m_data m) 0) /\
  (forall a, (m_rows m * m_cols m <= a)%nat -> nth a d' 0 = nth a (m_data m) 0).

(** A matrix which is not all biases. *)
Definition has_elements (m : mtx R) : Prop :=
  alloc m /\ exists i j, (i < m_rows m)%nat /\ (j < m_cols m)%nat /\ ~ bias_cell m i j.

(** Column [j] of a matrix of [rows] rows. *)
Definition column (rows : nat) (d : list R) (j : nat) : list R := map (fun i => nth (i + rows * j) d 0) (seq 0 rows).

(** Column [j] centred at [cp] without regard to the elements equal to [cp]: those stay, the
    others are moved by one and the same amount, and after that their mean is [cp]. *)
Definition centred_nz (cp : R) (rows : nat) (d d' : list R) (j : nat) : Prop :=
  exists shift, (forall i, (i < rows)%nat ->
      nth (i + rows * j) d' 0 = if Req_EM_T (nth (i + rows * j) d 0) cp then cp else nth (i + rows * j) d 0 - shift) /\
    total rows (fun i => if Req_EM_T (nth (i + rows * j) d 0) cp then 0 else nth (i + rows * j) d' 0 - cp) = 0.

(** A matrix of two values only, those of +0.0 and of 1.0. *)
Definition binary (one : N) (A : mtx N) : Prop :=
  (one <> 0)%N /\ forall r c, (r < m_rows A)%nat -> (c < m_cols A)%nat ->
    nth (r + m_rows A * c) (m_data A) 0%N = 0%N \/ nth (r + m_rows A * c) (m_data A) 0%N = one.

(** The vector says of every row whether it has a one; behind it nothing has changed. *)
Definition row_has_one (one : N) (A : mtx N) (vec vec' : list N) : Prop :=
  (forall r, (r < m_rows A)%nat ->
     (nth r vec' 0%N = one /\ exists c, (c < m_cols A)%nat /\ nth (r + m_rows A * c) (m_data A) 0%N = one) \/
     (nth r vec' 0%N = 0%N /\ forall c, (c < m_cols A)%nat -> nth (r + m_rows A * c) (m_data A) 0%N = 0%N)) /\
  (forall a, (m_rows A <= a)%nat -> nth a vec' 0%N = nth a vec 0%N).

(** Bitwise: a bit of the result is set if it is set somewhere in the row. *)
Definition row_bits (A : mtx N) (vec' : list N) : Prop :=
  forall r k, (r < m_rows A)%nat ->
    N.testbit (nth r vec' 0%N) k = true <->
    exists c, (c < m_cols A)%nat /\ N.testbit (nth (r + m_rows A * c) (m_data A) 0%N) k = true.
