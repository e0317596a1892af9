(** Specifications of the data-moving kernels. *)
From Verif Require Import Base Workers_Model Kern_Model Kern_Spec.

Section S.
Context {A : Type}.

(** An index vector usable with a dimension of size [bound]: at least [n] entries,
    the first [n] of them valid. *)
Definition idx_ok (idx : list nat) (n bound : nat) : Prop :=
  forall r, r < n -> exists i, nth_error idx r = Some i /\ i < bound.

(** Numbers of the selected rows, ascending. *)
Definition selected (nz : A -> bool) (mask : list A) : list nat :=
  filter (fun i => match nth_error mask i with Some m => nz m | None => false end)
         (seq 0 (length mask)).

(** Source column of every destination column: column i repeated spec[i] times. *)
Definition clone_map (spec : list nat) : list nat :=
  flat_map (fun '(i, n) => repeat i n) (combine (seq 0 (length spec)) spec).
End S.

(** Number of selected rows above row i. *)
Definition place {A} (nz : A -> bool) (mask : list A) (i : nat) : nat :=
  length (selected nz (firstn i mask)).

(** The same matrix with other storage content. *)
Definition with_data {A} (m : mtx A) (d : list A) : mtx A :=
  mkM (m_rows m) (m_cols m) (m_bias m) (m_bir m) d.

Section S2.
Context {A : Type}.

(** What filling rows by mask leaves in row r: the next source row where the mask
    is non-zero, zeros elsewhere. *)
Definition fill_f (nz : A -> bool) (zero : A) (mask : list A) (src : mtx A) (r c : nat) : option A :=
  do m <- nth_error mask r; if nz m then mget src (place nz mask r) c else Some zero.

(** The storage of [dest] holds the transposed [src]. *)
Definition transposed (src dest : mtx A) (ib : bool) (d' : list A) : Prop :=
  holds_block (m_rows dest) (rows_ib ib dest) (cols_ib ib dest) (fun i j => mget src j i) (m_data dest) d'.

(** Shapes for tiling: [wide] is m x (k*n), [tall] is (k*m) x n, bias column not
    counted. *)
Record tiling_shapes (m n k : nat) (wide tall : mtx A) : Prop := {
  ts_m : 0 < m; ts_n : 0 < n; ts_k : 0 < k;
  ts_wr : m_rows wide = m; ts_wc : cols_nb wide = k * n; ts_wa : alloc wide;
  ts_tr : m_rows tall = k * m; ts_tc : cols_nb tall = n; ts_ta : alloc tall }.

(** Block b of m rows of the tall matrix is the b-th group of n columns of the
    wide one. *)
Definition roll_f (m n : nat) (src : mtx A) (i j : nat) := mget src (i mod m) ((i / m) * n + j).
Definition unroll_f (m n : nat) (src : mtx A) (i c : nat) := mget src ((c / n) * m + i) (c mod n).

(** Shapes and repetition counts accepted by column cloning. *)
Record clone_shapes (src dest : mtx A) (spec : list nat) : Prop := {
  cs_rows : m_rows src = m_rows dest; cs_pos : 0 < m_rows src;
  cs_len : length spec = m_cols src; cs_sum : list_sum spec = m_cols dest;
  cs_counts : Forall (fun x => 0 < x) spec; cs_src : alloc src; cs_dest : alloc dest;
  cs_cols : 0 < m_cols src }.

Definition clone_f (src : mtx A) (spec : list nat) (i j : nat) : option A :=
  do s <- nth_error (clone_map spec) j; mget src i s.
End S2.
