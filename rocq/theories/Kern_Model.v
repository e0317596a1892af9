(** Common vocabulary of the memory-level models of matrix kernels.

    A kernel reads its source matrices through checked accesses and produces the
    chronological list of its writes to the destination storage (source and
    destination storage never intersect, see
    [assert_storage_does_not_intersect], smatrix.h).  A thread-parallel call runs
    the kernel on several ranges; its writes are any interleaving of the lists. *)
From Verif Require Import Base Workers_Model.

(** ** Matrices: [smatrix], nntl/interface/math/smatrix.h:257-294.

    Members m_rows, m_cols, m_bEmulateBiases, m_bBatchInRow and the column-major
    storage.  The storage may be longer than rows*cols (deformed matrices). *)
Record mtx (A : Type) := mkM {
  m_rows : nat; m_cols : nat; m_bias : bool; m_bir : bool; m_data : list A }.
Arguments mkM {A}. Arguments m_rows {A}. Arguments m_cols {A}.
Arguments m_bias {A}. Arguments m_bir {A}. Arguments m_data {A}.

Section Acc.
Context {A : Type}.
Implicit Types m : mtx A.

(** smatrix.h:796-830: has_bias_row/has_bias_col, rows/cols(bNoBias),
    rows_no_bias, cols_no_bias *)
Definition has_bias_row m := m_bias m && m_bir m.
Definition has_bias_col m := m_bias m && negb (m_bir m).
Definition rows_nb m := m_rows m - Nat.b2n (has_bias_row m).
Definition cols_nb m := m_cols m - Nat.b2n (has_bias_col m).
Definition rows_ib (ib : bool) m := m_rows m - Nat.b2n (ib && has_bias_row m).
Definition cols_ib (ib : bool) m := m_cols m - Nat.b2n (ib && has_bias_col m).
(** smatrix.h:848-868: numel, numel_no_bias (asserted: no bias row) *)
Definition numel m := m_rows m * m_cols m.
Definition numel_nb m := m_rows m * cols_nb m.
(** smatrix.h:803: ldim; 984: colDataAsVec(c) - data(); 1005-1021: get(r,c) *)
Definition ldim m := m_rows m.
Definition col_ofs m c := ldim m * c.
Definition mget m r c : option A := bget (m_data m) (r + ldim m * c).
(** the storage holds the whole matrix *)
Definition alloc m := numel m <= length (m_data m).
End Acc.

(** ** Write traces *)
Definition wr (A : Type) : Type := nat * A.

Fixpoint apply_writes {A} (d : list A) (ws : list (wr A)) : option (list A) :=
  match ws with
  | [] => Some d
  | (a, v) :: ws' => do d' <- bset d a v; apply_writes d' ws'
  end.

(** [for (i = lo; i < lo+n; ++i)] with a state of running pointers *)
Fixpoint wfor {S W} (lo n : nat) (body : nat -> S -> option (S * list W)) (s : S)
  : option (S * list W) :=
  match n with
  | O => Some (s, [])
  | Datatypes.S n' =>
      do (s1, w1) <- body lo s;
      do (s2, w2) <- wfor (Datatypes.S lo) n' body s1;
      Some (s2, w1 ++ w2)
  end.

(** [while (p != pE) { body; p += step; }]; running over [pE] is undefined. *)
Fixpoint wwhile {S W} (fuel p pE step : nat) (body : nat -> S -> option (S * list W)) (s : S)
  : option (S * list W) :=
  if p =? pE then Some (s, [])
  else match fuel with
  | O => None
  | Datatypes.S f =>
      if pE <? p then None
      else do (s1, w1) <- body p s;
           do (s2, w2) <- wwhile f (p + step) pE step body s1;
           Some (s2, w1 ++ w2)
  end.

Definition ptr_loop {S W} (p pE step : nat) (body : nat -> S -> option (S * list W)) (s : S) :=
  wwhile (pE - p) p pE step body s.

(** memcpy(dst + dofs, src + sofs, n) *)
Definition memcpy_tr {A} (src : list A) (sofs dofs n : nat) : option (list (wr A)) :=
  do (_, w) <- wfor 0 n (fun i (_ : unit) =>
    do v <- bget src (sofs + i); Some (tt, [(dofs + i, v)])) tt;
  Some w.

(** ** Thread-parallel execution *)

(** Any merge of the threads' write sequences. *)
Inductive interleaving {X} : list (list X) -> list X -> Prop :=
| il_done ts : Forall (fun t => t = []) ts -> interleaving ts []
| il_pick ts i x t ws : nth_error ts i = Some (x :: t) ->
    interleaving (upd ts i t) ws -> interleaving ts (x :: ws).

(** Run a kernel on every range: one list of writes per thread. *)
Fixpoint par {A} (kern : prange -> option (list (wr A))) (parts : list prange)
  : option (list (list (wr A))) :=
  match parts with
  | [] => Some []
  | p :: ps => do t <- kern p; do ts <- par kern ps; Some (t :: ts)
  end.

(** The ranges run() hands out, workers.h:165-192: a direct call for one item,
    else the workers with work plus the caller. *)
Definition run_ranges (rs : list prange) (req : Z) (cnt : nat) : list prange :=
  if cnt <=? 1 then [mkR 0 cnt 0]
  else let '(_, rs', ofs) := partition cnt req rs in
       filter (fun r => negb (r_cnt r =? 0)) rs' ++ [main_range cnt ofs].

(** The single-threaded version of a kernel works on the whole range. *)
Definition whole (cnt : nat) : list prange := [mkR 0 cnt 0].
