(** Matrix kernels that only move data: nntl/interface/math/mathn.h (row/column
    extraction, transposition) and nntl/interface/math/smath.h (column cloning,
    tiling).  Element type is arbitrary.  Offsets are relative to [data()].
    Index vectors are lists; reading past their end is undefined behaviour.
    Simplification: offsets and indices are natural numbers (no overflow). *)
From Verif Require Import Base Workers_Model Kern_Model.

Section K.
Context {A : Type}.
Implicit Types src dest : mtx A.

(** ** Extraction *)

(** mathn.h:490-507 [_imExtractCols_st] *)
Definition imExtractCols src (cidx : list nat) dest (cr : prange) : option (list (wr A)) :=
  do (_, w) <- wfor (r_ofs cr) (r_cnt cr) (fun ci (_ : unit) =>
    do idx <- bget cidx ci;
    do w <- memcpy_tr (m_data src) (ldim src * idx) (ldim dest * ci) (rows_nb src);
    Some (tt, w)) tt;
  Some w.

(** mathn.h:537-572 [_imExtractRows_seqWrite_st]; state of the outer loop: pSrc,
    of the inner one: pRI *)
Definition imExtractRows src (ridx : list nat) dest (er : prange) : option (list (wr A)) :=
  let destRows := m_rows dest in
  let pDest := r_ofs er in
  let pDestEnd := pDest + numel_nb dest in
  do (_, w) <- ptr_loop pDest pDestEnd destRows (fun destCur pSrc =>
    do (_, w) <- ptr_loop destCur (destCur + r_cnt er) 1 (fun d pRI =>
      do idx <- bget ridx pRI;
      do v <- bget (m_data src) (pSrc + idx);
      Some (pRI + 1, [(d, v)])) (r_ofs er);
    Some (pSrc + m_rows src, w)) 0;
  Some w.

(** mathn.h:481-521 / 529-596: the _st version works on the whole range, the _mt
    one on the ranges of run() over dest.cols_no_bias() / dest.rows(). *)
Definition mExtractCols (parts : list prange) src cidx dest := par (imExtractCols src cidx dest) parts.
Definition mExtractRows (parts : list prange) src ridx dest := par (imExtractRows src ridx dest) parts.

(** mathn.h:463-470 [mExtractBatches]; [partsC] / [partsR] are the ranges for
    splitting columns / rows *)
Definition mExtractBatches (partsC partsR : list prange) src idx dest :=
  if m_bir src then mExtractCols partsC src idx dest else mExtractRows partsR src idx dest.

(** mathn.h:754-777 [_imExtractRowsSeq_st]; state: pD, pS *)
Definition imExtractRowsSeq src (rowOfs : nat) dest (cr : prange) : option (list (wr A)) :=
  do (_, w) <- wfor 0 (r_cnt cr) (fun _ '(pD, pS) =>
    do w <- memcpy_tr (m_data src) pS pD (m_rows dest);
    Some ((pD + m_rows dest, pS + m_rows src), w))
    (col_ofs dest (r_ofs cr), col_ofs src (r_ofs cr) + rowOfs);
  Some w.
Definition mExtractRowsSeq (parts : list prange) src rowOfs dest :=
  par (imExtractRowsSeq src rowOfs dest) parts.

(** smatrix.h:512-522 [copy_data_skip_bias], asserted by its callers to succeed *)
Definition copy_data_skip_bias src dest : option (list (wr A)) :=
  do _ <- guard ((m_rows dest =? m_rows src) && (cols_nb dest =? cols_nb src));
  memcpy_tr (m_data src) 0 0 (numel_nb src).

(** [nz m]: the bit pattern of m differs from that of +0.0 (mathn.h:628, 642) *)
Context (nz : A -> bool).

(** mathn.h:623-648 [_imExtractRowsByMask_st]; state: _pS, pD (outer), pD (inner) *)
Definition imExtractRowsByMask src (mask : list A) dest (er : prange) : option (list (wr A)) :=
  let tr := m_rows src in
  do (_, w) <- wfor 0 (r_cnt er) (fun _ '(pS, pD) =>
    do (pD', w) <- wfor 0 tr (fun i pD =>
      do m <- bget mask i;
      if nz m then do v <- bget (m_data src) (pS + i); Some (pD + 1, [(pD, v)])
      else Some (pD, [])) pD;
    Some ((pS + tr, pD'), w))
    (col_ofs src (r_ofs er), col_ofs dest (r_ofs er));
  Some w.

(** mathn.h:602-663; both the _st and _mt versions *)
Definition mExtractRowsByMask (parts : list prange) src mask dest : option (list (list (wr A))) :=
  if m_rows dest =? m_rows src
  then do w <- copy_data_skip_bias src dest; Some [w]
  else par (imExtractRowsByMask src mask dest) parts.

(** mathn.h:687-711 [_imFillRowsByMask_st]; state: pS, _pD (outer), pS (inner) *)
Definition imFillRowsByMask (zero : A) src (mask : list A) dest (er : prange) : option (list (wr A)) :=
  let tr := m_rows dest in
  do (_, w) <- wfor 0 (r_cnt er) (fun _ '(pS, pD) =>
    do (pS', w) <- wfor 0 tr (fun i pS =>
      do m <- bget mask i;
      if nz m then do v <- bget (m_data src) pS; Some (pS + 1, [(pD + i, v)])
      else Some (pS, [(pD + i, zero)])) pS;
    Some ((pS', pD + tr), w))
    (col_ofs src (r_ofs er), col_ofs dest (r_ofs er));
  Some w.

(** mathn.h:668-726 *)
Definition mFillRowsByMask (zero : A) (parts : list prange) src mask dest
  : option (list (list (wr A))) :=
  if m_rows dest =? m_rows src
  then do w <- copy_data_skip_bias src dest; Some [w]
  else par (imFillRowsByMask zero src mask dest) parts.

(** ** Transposition *)

(** mathn.h:2835-2860; state of the outer loop: pSrc, of the inner one: pD *)
Definition mTranspose_seq_read src dest (ib : bool) : option (list (list (wr A))) :=
  let sRows := rows_ib ib src in
  let biasRow := Nat.b2n (ib && has_bias_row src) in
  do (_, w) <- ptr_loop 0 (rows_ib ib dest) 1 (fun pDest pSrc =>
    do (_, w) <- ptr_loop pSrc (pSrc + sRows) 1 (fun pS pD =>
      do v <- bget (m_data src) pS;
      Some (pD + ldim dest, [(pD, v)])) pDest;
    Some (pSrc + sRows + biasRow, w)) 0;
  Some [w].

(** mathn.h:2864-2889; state of the outer loop: pDest, of the inner one: pS *)
Definition mTranspose_seq_write src dest (ib : bool) : option (list (list (wr A))) :=
  let dRows := rows_ib ib dest in
  let biasRow := Nat.b2n (ib && has_bias_row dest) in
  do (_, w) <- ptr_loop 0 (rows_ib ib src) 1 (fun pSrc pDest =>
    do (_, w) <- ptr_loop pDest (pDest + dRows) 1 (fun pD pS =>
      do v <- bget (m_data src) pS;
      Some (pS + ldim src, [(pD, v)])) pSrc;
    Some (pDest + dRows + biasRow, w)) 0;
  Some [w].

(** mathn.h:2803-2814 [mTranspose]; [thr] is Thresholds_t::mTransposeTrsh *)
Definition mTranspose (thr : nat) src dest (ib : bool) :=
  let bIsWide := m_rows src <? m_cols src in
  let bIsBig := thr <=? numel src in
  if xorb bIsWide bIsBig then mTranspose_seq_write src dest ib else mTranspose_seq_read src dest ib.

(** mathn.h:2820-2831 [mTranspose_ignore_bias] *)
Definition mTranspose_ignore_bias (thr : nat) src dest :=
  let bIsWide := rows_nb src <? cols_nb src in
  let bIsBig := thr <=? numel src in
  if xorb bIsWide bIsBig then mTranspose_seq_write src dest true else mTranspose_seq_read src dest true.

(** ** Tiling *)

(** the idiom [_lastCol ? _lastCol : dflt] *)
Definition last_col (lc dflt : nat) := if lc =? 0 then dflt else lc.

(** smath.h:2152-2197 [mTilingRoll_seqread_st]; range over the columns of src;
    state: pD, pDFirst *)
Definition mTilingRoll_seqread_st src dest (firstCol lc : nat) : option (list (wr A)) :=
  let lastCol := last_col lc (cols_nb src) in
  let m := m_rows src in
  let km := m_rows dest in
  let n := cols_nb dest in
  let kIdx := firstCol / n in
  let pDFirst := m * kIdx in
  let pD := pDFirst + km * (firstCol - kIdx * n) in
  let pDLast := col_ofs dest (n - 1) in
  let pS := col_ofs src firstCol in
  let pSE := pS + m * (lastCol - firstCol) in
  do (_, w) <- ptr_loop pS pSE m (fun pS '(pD, pDFirst) =>
    do w <- memcpy_tr (m_data src) pS pD m;
    Some (if pD <? pDLast then (pD + km, pDFirst) else (pDFirst + m, pDFirst + m), w))
    (pD, pDFirst);
  Some w.

(** smath.h:2217-2262 [mTilingRoll_seqwrite_st]; range over the columns of dest;
    state: pS, pSFirst *)
Definition mTilingRoll_seqwrite_st src dest (firstCol lc : nat) : option (list (wr A)) :=
  let n := cols_nb dest in
  let lastCol := last_col lc n in
  let m := m_rows src in
  let nm := m * n in
  let pD := col_ofs dest firstCol in
  let pDE := pD + m_rows dest * (lastCol - firstCol) in
  let pSFirst := col_ofs src firstCol in
  let pSLast := col_ofs src (cols_nb src - n) in
  do (_, w) <- ptr_loop pD pDE m (fun pD '(pS, pSFirst) =>
    do w <- memcpy_tr (m_data src) pS pD m;
    Some (if pS <? pSLast then (pS + nm, pSFirst) else (pSFirst + m, pSFirst + m), w))
    (pSFirst, pSFirst);
  Some w.

(** smath.h:2311-2357 [mTilingUnroll_seqwrite_st]; range over the columns of
    dest; state: pS, pSFirst *)
Definition mTilingUnroll_seqwrite_st src dest (firstCol lc : nat) : option (list (wr A)) :=
  let lastCol := last_col lc (cols_nb dest) in
  let m := m_rows dest in
  let km := m_rows src in
  let n := cols_nb src in
  let kIdx := firstCol / n in
  let pSFirst := m * kIdx in
  let pS := pSFirst + km * (firstCol - kIdx * n) in
  let pSLast := col_ofs src (n - 1) in
  let pD := col_ofs dest firstCol in
  let pDE := pD + m * (lastCol - firstCol) in
  do (_, w) <- ptr_loop pD pDE m (fun pD '(pS, pSFirst) =>
    do w <- memcpy_tr (m_data src) pS pD m;
    Some (if pS <? pSLast then (pS + km, pSFirst) else (pSFirst + m, pSFirst + m), w))
    (pS, pSFirst);
  Some w.

(** smath.h:2377-2421 [mTilingUnroll_seqread_st]; range over the columns of src;
    state: pD, pDFirst *)
Definition mTilingUnroll_seqread_st src dest (firstCol lc : nat) : option (list (wr A)) :=
  let n := cols_nb src in
  let lastCol := last_col lc n in
  let m := m_rows dest in
  let nm := m * n in
  let pS := col_ofs src firstCol in
  let pSE := pS + m_rows src * (lastCol - firstCol) in
  let pDFirst := col_ofs dest firstCol in
  let pDLast := col_ofs dest (cols_nb dest - n) in
  do (_, w) <- ptr_loop pS pSE m (fun pS '(pD, pDFirst) =>
    do w <- memcpy_tr (m_data src) pS pD m;
    Some (if pD <? pDLast then (pD + nm, pDFirst) else (pDFirst + m, pDFirst + m), w))
    (pDFirst, pDFirst);
  Some w.

(** The lambdas passed to run(): smath.h:2208-2211, 2273-2276, 2368-2371,
    2432-2435, 2081-2084, 2118-2121. *)
Definition on_range (st : nat -> nat -> option (list (wr A))) (r : prange) :=
  st (r_ofs r) (r_ofs r + r_cnt r).

(** smath.h:2136-2150: the single-threaded path, the two thread-parallel paths *)
Definition mTilingRoll_st src dest := do w <- mTilingRoll_seqwrite_st src dest 0 0; Some [w].
Definition mTilingRoll_seqread_mt (parts : list prange) src dest :=
  par (on_range (mTilingRoll_seqread_st src dest)) parts.
Definition mTilingRoll_seqwrite_mt (parts : list prange) src dest :=
  par (on_range (mTilingRoll_seqwrite_st src dest)) parts.
(** smath.h:2136-2150; [t1] is Thresholds_t::mTilingRoll, [t2] is
    Thresholds_t::mTilingRoll_mt_cols; [partsS] are the ranges run() makes of
    src.cols_no_bias(), [partsD] of dest.cols_no_bias() *)
Definition mTilingRoll (t1 t2 : nat) (partsS partsD : list prange) src dest :=
  if numel_nb src <? t1 then mTilingRoll_st src dest
  else if cols_nb dest <? t2 then mTilingRoll_seqread_mt partsS src dest
  else mTilingRoll_seqwrite_mt partsD src dest.

(** smath.h:2295-2309 *)
Definition mTilingUnroll_st src dest := do w <- mTilingUnroll_seqread_st src dest 0 0; Some [w].
Definition mTilingUnroll_seqread_mt (parts : list prange) src dest :=
  par (on_range (mTilingUnroll_seqread_st src dest)) parts.
Definition mTilingUnroll_seqwrite_mt (parts : list prange) src dest :=
  par (on_range (mTilingUnroll_seqwrite_st src dest)) parts.
Definition mTilingUnroll (t1 t2 : nat) (partsS partsD : list prange) src dest :=
  if numel_nb src <? t1 then mTilingUnroll_st src dest
  else if cols_nb dest <? t2 then mTilingUnroll_seqwrite_mt partsD src dest
  else mTilingUnroll_seqread_mt partsS src dest.

(** ** Cloning columns *)

(** smath.h:2038-2049: the search of the source column for [firstCol]; returns
    csIdx and colsLeft ([spec] is the rest of pColSpec) *)
Fixpoint find_cs (spec : list nat) (firstCol csIdx colsLeft : nat) : nat * nat :=
  match spec with
  | [] => (csIdx, colsLeft)
  | s :: spec' =>
      let lc := colsLeft + s in
      if firstCol <=? lc then (csIdx, lc - firstCol)
      else find_cs spec' firstCol (csIdx + 1) lc
  end.

(** smath.h:2030-2074 [mCloneCols_st].  abort() (2072) is [None].  colsLeft is a
    signed integer; state: colsLeft, pSrc, index of the next element of pColSpec *)
Definition mCloneCols_st src dest (spec : list nat) (firstCol lc : nat) : option (list (wr A)) :=
  let (csIdx, colsLeft) := find_cs (firstn (m_cols src) spec) firstCol 0 0 in
  let destCols := m_cols dest in
  if (csIdx <? m_cols src) && (colsLeft <=? destCols) then
    let rows := m_rows dest in
    do (_, w) <- ptr_loop (col_ofs dest firstCol) (col_ofs dest (last_col lc destCols)) rows
      (fun pD '(cl, pS, pn) =>
        do (cl, pS, pn) <-
          (if (cl =? 0)%Z then do s <- bget spec pn; Some (Z.of_nat s, pS + rows, pn + 1)
           else Some (cl, pS, pn));
        do w <- memcpy_tr (m_data src) pS pD rows;
        Some ((cl - 1)%Z, pS, pn, w))
      (Z.of_nat colsLeft, col_ofs src csIdx, csIdx + 1);
    Some w
  else None.
(** smath.h:2025-2029, 2075-2085; [thr] is Thresholds_t::mCloneCols *)
Definition mCloneCols (thr : nat) (parts : list prange) src dest spec : option (list (list (wr A))) :=
  if m_cols src <? thr then do w <- mCloneCols_st src dest spec 0 0; Some [w]
  else par (on_range (mCloneCols_st src dest spec)) parts.

(** smath.h:2096-2112 [mCloneCol_st] *)
Definition mCloneCol_st src dest (firstCol lc : nat) : option (list (wr A)) :=
  let rows := m_rows src in
  do (_, w) <- ptr_loop (col_ofs dest firstCol) (col_ofs dest (last_col lc (m_cols dest))) rows
    (fun pD (_ : unit) =>
      do w <- memcpy_tr (m_data src) 0 pD rows; Some (tt, w)) tt;
  Some w.
(** smath.h:2091-2095, 2113-2122 *)
Definition mCloneCol (thr : nat) (parts : list prange) src dest : option (list (list (wr A))) :=
  if m_cols dest <? thr then do w <- mCloneCol_st src dest 0 0; Some [w]
  else par (on_range (mCloneCol_st src dest)) parts.
End K.
