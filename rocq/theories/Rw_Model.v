(** Kernels over whole matrices, columns and rows which the other models do not use:
    evAddC_ip, evMulCAddC_ip (nntl/interface/math/mathn.h 1560-1626, 1815-1874), mcwMean,
    mcwDeMeanNZ, mcwSub_ip, mrwOr (nntl/interface/math/smath.h 1664-1847, 1890-1965).

    Simplifications: real arithmetic for the first two groups, bit patterns for mrwOr; an
    iteration of an elementwise or columnwise loop touches its own element or column only,
    so reading the storage as it was before the call is exact.  The numeric limits of the
    constants (NNTL_ASSERT of isfinite) hold of every real number. *)
From Coq Require Import Reals NArith.
From Verif Require Import Base Workers_Model Kern_Model Kern_Spec IdxMax_Model Priv_Model Sum_Model Norm_Model Opt_Model La_Model Sfm_Model.
Local Open Scope R_scope.

(** ** A constant added to, and a constant multiplied into, every element *)
(** the loop of vAddC_ip_st, mathn.h 1815-1824, and of vMulCAddC_ip_st, 1561-1571; [f] is
    what happens to an element *)
Definition vC (f : R -> R) (d : list R) (pA pAE : nat) : option (list (wr R)) :=
  do (_, w) <- ptr_loop pA pAE 1 (fun p (_ : unit) => do x <- bget d p; Some (tt, [(p, f x)])) tt; Some w.

(** _universal_range_BiR_aware, smatrix.h 1272-1277; numel(bNoBias) 859-862 *)
Definition universal_range (ib : bool) (m : mtx R) : nat :=
  if ib && m_bir m && m_bias m then m_cols m
  else if m_bir m then numel m else rows_ib ib m * cols_ib ib m.

(** _ievAddC_ip_st 1855-1874, _ievMulCAddC_ip_st 1606-1626.  The loop condition of the code
    is pA < pAE; the loop of the model ends at pA == pAE and fails beyond it, so that a run of
    the model which succeeds is one of the code *)
Definition ievC_st (f : R -> R) (ib : bool) (m : mtx R) (pr : prange) : option (list (wr R)) :=
  if ib && m_bir m && m_bias m then
    let rowsNb := (m_rows m - 1)%nat in
    do (_, w) <- ptr_loop (col_ofs m (r_ofs pr)) (col_ofs m (r_ofs pr + r_cnt pr)) (rowsNb + 1) (fun tpA (_ : unit) =>
      do w <- vC f (m_data m) tpA (tpA + rowsNb); Some (tt, w)) tt;
    Some w
  else vC f (m_data m) (r_ofs pr) (r_ofs pr + r_cnt pr).

(** 1829-1853, 1577-1605 *)
Definition evC (thr : nat) (pool : list prange) (f : R -> R) (ib : bool) (m : mtx R) :=
  par (ievC_st f ib m) (by_thr pool thr (numel m) (universal_range ib m)).
Definition evAddC_ip thr pool (m : mtx R) (c : R) (ib : bool) := evC thr pool (fun x => x + c) ib m.
Definition evMulCAddC_ip thr pool (m : mtx R) (sc ofs : R) (ib : bool) := evC thr pool (fun x => sc * x + ofs) ib m.

(** ** Columns of a matrix of [rows] rows and [cols] columns *)
(** _imcwMean_st, smath.h 1830-1847 *)
Definition imcwMean_st (ns : bool) (rows : nat) (A : list R) (er : prange) : option (list (wr R)) :=
  do (_, w) <- wfor (r_ofs er) (r_cnt er) (fun c (_ : unit) =>
    do s <- vec_sum ns A (rows * c) rows;
    do mean <- rdiv s (INR rows);
    Some (tt, [(c, mean)])) tt;
  Some w.
(** mcwMean 1812-1828; _processMtx_cw 820-836 *)
Definition mcwMean (thr : nat) (pool : list prange) (ns : bool) (rows cols : nat) (A : list R) :=
  par (imcwMean_st ns rows A) (by_thr pool thr (rows * cols) cols).

(** func_SUMNZ over a column: the sum and the number of the elements different from cp;
    1927-1928 *)
Definition sum_nz (ns : bool) (cp : R) (d : list R) (ofs cnt : nat) : option (R * nat) :=
  if ns then do (s, n) <- vec_apply_func d ofs cnt (kahannz_op cp) (0, 0, 0%nat); Some (fst s, n)
  else vec_apply_func d ofs cnt (sumnz_op cp) (0, 0%nat).
(** _imcwDeMeanNZ_st 1911-1945.  A column of nothing but [cp] has 0/0 - cp for its mean, not
    a number, which is not used then *)
Definition imcwDeMeanNZ_st (ns : bool) (cp : R) (rows : nat) (d : list R) (er : prange) : option (list (wr R)) :=
  do (_, w) <- wfor (r_ofs er) (r_cnt er) (fun c (_ : unit) =>
    do (s, n) <- sum_nz ns cp d (rows * c) rows;
    let mean := do q <- rdiv s (INR n); Some (q - cp) in
    do (_, w) <- wfor 0 rows (fun i (_ : unit) =>
      do x <- bget d (i + rows * c);
      do y <- (if Req_EM_T x cp then Some cp else do mu <- mean; Some (x - mu));
      Some (tt, [((i + rows * c)%nat, y)])) tt;
    Some (tt, w)) tt;
  Some w.
(** mcwDeMeanNZ 1891-1908 *)
Definition mcwDeMeanNZ (thr : nat) (pool : list prange) (ns : bool) (cp : R) (rows cols : nat) (d : list R) :=
  par (imcwDeMeanNZ_st ns cp rows d) (by_thr pool thr (rows * cols) cols).

(** _mcwVecOperation_st 779-800 with _mcwSUB_ip 770-776 *)
Definition imcwSub_st (vec : list R) (rows : nat) (d : list R) (er : prange) : option (list (wr R)) :=
  do (_, w) <- wfor (r_ofs er) (r_cnt er) (fun c pVec =>
    do v <- bget vec pVec;
    do (_, w) <- wfor 0 rows (fun i (_ : unit) => do x <- bget d (i + rows * c); Some (tt, [((i + rows * c)%nat, x - v)])) tt;
    Some ((pVec + 1)%nat, w)) (r_ofs er);
  Some w.
(** mcwSub_ip 1949-1965 *)
Definition mcwSub_ip (thr : nat) (pool : list prange) (vec : list R) (rows cols : nat) (d : list R) :=
  par (imcwSub_st vec rows d) (by_thr pool thr (rows * cols) cols).

(** ** mrwOr: the matrix as bit patterns *)
Section Or.
Local Open Scope nat_scope.
Notation kernN := (list N -> option (list N * list (wr N))).

(** [_memcpy_rowcol_range] 506-519 to offset [p] *)
Definition cpy_rows (A : mtx N) (p : nat) (q : rcr) : kernN :=
  mfor 0 (re q - rb q) (fun i m =>
    do v <- bget (m_data A) (col_ofs A (cb q) + rb q + i); mset (p + rb q + i) v m).
(** the guard of all versions: one column, or a range of no columns *)
Definition or_copies (A : mtx N) (q : rcr) : bool := (m_cols A =? 1) || (cb q =? ce q).
(** mrwBinaryOR_st_cw 1767-1777 with [_memset_rowrange] 521-530, [_mrwVecOperation_st_cw]
    706-740 and [_mrw_BinaryOR] 669-674 *)
Definition or_st_cw (A : mtx N) (p : nat) (q : rcr) : kernN :=
  if or_copies A q then cpy_rows A p q
  else mseq
    (mfor 0 (re q - rb q) (fun i => mset (p + rb q + i) 0%N))
    (mfor (cb q) (ce q - cb q) (fun c => mfor (rb q) (re q - rb q) (fun r m =>
      do x <- bget (m_data A) (col_ofs A c + r);
      do v <- bget m (p + r);
      mset (p + r) (N.lor v x) m))).
(** mrwBinaryOR_st_rw 1758-1765 with [_mrwVecOperation_st_rw] 742-767, the accumulator
    starting with the first column of the range *)
Definition or_st_rw (A : mtx N) (p : nat) (q : rcr) : kernN :=
  if or_copies A q then cpy_rows A p q
  else mfor (rb q) (re q - rb q) (fun r m =>
    do v0 <- bget (m_data A) (col_ofs A (cb q) + r);
    do v <- for_loop (cb q + 1) (ce q - (cb q + 1)) (fun c v =>
      do x <- bget (m_data A) (col_ofs A c + r); Some (N.lor v x)) v0;
    mset (p + r) v m).
(** mrwBinaryOR_st 1731-1743 *)
Definition or_st (A : mtx N) (p : nat) (q : rcr) : kernN :=
  if or_copies A q then cpy_rows A p q else or_st_cw A p q.

Definition allN (A : mtx N) : rcr := mkRC 0 (m_rows A) 0 (m_cols A).
Definition rowsN (A : mtx N) (p : prange) : rcr := mkRC (r_ofs p) (r_ofs p + r_cnt p) 0 (m_cols A).
Definition colsN (A : mtx N) (p : prange) : rcr := mkRC 0 (m_rows A) (r_ofs p) (r_ofs p + r_cnt p).

Inductive or_version := OrDefault | OrSt | OrStCw | OrStRw | OrMt | OrMtCw | OrMtRw.

(** mrwBinaryOR_mt_rw 1778-1788 with _processMtx_rw 951-957 *)
Definition or_mt_rw (pool : list prange) (A : mtx N) (vec : list N) (post : list N -> Prop) : Prop :=
  if m_cols A =? 1 then computes (do (_, w) <- cpy_rows A 0 (allN A) vec; Some [w]) vec post
  else computes (ppar (fun p => or_st A 0 (rowsN A p)) (run_ranges pool 0 (m_rows A)) vec) vec post.
(** mrwBinaryOR_mt_cw 1789-1800 with _processMtx_cw 865-900; [tmp]: the temporary block *)
Definition or_mt_cw (cpt : nat) (pool : list prange) (A : mtx N) (tmp vec : list N) (post : list N -> Prop) : Prop :=
  let parts := run_ranges pool (Z.of_nat (howMuchThreads cpt (m_cols A) (length pool))) (m_cols A) in
  computes (ppar (fun p => or_st A (m_rows A * r_tid p) (colsN A p)) parts tmp) tmp (fun tmp' =>
    let fin := mkM (m_rows A) (length parts) false false tmp' in
    computes (do (_, w) <- or_st fin 0 (allN fin) vec; Some [w]) vec post).
(** mrwOr and its versions 1676-1719, mrwBinaryOR 1721-1730, mrwBinaryOR_mt 1745-1756.  Read:
    the call is free of undefined behaviour and of data races, and every possible final
    content of the vector satisfies [post]; [cpt] is the threshold of columns per thread, the
    pool and the calling thread make cur_workers_count() *)
Definition mrwOr (v : or_version) (cpt : nat) (pool : list prange) (A : mtx N) (tmp vec : list N) (post : list N -> Prop) : Prop :=
  let one k := computes (do (_, w) <- k A 0 (allN A) vec; Some [w]) vec post in
  match v with
  | OrDefault => one or_st_cw
  | OrSt => one or_st
  | OrStCw => one or_st_cw
  | OrStRw => one or_st_rw
  | OrMt => if m_cols A =? 1 then one cpy_rows
            else if m_cols A <=? Nat.max cpt (length pool + 1) then or_mt_rw pool A vec post
            else or_mt_cw cpt pool A tmp vec post
  | OrMtCw => or_mt_cw cpt pool A tmp vec post
  | OrMtRw => or_mt_rw pool A vec post
  end.
End Or.
