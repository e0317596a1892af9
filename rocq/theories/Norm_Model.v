(** Row norms and max-norm regularisation: nntl/interface/math/mathn.h 797-1042 and
    the row-wise helpers of nntl/interface/math/smath.h it uses.  Real arithmetic.
    The temporary block (row norms, one vector per thread) is one array, as in the
    code.  Hiding and restoring the last column (smatrix.h 1573-1581) changes the
    number of columns only. *)
From Coq Require Import Reals.
From Verif Require Import Base Workers_Model Kern_Model Kern_Spec IdxMax_Model Priv_Model Sfm_Model.
Local Open Scope R_scope.

(** a / b and sqrt a, undefined where the result of the C++ would not be a number *)
Definition rdiv (a b : R) : option R := if Req_EM_T b 0 then None else Some (a / b).
Definition rsqrt (a : R) : option R := if Rlt_dec a 0 then None else Some (sqrt a).

(** Thresholds_t *)
Record nthr := mkNT {
  n_chk : nat; n_l2 : nat; n_l2_cpt : nat; n_sum_cols : nat; n_sum_rows : nat;
  n_mul : nat; n_mul_st_rows : nat; n_mul_mt_rows : nat }.

(** [_imrwL2NormSquared_st] 812-836; [q] spans all rows *)
Definition l2_st (A : mtx R) (pN : nat) (q : rcr) : kern :=
  mseq
    (mfor 0 (m_rows A) (fun i => mset (pN + i) 0))
    (mfor (cb q) (ce q - cb q) (fun c => mfor 0 (m_rows A) (fun r m =>
      do v <- bget (m_data A) (col_ofs A c + r);
      do s <- bget m (pN + r);
      mset (pN + r) (s + v * v) m))).

(** [mrwL2NormSquared] 800-810, 837-853 with _processMtx_cw (smath.h 865-900) and
    mrwSum_ip; [mt] = false: [mrwL2NormSquared_st] *)
Definition l2norm2 (t : nthr) (pool : list prange) (mt : bool) (A : mtx R) (pN : nat) (m : list R) (post : list R -> Prop) : Prop :=
  if (negb mt || (m_cols A <=? n_l2_cpt t)%nat || (numel A <? n_l2 t)%nat)%bool
  then computes (do (_, w) <- l2_st A pN (all_rc A) m; Some [w]) m post
  else
    let parts := cw_parts (n_l2_cpt t) pool A in
    computes (ppar (fun p => l2_st A (pN + m_rows A * r_tid p) (cols_rc A p)) parts m) m
      (fun m1 => computes (do (_, w) <- mrwSum_ip (n_sum_cols t) (n_sum_rows t) (m_rows A) (length parts) pN m1; Some [w]) m1 post).

(** [mrwMulByVec*] smath.h 1155-1187 with _mrwVecOperation_st_cw/_rw 710-765 and
    [_mrw_MUL_mtx_by_vec] 600-605; the factors are at offset [pMul] of the block [m],
    the matrix data [d] is updated *)
Definition mul_st_cw (A : mtx R) (m : list R) (pMul : nat) (q : rcr) : kern :=
  mfor (cb q) (ce q - cb q) (fun c => mfor (rb q) (re q - rb q) (fun r d =>
    do x <- bget d (col_ofs A c + r); do v <- bget m (pMul + r); mset (col_ofs A c + r) (x * v) d)).
Definition mul_st_rw (A : mtx R) (m : list R) (pMul : nat) (q : rcr) : kern :=
  mfor (rb q) (re q - rb q) (fun r d =>
    do v <- bget m (pMul + r);
    mfor (cb q) (ce q - cb q) (fun c d =>
      do x <- bget d (col_ofs A c + r); mset (col_ofs A c + r) (x * v) d) d).
Definition mul_st (t : nthr) (A : mtx R) (m : list R) (pMul : nat) (q : rcr) : kern :=
  if (m_rows A <? n_mul_st_rows t)%nat then mul_st_cw A m pMul q else mul_st_rw A m pMul q.
Definition mrwMulByVec (t : nthr) (pool : list prange) (mt : bool) (A : mtx R) (m : list R) (pMul : nat) (d : list R) :=
  if (negb mt || (numel A <? n_mul t)%nat)%bool then do (_, w) <- mul_st t A m pMul (all_rc A) d; Some [w]
  else if (m_rows A <? n_mul_mt_rows t)%nat
  then ppar (fun p => mul_st t A m pMul (cols_rc A p)) (run_ranges pool 0 (m_cols A)) d
  else ppar (fun p => mul_st t A m pMul (rows_rc A p)) (run_ranges pool 0 (m_rows A)) d.

(** A.hide_last_col() *)
Definition hide_last (A : mtx R) : mtx R := mkM (m_rows A) (m_cols A - 1) (m_bias A) (m_bir A) (m_data A).

(** the loop turning norms into factors: 922-929, 949-956 ([always] = false), and
    1005-1009, 1033-1037 ([always] = true) *)
Definition factors (always : bool) (maxn : R) (rows : nat) : kern :=
  mfor 0 rows (fun r m =>
    do n <- bget m r;
    if (if always then true else if Rlt_dec maxn n then true else false)
    then do q <- rdiv maxn n; do f <- rsqrt q; mset r f m
    else mset r 1 m).

(** [mCheck_normalize_rows] 894-961 and [mrwSetL2Norm] 971-1042.  [m]: what
    _istor_alloc returned (rows elements for _st, rows * cur_workers_count() for
    _mt); [incl] is bNormIncludesBias.  Read: [post] holds of the matrix data
    afterwards. *)
Definition norm_rows (always : bool) (t : nthr) (pool : list prange) (A : mtx R) (maxn : R) (incl : bool) (m : list R)
  (post : list R -> Prop) : Prop :=
  let mt := negb (numel A <? n_chk t)%nat in
  let H := if incl then A else hide_last A in
  l2norm2 t pool mt H 0 m (fun m1 =>
    computes (do (_, w) <- factors always maxn (m_rows A) m1; Some [w]) m1 (fun m2 =>
      computes (mrwMulByVec t pool mt A m2 0 (m_data A)) (m_data A) post)).
Definition mCheck_normalize_rows := norm_rows false.
Definition mrwSetL2Norm := norm_rows true.

(** the temporary memory it asks for: 907, 939, 989, 1020 *)
Definition norm_mem (t : nthr) (pool : list prange) (A : mtx R) : nat :=
  if (numel A <? n_chk t)%nat then m_rows A else m_rows A * (length pool + 1).
