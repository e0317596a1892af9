(** Softmax: nntl/interface/math/mathn.h 150-267, the row-wise helpers of
    nntl/interface/math/smath.h it uses, and the softmax loss (mathn.h 4553-4588,
    activations/softmax.h).  Real arithmetic.  The temporary block (pNumer, pMax,
    pDenom) is one array, as in the code. *)
From Coq Require Import Reals.
From Verif Require Import Base Workers_Model Kern_Model Kern_Spec IdxMax_Model Priv_Model Ew_Model Act_Model.
Local Open Scope R_scope.

Notation kern := (list R -> option (list R * list (wr R))).

(** a range of rows and columns (rowcol_range) *)
Record rcr := mkRC { rb : nat; re : nat; cb : nat; ce : nat }.
Definition all_rc (A : mtx R) : rcr := mkRC 0 (m_rows A) 0 (m_cols A).
Definition rows_rc (A : mtx R) (p : prange) : rcr := mkRC (r_ofs p) (r_ofs p + r_cnt p) 0 (m_cols A).
Definition cols_rc (A : mtx R) (p : prange) : rcr := mkRC 0 (m_rows A) (r_ofs p) (r_ofs p + r_cnt p).

(** Thresholds_t *)
Record sthr := mkST {
  t_softmax : nat; t_parts : nat; t_parts_cpt : nat; t_parts_rows : nat; t_max : nat;
  t_sum_cols : nat; t_sum_rows : nat; t_div : nat; t_div_rw : nat; t_div_mt_rows : nat }.

(** [mrwMax_st_cw] smath.h:1486-1491 with [_memcpy_rowcol_range] 506-519,
    [_mrwVecOperation_st_cw] 710-739 (from column 1 of the range on) and
    [_mrwFind_MAX] 612-617.  [pMax]: offset of the destination in the block *)
Definition mrwMax_st_cw (A : mtx R) (pMax : nat) (q : rcr) : kern :=
  mseq
    (mfor 0 (re q - rb q) (fun i m =>
      do v <- bget (m_data A) (col_ofs A (cb q) + rb q + i); mset (pMax + rb q + i) v m))
    (if (1 <? m_cols A)%nat then
       mfor (cb q + 1) (ce q - (cb q + 1)) (fun c =>
         mfor (rb q) (re q - rb q) (fun r m =>
           do x <- bget (m_data A) (col_ofs A c + r);
           do v <- bget m (pMax + r);
           if Rlt_dec v x then mset (pMax + r) x m else mskip m))
     else mskip).
(** 1474-1484, 1516-1521 *)
Definition mrwMax (thr : nat) (pool : list prange) (mt : bool) (A : mtx R) (pMax : nat) (m : list R) :=
  if negb mt || (numel A <? thr)%nat
  then do (_, w) <- mrwMax_st_cw A pMax (all_rc A) m; Some [w]
  else ppar (fun p => mrwMax_st_cw A pMax (rows_rc A p)) (run_ranges pool 0 (m_rows A)) m.

(** [softmax_parts_st_cw] mathn.h:171-175 with [_memset_rowrange] smath.h:521-530 and
    [_mrw_SOFTMAXPARTS] mathn.h:76-118; pNumerator starts at column colBegin
    (initOperation) and moves on by the leading dimension after every column *)
Definition softmax_parts_st_cw (A : mtx R) (pMax pDenom pNumer : nat) (q : rcr) : kern :=
  mseq
    (mfor 0 (re q - rb q) (fun i => mset (pDenom + rb q + i) 0))
    (mfor (cb q) (ce q - cb q) (fun c =>
      mfor (rb q) (re q - rb q) (fun r m =>
        do x <- bget (m_data A) (col_ofs A c + r);
        do mx <- bget m (pMax + r);
        do v <- bget m (pDenom + r);
        let numerator := exp (x - mx) in
        mseq (mset (pDenom + r) (v + numerator)) (mset (pNumer + m_rows A * c + r) numerator) m))).

(** [mrwSum_ip] smath.h:1544-1585 on [fin], the rm x T matrix at offset [p] of the block *)
Definition mrwSum_ip_st_cw (rm T p : nat) : kern :=
  mfor 1 (T - 1) (fun c => mfor 0 rm (fun r m =>
    do x <- bget m (p + rm * c + r); do v <- bget m (p + r); mset (p + r) (v + x) m)).
Definition mrwSum_ip_st_rw_small (rm T p : nat) : kern :=
  mfor 0 rm (fun r m =>
    do s <- for_loop 1 (T - 1) (fun c s => do x <- bget m (p + rm * c + r); Some (s + x)) 0;
    do v <- bget m (p + r); mset (p + r) (v + s) m).
Definition mrwSum_ip (tc tr rm T p : nat) : kern :=
  if (T <=? 1)%nat then mskip
  else if ((T <? tc)%nat && (rm <? tr)%nat)%bool then mrwSum_ip_st_cw rm T p else mrwSum_ip_st_rw_small rm T p.

(** [softmax_parts*] mathn.h:159-199 with _processMtx_rw and _processMtx_cw
    (smath.h:951-957, 865-900); read: [post] holds of the block afterwards *)
Definition softmax_parts (t : sthr) (pool : list prange) (mt : bool) (A : mtx R) (pMax pDenom pNumer : nat)
  (m : list R) (post : list R -> Prop) : Prop :=
  if negb mt || (numel A <? t_parts t)%nat
  then computes (do (_, w) <- softmax_parts_st_cw A pMax pDenom pNumer (all_rc A) m; Some [w]) m post
  else if (m_cols A <=? t_parts_cpt t)%nat || (t_parts_rows t <? m_rows A)%nat
  then computes (ppar (fun p => softmax_parts_st_cw A pMax pDenom pNumer (rows_rc A p)) (run_ranges pool 0 (m_rows A)) m) m post
  else
    let parts := cw_parts (t_parts_cpt t) pool A in
    computes (ppar (fun p => softmax_parts_st_cw A pMax (pDenom + m_rows A * r_tid p) pNumer (cols_rc A p)) parts m) m
      (fun m1 => computes (do (_, w) <- mrwSum_ip (t_sum_cols t) (t_sum_rows t) (m_rows A) (length parts) pDenom m1; Some [w]) m1 post).

(** [mrwDivideByVec*] smath.h:1115-1150; the divisor is at offset [pDiv] of the block
    [m], the matrix data [d] is updated *)
Definition div_st_cw (A : mtx R) (m : list R) (pDiv : nat) (q : rcr) : kern :=
  mfor (cb q) (ce q - cb q) (fun c => mfor (rb q) (re q - rb q) (fun r d =>
    do x <- bget d (col_ofs A c + r); do v <- bget m (pDiv + r); mset (col_ofs A c + r) (x / v) d)).
Definition div_st_rw (A : mtx R) (m : list R) (pDiv : nat) (q : rcr) : kern :=
  mfor (rb q) (re q - rb q) (fun r d =>
    do v <- bget m (pDiv + r);
    mfor (cb q) (ce q - cb q) (fun c d =>
      do x <- bget d (col_ofs A c + r); mset (col_ofs A c + r) (x / v) d) d).
Definition div_st (t : sthr) (A : mtx R) (m : list R) (pDiv : nat) (q : rcr) : kern :=
  if (numel A <? t_div_rw t)%nat then div_st_rw A m pDiv q else div_st_cw A m pDiv q.
Definition mrwDivideByVec (t : sthr) (pool : list prange) (A : mtx R) (m : list R) (pDiv : nat) (d : list R) :=
  if (numel A <? t_div t)%nat then do (_, w) <- div_st t A m pDiv (all_rc A) d; Some [w]
  else if (m_rows A <? t_div_mt_rows t)%nat
  then ppar (fun p => div_st t A m pDiv (cols_rc A p)) (run_ranges pool 0 (m_cols A)) d
  else ppar (fun p => div_st t A m pDiv (rows_rc A p)) (run_ranges pool 0 (m_rows A)) d.

(** hide_biases(): smatrix.h; the data stay where they are *)
Definition hidden (A : mtx R) : mtx R := mkM (m_rows A) (cols_nb A) false false (m_data A).

(** [___softmax_needTempMem] 207-216; [length pool] + 1 is cur_workers_count() *)
Definition softmax_mem (A : mtx R) (pool : list prange) : nat :=
  m_rows A * (cols_nb A + 1 + (length pool + 1)).

(** [softmax], [softmax_st], [softmax_mt] 222-267.  [m]: the temporary block.  Read:
    [post] holds of the matrix data afterwards. *)
Definition softmax (t : sthr) (pool : list prange) (A : mtx R) (m : list R) (post : list R -> Prop) : Prop :=
  let mt := negb (numel A <? t_softmax t)%nat in
  let S := hidden A in
  let pNumer := 0%nat in let pMax := (pNumer + numel S)%nat in let pDenom := (pMax + m_rows S)%nat in
  computes (mrwMax (t_max t) pool mt S pMax m) m (fun m1 =>
    softmax_parts t pool mt S pMax pDenom pNumer m1 (fun m2 =>
      computes (do w <- memcpy_tr m2 pNumer 0 (numel S); Some [w]) (m_data S) (fun d1 =>
        computes (mrwDivideByVec t pool S m2 pDenom d1) d1 post))).

(** loss_softmax_xentropy: mathn.h 4553-4588; [laz] is log_almost_zero *)
Definition l_smx (laz a y : R) : R := - y * (if Rlt_dec 0 a then ln a else laz).
Definition smx_loss (laz : R) (parts : list prange) (acts data_y : mtx R) : option R :=
  do ps <- omap (range_sum (l_smx laz) (m_data acts) (m_data data_y)) parts; Some (reduce_sum ps).

(** dLdZ: activations/softmax.h 75-81, evSub_ip mathn.h 2154-2182 *)
Definition smx_dLdZ (parts : list prange) (data_y act_dLdZ : mtx R) :=
  ew parts (fun i a => do y <- bget (m_data data_y) i; Some (a - y)) (m_data act_dLdZ).
