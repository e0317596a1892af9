(** Column indices of the row maxima: nntl/interface/math/smath.h
    [mrwIdxsOfMax] and the helpers it uses.

    [gt] is the comparison operator > of the element type.  A pair of arrays that
    is always written at equal offsets (values and indices of the maxima found so
    far) is modelled as one array of pairs; the block of pMax used only as scratch
    by the single-threaded and row-split versions is not modelled. *)
From Verif Require Import Base Workers_Model Kern_Model Kern_Spec.

Section K.
Context {A : Type} (gt : A -> A -> bool).
Implicit Types src : mtx A.

(** The body of the row loop of [_mrwVecOperation_st_rw] (smath.h:752-764) with
    the functor [_mrwFindIdxsOf_MAX] (618-660) on columns cb..ce-1; state: v,
    _maxColumnIdx, pElm *)
Definition row_max src (cb ce r : nat) : option (A * nat) :=
  let rm := m_rows src in
  let pA := col_ofs src cb in
  do v0 <- bget (m_data src) (pA + r);
  do (v, idx, _) <- for_loop (cb + 1) (ce - (cb + 1)) (fun c '(v, idx, pElm) =>
      do x <- bget (m_data src) pElm;
      Some (if gt x v then (x, c, pElm + rm) else (v, idx, pElm + rm)))
    (v0, cb, pA + r + rm);
  Some (v, idx).

(** [mrwIdxsOfMax_st_rw] (1341-1351) on rows rb..re-1 and columns cb..ce-1;
    results are stored at [dofs] + row *)
Definition st_rw src (rb re cb ce dofs : nat) : option (list (wr (A * nat))) :=
  do (_, w) <- wfor rb (re - rb) (fun r (_ : unit) =>
    do x <- row_max src cb ce r; Some (tt, [(dofs + r, x)])) tt;
  Some w.

(** the part of the writes that goes to the index array *)
Definition idx_only (w : list (wr (A * nat))) : list (wr nat) :=
  map (fun '(a, (_, i)) => (a, i)) w.

(** 1259-1265 *)
Definition idxmax_st src : option (list (list (wr nat))) :=
  do w <- st_rw src 0 (m_rows src) 0 (m_cols src) 0; Some [idx_only w].

(** 1460-1468 with _processMtx_rw (951-957); [parts]: ranges over the rows *)
Definition idxmax_mt_rw (parts : list prange) src : option (list (list (wr nat))) :=
  par (fun p => do w <- st_rw src (r_ofs p) (r_ofs p + r_cnt p) 0 (m_cols src) 0; Some (idx_only w)) parts.

(** 1353-1357 with _processMtx_cw (929-937): every thread handles its range of
    columns and stores into its own block of the temporary arrays *)
Definition cw_phase1 (parts : list prange) src : option (list (list (wr (A * nat)))) :=
  par (fun p => st_rw src 0 (m_rows src) (r_ofs p) (r_ofs p + r_cnt p) (m_rows src * r_tid p)) parts.

(** 1358-1378: gathering; [T] is threadsUsed, the number of columns of [fin] *)
Definition cw_merge (rm T : nat) (tmp : list (A * nat)) : option (list (A * nat)) :=
  for_loop 1 (T - 1) (fun t tmp =>
    for_loop 0 rm (fun r tmp =>
      do (m, _) <- bget tmp r;
      do (v, iv) <- bget tmp (rm * t + r);
      if gt v m then bset tmp r (v, iv) else Some tmp) tmp) tmp.
Definition cw_gather (rm T : nat) (tmp : list (A * nat)) : option (list (list (wr nat))) :=
  do tmp' <- cw_merge rm T tmp;
  do w <- memcpy_tr tmp' 0 0 rm;
  Some [idx_only w].

(** 804-812 [_howMuchThreadsNeededForCols]; [W] + 1 is cur_workers_count() *)
Definition howMuchThreads (minPerThread columns W : nat) : nat :=
  let req := (columns + minPerThread - 1) / minPerThread in
  if req <? W + 1 then req else W + 1.

(** The ranges _processMtx_cw gets from run(cm, threadsToUse), 930-937 *)
Definition cw_parts (cpt : nat) (pool : list prange) src : list prange :=
  run_ranges pool (Z.of_nat (howMuchThreads cpt (m_cols src) (length pool))) (m_cols src).

(** 1253-1257, 1266-1270.  [thr], [thrRows], [cpt] are the Thresholds_t
    constants; [pool] the pool's ranges; [tmp] the temporary block that
    _processMtx_cw allocates.  Read: the call is free of undefined behaviour and
    of data races, and every possible final content of [dest] satisfies [post]. *)
Definition mrwIdxsOfMax (thr thrRows cpt : nat) (pool : list prange) src
  (tmp : list (A * nat)) (dest : list nat) (post : list nat -> Prop) : Prop :=
  if numel src <? thr then computes (idxmax_st src) dest post
  else if (m_rows src <? thrRows) && (cpt <? m_cols src) then
    let parts := cw_parts cpt pool src in
    computes (cw_phase1 parts src) tmp (fun tmp' =>
      computes (cw_gather (m_rows src) (length parts) tmp') dest post)
  else computes (idxmax_mt_rw (run_ranges pool 0 (m_rows src)) src) dest post.
End K.
