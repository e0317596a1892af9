(** Model of the in-memory training data object:
    nntl/train_data/_train_data_simple.h, _td_base.h, inmem_train_data.h,
    inmem_train_data_stor.h.

    x and y may have different element types (A and B).  The data sets themselves
    ([sets], the four matrices of inmem_train_data_stor) are never written by the
    functions modelled here and are kept apart from the members of the wrapper
    ([tds]).  Batch sizes passed by reference to init/is_initialized functions are
    non-negative (asserted there); those passed to on_next_epoch/walk_over_set are
    integers since negative values have a meaning.  NNTL_ASSERTs are no-ops. *)
From Verif Require Import Base Workers_Model Kern_Model MKern_Model Smx_Model.

(** members of vec_len_t = int32 *)
Definition max_vec_len : Z := 2147483647.

(** nntl/_nnet_errs.h *)
Inductive err := Success | TooBigTrainTestSet | TooBigTrainSet
               | InvalidBatchSize2MaxFPropSizeRelation | TdInitNoMemory.

(** What m_pCurBatchX / m_pCurBatchY point to. *)
Inductive sel := SNull | SBatch | SWalk | SSet (id : nat).

(** _i_train_data.h:46-57 *)
Definition train_set_id := 0.
Definition test_set_id := 1.
Definition exclude_dataX (f : nat) := f =? 1.
Definition exclude_dataY (f : nat) := f =? 2.

(** inmem_train_data_stor.h:62-63; ids other than 0 and 1 index outside of the
    arrays *)
Record sets (A B : Type) := mkSets { x0 : smx A; x1 : smx A; y0 : smx B; y1 : smx B }.
Arguments mkSets {A B}. Arguments x0 {A B}. Arguments x1 {A B}. Arguments y0 {A B}. Arguments y1 {A B}.

(** _train_data_simple.h:56-67, _td_base.h:49-54 *)
Record tds (A B : Type) := mkT {
  t_bx : smx A; t_wx : smx A; t_by : smx B; t_wy : smx B;   (* m_batch_x, m_walkX, m_batch_y, m_walkY *)
  t_idx : list nat;                                         (* m_vSampleIdxs *)
  t_mini : bool;                                            (* m_bMiniBatchTraining *)
  t_px : sel; t_py : sel;                                   (* m_pCurBatchX, m_pCurBatchY *)
  t_fp : nat; t_tb : nat;                                   (* m_maxFPropSize, m_maxTrainBatchSize *)
  t_cur : Z;                                                (* m_curBatchSize *)
  t_walk : option nat }.                                    (* m_curDataset2Walk *)
Arguments mkT {A B}. Arguments t_bx {A B}. Arguments t_wx {A B}. Arguments t_by {A B}. Arguments t_wy {A B}.
Arguments t_idx {A B}. Arguments t_mini {A B}. Arguments t_px {A B}. Arguments t_py {A B}. Arguments t_fp {A B}.
Arguments t_tb {A B}. Arguments t_cur {A B}. Arguments t_walk {A B}.

(** The math object and its thread pool, as seen by one call: how an index range is
    split over threads and in which order the threads' writes happen. *)
Record imath (A B : Type) := mkIM {
  im_parts : nat -> list prange;
  im_schedA : list (list (wr A)) -> list (wr A);
  im_schedB : list (list (wr B)) -> list (wr B) }.
Arguments mkIM {A B}. Arguments im_parts {A B}. Arguments im_schedA {A B}. Arguments im_schedB {A B}.

(** A kernel call [call src dest] executed under a schedule. *)
Definition run_kernel {A} (sched : list (list (wr A)) -> list (wr A))
  (call : mtx A -> mtx A -> option (list (list (wr A)))) (src dest : smx A) : option (smx A) :=
  do s <- as_mtx src; do d <- as_mtx dest;
  do trs <- call s d;
  do l <- apply_writes (m_data d) (sched trs);
  Some (with_mem dest (Some l)).

(** iM.mExtractBatches, iM.mExtractRowsSeq: see MKern_Model.v *)
Definition extract_batches {A} (parts : nat -> list prange) (idx : list nat) (src dest : mtx A) :=
  mExtractBatches (parts (cols_nb dest)) (parts (m_rows dest)) src idx dest.
Definition extract_rows_seq {A} (parts : nat -> list prange) (ofs : nat) (src dest : mtx A) :=
  mExtractRowsSeq (parts (cols_nb dest)) src ofs dest.

(** std::random_shuffle(first, last, rng): [for (i = 1; i < n; ++i) swap(v[i], v[rng(i+1)])];
    [rv k] is the value rng(k) returns in this call (each k occurs once). *)
Definition swap (l : list nat) (i j : nat) : option (list nat) :=
  do a <- bget l i; do b <- bget l j;
  do l1 <- bset l i b; bset l1 j a.
Definition random_shuffle (rv : nat -> nat) (l : list nat) : option (list nat) :=
  for_loop 1 (length l - 1) (fun i l => swap l i (rv (i + 1))) l.

Section T.
Context {A B : Type} (oneA : A) (oneB : B).
Notation sets := (sets A B). Notation tds := (tds A B). Notation imath := (imath A B).
Implicit Types (S : sets) (t : tds).

(** ** inmem_train_data_stor.h *)
(** 75-76 X(id), Y(id) *)
Definition X S id : option (smx A) := match id with 0 => Some (x0 S) | 1 => Some (x1 S) | _ => None end.
Definition Y S id : option (smx B) := match id with 0 => Some (y0 S) | 1 => Some (y1 S) | _ => None end.
(** 152-154 *)
Definition sets_empty S := empty (x0 S) || empty (y0 S) || empty (x1 S) || empty (y1 S).
(** 178-192 *)
Definition absorbsion_will_succeed (tx : smx A) (ty : smx B) (ex : smx A) (ey : smx B) : bool :=
  negb (empty tx) && negb (empty ty) && (s_rows tx =? s_rows ty) &&
  negb (empty ex) && negb (empty ey) && (s_rows ex =? s_rows ey) &&
  (s_cols ty =? s_cols ey) && (s_cols tx =? s_cols ex) &&
  negb (s_bias ty) && negb (s_bias ey) && s_bias tx && s_bias ex &&
  negb (s_ext tx) && negb (s_ext ex) && negb (s_ext ty) && negb (s_ext ey).
(** 164-175 *)
Definition absorb S tx ty ex ey : bool * sets :=
  if absorbsion_will_succeed tx ty ex ey then (true, mkSets tx ex ty ey) else (false, S).
(** 195-203, 206-212 *)
Definition replace_Y_will_succeed S (ty ey : smx B) : bool :=
  negb (empty ty) && (s_rows ty =? s_rows (y0 S)) &&
  negb (empty ey) && (s_rows ey =? s_rows (y1 S)) &&
  (s_cols ty =? s_cols ey) && negb (s_bias ty) && negb (s_bias ey) && negb (s_ext ty) && negb (s_ext ey).
Definition replace_Y S ty ey : bool * sets :=
  if replace_Y_will_succeed S ty ey then (true, mkSets (x0 S) (x1 S) ty ey) else (false, S).

(** ** inmem_train_data.h:63-70, _td_base.h:59, 83, 128-135 *)
Definition dataset_samples_count S id : option nat := do x <- X S id; Some (batch_size x).
Definition xWidth S := sample_size (x0 S).
Definition yWidth S := sample_size (y0 S).
Definition trainset_samples_count S := batch_size (x0 S).
(** _train_data_simple.h:117-128: throws (in a noexcept function) when too big *)
Definition biggest_samples_count S : option nat :=
  let r := Nat.max (Nat.max 0 (batch_size (x0 S))) (batch_size (x1 S)) in
  do _ <- guard (Z.of_nat r <=? max_vec_len)%Z; Some r.

(** ** _train_data_simple.h *)
(** 104-115 and _td_base.h:106-111 *)
Definition deinit4all t : tds :=
  mkT (clear (t_bx t)) (clear (t_wx t)) (clear (t_by t)) (clear (t_wy t)) [] false SNull SNull 0 0 0%Z None.

Definition with_batches t bx by_ : tds :=
  mkT bx (t_wx t) by_ (t_wy t) (t_idx t) (t_mini t) (t_px t) (t_py t) (t_fp t) (t_tb t) (t_cur t) (t_walk t).
Definition with_walks t wx wy : tds :=
  mkT (t_bx t) wx (t_by t) wy (t_idx t) (t_mini t) (t_px t) (t_py t) (t_fp t) (t_tb t) (t_cur t) (t_walk t).
Definition with_ptrs t px py cur : tds :=
  mkT (t_bx t) (t_wx t) (t_by t) (t_wy t) (t_idx t) (t_mini t) px py (t_fp t) (t_tb t) cur (t_walk t).
Definition with_walk t w : tds :=
  mkT (t_bx t) (t_wx t) (t_by t) (t_wy t) (t_idx t) (t_mini t) (t_px t) (t_py t) (t_fp t) (t_tb t) (t_cur t) w.
Definition with_idx t l : tds :=
  mkT (t_bx t) (t_wx t) (t_by t) (t_wy t) l (t_mini t) (t_px t) (t_py t) (t_fp t) (t_tb t) (t_cur t) (t_walk t).
Definition with_sizes t fp tb mini : tds :=
  mkT (t_bx t) (t_wx t) (t_by t) (t_wy t) (t_idx t) mini (t_px t) (t_py t) fp tb (t_cur t) (t_walk t).

(** 70-101; [mx], [my]: outcomes of the two allocations.  m_batch_x.will_emulate_biases()
    and dont_emulate_biases() set the flag. *)
Definition initBatches (mx : mem_env A) (my : mem_env B) S t (bMiniInf : bool) : option (bool * tds) :=
  if t_mini t || bMiniInf then
    let mbs := Nat.max (t_tb t) (t_fp t) in
    let bUseWalkX := s_bir (x0 S) && bMiniInf in
    do (okx, bx) <- (if t_mini t || negb bUseWalkX then
        d_resize_as_dataset oneA mx (with_bir (with_flag (t_bx t) true) (s_bir (x0 S)))
          (if bUseWalkX then t_tb t else mbs) (xWidth S)
      else Some (true, t_bx t));
    if negb okx then Some (false, with_batches t bx (t_by t)) else
    let bUseWalkY := s_bir (y0 S) && bMiniInf in
    do (oky, by_) <- (if t_mini t || negb bUseWalkY then
        d_resize_as_dataset oneB my (with_bir (with_flag (t_by t) false) (s_bir (y0 S)))
          (if bUseWalkY then t_tb t else mbs) (yWidth S)
      else Some (true, t_by t));
    if negb oky then Some (false, with_batches t (clear bx) by_)
    else Some (true, with_batches t bx by_)
  else Some (true, t).

(** 130-137; [None]: false, [Some bs]: true with the argument set to bs *)
Definition is_initialized4inference S t (bs : nat) : option nat :=
  let tbs := if bs =? 0 then t_fp t else bs in
  if sets_empty S || (t_fp t =? 0) || (t_fp t <? tbs) then None
  else if (tbs <? t_fp t) && empty (t_bx t) then None
  else Some tbs.

(** 164-173; returns (fpropBs, trainBs, bMiniBatch) *)
Definition is_initialized4train S t (fpropBs trainBs : nat) : option (nat * nat * bool) :=
  do fp <- is_initialized4inference S t fpropBs;
  let tbs := if trainBs =? 0 then t_tb t else trainBs in
  if (t_tb t =? 0) || (t_tb t <? tbs) || ((tbs <? t_fp t) && empty (t_bx t)) || (fp <? tbs) then None
  else Some (fp, tbs, negb (empty (t_bx t))).

(** 140-162; returns the error code, the updated argument and the object *)
Definition init4inference (mx : mem_env A) (my : mem_env B) S t (maxFP : nat) : option (err * nat * tds) :=
  let t := deinit4all t in
  do biggest <- biggest_samples_count S;
  if (maxFP =? 0) && (max_vec_len <? Z.of_nat biggest)%Z then Some (TooBigTrainTestSet, maxFP, t) else
  let maxFP := if (maxFP <=? 0) || (biggest <? maxFP) then biggest else maxFP in
  let t := with_sizes t maxFP (t_tb t) (t_mini t) in
  do (ok, t) <- initBatches mx my S t (maxFP <? biggest);
  Some (if ok then Success else TdInitNoMemory, maxFP, t).

(** 178-232; [mi]: m_vSampleIdxs.resize() succeeds.  The scope_exit object runs
    deinit4all() on every path that does not end in success. *)
Definition init4train (mx : mem_env A) (my : mem_env B) (mi : bool) S t (maxFP maxTB : nat)
  : option (err * nat * nat * tds) :=
  let t := deinit4all t in
  let trainCnt := trainset_samples_count S in
  do biggest <- biggest_samples_count S;
  if (maxFP =? 0) && (max_vec_len <? Z.of_nat biggest)%Z then Some (TooBigTrainTestSet, maxFP, maxTB, deinit4all t) else
  if (maxTB =? 0) && (max_vec_len <? Z.of_nat trainCnt)%Z then Some (TooBigTrainSet, maxFP, maxTB, deinit4all t) else
  let maxFP := if (maxFP <=? 0) || (biggest <? maxFP) then biggest else maxFP in
  let maxTB := if (maxTB <=? 0) || (trainCnt <? maxTB) then trainCnt else maxTB in
  if maxFP <? maxTB then Some (InvalidBatchSize2MaxFPropSizeRelation, maxFP, maxTB, deinit4all t) else
  let mini := maxTB <? trainCnt in
  let t := with_sizes t maxFP maxTB mini in
  if mini && negb mi then Some (TdInitNoMemory, maxFP, maxTB, deinit4all t) else
  let t := if mini then with_idx t (seq 0 trainCnt) else t in
  do (ok, t) <- initBatches mx my S t (maxFP <? biggest);
  if ok then Some (Success, maxFP, maxTB, t) else Some (TdInitNoMemory, maxFP, maxTB, deinit4all t).

(** 237-282; [ibs]: cd.input_batch_size(); a zero batch size divides by zero *)
Definition on_next_epoch S t (rv : nat -> nat) (ibs : nat) (bs : Z) : option (nat * tds) :=
  let t := with_walk t None in
  let bs := if (bs <? 0)%Z then t_tb t else if (bs =? 0)%Z then ibs else Z.to_nat bs in
  do t <- (if t_mini t then
      do bx <- deform_batch_size_with_biases oneA (t_bx t) bs;
      let by_ := deform_batch_size (t_by t) bs in
      do idx <- random_shuffle rv (t_idx t);
      Some (with_idx (with_ptrs (with_batches t bx by_) SBatch SBatch (Z.of_nat bs)) idx)
    else Some (with_ptrs t (SSet train_set_id) (SSet train_set_id) (Z.of_nat bs)));
  do _ <- guard (0 <? bs);
  Some (trainset_samples_count S / bs, t).

(** 285-307; the index vector is read from its begin() + curBatchOffset on *)
Definition on_next_batch (im : imath) S t (bi : nat) : option tds :=
  if t_mini t then
    let idx := skipn (Z.to_nat (t_cur t) * bi) (t_idx t) in
    do by_ <- run_kernel (im_schedB im) (extract_batches (im_parts im) idx) (y0 S) (t_by t);
    do bx <- run_kernel (im_schedA im) (extract_batches (im_parts im) idx) (x0 S) (t_bx t);
    Some (with_batches t bx by_)
  else Some t.

(** 310-372 *)
Definition walk_over_set S t (id : nat) (ibs : nat) (bs : Z) (flag : nat) : option (nat * tds) :=
  let t := with_walk t (Some id) in
  let bs := if (bs <? 0)%Z then t_fp t else if (bs =? 0)%Z then ibs else Z.to_nat bs in
  do ds <- dataset_samples_count S id;
  let bs := if ds <? bs then ds else bs in
  do t <- (if bs <? ds then
      do (bx, px) <- (if exclude_dataX flag then Some (t_bx t, SNull)
                      else if s_bir (x0 S) then Some (t_bx t, SWalk)
                      else do bx <- deform_batch_size_with_biases oneA (t_bx t) bs; Some (bx, SBatch));
      let '(by_, py) := if exclude_dataY flag then (t_by t, SNull)
                        else if s_bir (y0 S) then (t_by t, SWalk)
                        else (deform_batch_size (t_by t) bs, SBatch) in
      Some (with_ptrs (with_batches t bx by_) px py (Z.of_nat bs))
    else Some (with_ptrs t (if exclude_dataX flag then SNull else SSet id)
                           (if exclude_dataY flag then SNull else SSet id) (-1)%Z));
  do _ <- guard (0 <? bs);
  Some (ds / bs + Nat.b2n (1 <? ds mod bs), t).

(** smatrix.h:984 colDataAsVec, 1208 useExternalStorage: a view of the columns from
    [c] on *)
Definition view {C} (m : smx C) (c rows cols : nat) (bias : bool) : option (smx C) :=
  do l <- s_data m; Some (use_external (skipn (s_rows m * c) l) rows cols bias false true).

(** 375-452; aborts when the batch index is too big *)
Definition next_subset (im : imath) S t (bi : nat) : option tds :=
  if (0 <? t_cur t)%Z then
    do id <- t_walk t; do dx <- X S id; do dy <- Y S id;
    let dsSize := batch_size dx in
    let bs := Z.to_nat (t_cur t) in
    let ofs := bi * bs in
    do _ <- guard (ofs <? dsSize);
    let maxBs := dsSize - ofs in
    let bBatchX := match t_px t with SBatch => true | _ => false end in
    let bBatchY := match t_py t with SBatch => true | _ => false end in
    let by_ := if (maxBs <? bs) && bBatchY then deform_batch_size (t_by t) maxBs else t_by t in
    do bx <- (if (maxBs <? bs) && bBatchX then deform_batch_size_with_biases oneA (t_bx t) maxBs else Some (t_bx t));
    let bs := if maxBs <? bs then maxBs else bs in
    do (by_, wy) <- match t_py t with
      | SBatch => do by' <- run_kernel (im_schedB im) (extract_rows_seq (im_parts im) ofs) dy by_; Some (by', t_wy t)
      | SWalk => do w <- view dy ofs (sample_size dy) bs false; Some (by_, w)
      | _ => Some (by_, t_wy t)
      end;
    do (bx, wx) <- match t_px t with
      | SBatch => do bx' <- run_kernel (im_schedA im) (extract_rows_seq (im_parts im) ofs) dx bx; Some (bx', t_wx t)
      | SWalk => do w <- view dx ofs (sample_size dx + 1) bs true; Some (bx, w)
      | _ => Some (bx, t_wx t)
      end;
    Some (with_walks (with_batches t bx by_) wx wy)
  else Some t.

(** _td_base.h:119-120 *)
Definition batchX S t : option (smx A) :=
  match t_px t with SNull => None | SBatch => Some (t_bx t) | SWalk => Some (t_wx t) | SSet id => X S id end.
Definition batchY S t : option (smx B) :=
  match t_py t with SNull => None | SBatch => Some (t_by t) | SWalk => Some (t_wy t) | SSet id => Y S id end.
End T.
