(** Properties of the data-moving matrix kernels (C15 - C19) and of the row
    maximum search (C20, C21).  [computes call d post] (Kern_Spec): the call is
    free of undefined behaviour and of data races, and in every interleaving of
    its threads takes the destination storage [d] to one satisfying [post].
    [holds_block ld r c f d d']: [d'] holds [f] in rows < r, columns < c, and
    agrees with [d] elsewhere (in particular in the bias column). *)
From Coq Require Import Permutation.
From Verif Require Import Base BaseLemmas Workers_Model Workers_Spec
  Kern_Model Kern_Spec Kern_Proofs MKern_Model MKern_Spec MKern_Proofs MKern_Proofs2
  MKern_Proofs3 MKern_Proofs4 IdxMax_Model IdxMax_Spec IdxMax_Proofs.

(** The ranges the thread pool hands out satisfy [tiles], for every pool, every
    requested number of threads and every amount of work. *)
Theorem C15_pool_ranges : forall pool req cnt, 0 < cnt -> tiles (run_ranges pool req cnt) cnt.
Proof. exact run_ranges_tiles. Qed.
Print Assumptions C15_pool_ranges.

Example C15_pool_ranges_example :
  run_ranges [mkR 0 0 1; mkR 0 0 2] 0 7 = [mkR 0 3 1; mkR 3 2 2; mkR 5 2 0].
Proof. reflexivity. Qed.

Theorem C15_extract_rows : forall A parts (src : mtx A) ridx dest,
  alloc src -> alloc dest -> cols_nb dest = cols_nb src ->
  idx_ok ridx (m_rows dest) (m_rows src) -> tiles parts (m_rows dest) ->
  computes (mExtractRows parts src ridx dest) (m_data dest)
    (holds_block (m_rows dest) (m_rows dest) (cols_nb dest)
       (fun r c => do i <- bget ridx r; mget src i c) (m_data dest)).
Proof. exact @extract_rows_correct. Qed.
Print Assumptions C15_extract_rows.

(** a 3 x 2 source with a bias column, a 2 x 2 destination with a bias column *)
Definition ex_src := mkM 3 3 true false [1; 2; 3; 4; 5; 6; 9; 9; 9].
Definition ex_dest := mkM 2 3 true false [0; 0; 0; 0; 7; 7].
Example C15_extract_rows_example :
  alloc ex_src /\ alloc ex_dest /\ cols_nb ex_dest = cols_nb ex_src /\
  idx_ok [2; 0] (m_rows ex_dest) (m_rows ex_src) /\
  tiles [mkR 0 1 1; mkR 1 1 0] (m_rows ex_dest) /\
  (do trs <- mExtractRows [mkR 0 1 1; mkR 1 1 0] ex_src [2; 0] ex_dest;
   apply_writes (m_data ex_dest) (concat trs)) = Some [3; 1; 6; 4; 7; 7].
Proof.
  split; [apply Nat.leb_le; reflexivity|]. split; [apply Nat.leb_le; reflexivity|]. split; [reflexivity|].
  split; [|split; [split|reflexivity]].
  - intros [|[|r]] Hr; simpl in *; [eauto with arith|eauto with arith|lia].
  - apply Permutation_refl.
  - intros p [<-|[<-|[]]]; simpl; lia.
Qed.

Theorem C15_extract_cols : forall A parts (src : mtx A) cidx dest,
  alloc src -> alloc dest -> rows_nb dest = rows_nb src ->
  idx_ok cidx (cols_nb dest) (m_cols src) -> tiles parts (cols_nb dest) ->
  computes (mExtractCols parts src cidx dest) (m_data dest)
    (holds_block (m_rows dest) (rows_nb dest) (cols_nb dest)
       (fun r c => do i <- bget cidx c; mget src r i) (m_data dest)).
Proof. exact @extract_cols_correct. Qed.
Print Assumptions C15_extract_cols.

(** samples in columns, bias row in both matrices *)
Example C15_extract_cols_example :
  let src := mkM 3 3 true true [1; 2; 9; 3; 4; 9; 5; 6; 9] in
  let dest := mkM 3 2 true true [0; 0; 7; 0; 0; 7] in
  alloc src /\ alloc dest /\ rows_nb dest = rows_nb src /\
  idx_ok [2; 1] (cols_nb dest) (m_cols src) /\
  (do trs <- mExtractCols (whole 2) src [2; 1] dest; apply_writes (m_data dest) (concat trs)) =
    Some [5; 6; 7; 3; 4; 7].
Proof.
  cbv zeta. split; [apply Nat.leb_le; reflexivity|]. split; [apply Nat.leb_le; reflexivity|]. split; [reflexivity|].
  split; [|reflexivity]. intros [|[|r]] Hr; [simpl; eauto with arith|simpl; eauto with arith|].
  change (S (S r) < 2) in Hr. lia.
Qed.

Theorem C15_extract_rows_seq : forall A parts (src : mtx A) rowOfs dest,
  alloc src -> alloc dest -> cols_nb dest = cols_nb src ->
  m_rows dest + rowOfs <= m_rows src -> tiles parts (cols_nb dest) ->
  computes (mExtractRowsSeq parts src rowOfs dest) (m_data dest)
    (holds_block (m_rows dest) (m_rows dest) (cols_nb dest)
       (fun r c => mget src (rowOfs + r) c) (m_data dest)).
Proof. exact @extract_rows_seq_correct. Qed.
Print Assumptions C15_extract_rows_seq.

Example C15_extract_rows_seq_example :
  (do trs <- mExtractRowsSeq (whole 2) ex_src 1 ex_dest; apply_writes (m_data ex_dest) (concat trs)) =
    Some [2; 3; 5; 6; 7; 7] /\ m_rows ex_dest + 1 <= m_rows ex_src.
Proof. split; [reflexivity|simpl; lia]. Qed.

Theorem C15_copy_data_skip_bias : forall A (src dest : mtx A),
  alloc src -> alloc dest -> m_rows dest = m_rows src -> cols_nb dest = cols_nb src ->
  computes (do w <- copy_data_skip_bias src dest; Some [w]) (m_data dest)
    (holds_block (m_rows dest) (m_rows dest) (cols_nb dest) (fun r c => mget src r c) (m_data dest)).
Proof. exact @copy_skip_correct. Qed.
Print Assumptions C15_copy_data_skip_bias.

Example C15_copy_example :
  (do w <- copy_data_skip_bias ex_src (mkM 3 2 false false [0; 0; 0; 0; 0; 0]); apply_writes [0; 0; 0; 0; 0; 0] w) =
    Some [1; 2; 3; 4; 5; 6].
Proof. reflexivity. Qed.

(** ** C16: masks.  [selected nz mask]: numbers of the rows with a non-zero mask. *)
Theorem C16_extract_by_mask : forall A (nz : A -> bool) parts src mask dest,
  alloc src -> alloc dest -> cols_nb dest = cols_nb src ->
  length mask = m_rows src -> m_rows dest = length (selected nz mask) ->
  tiles parts (cols_nb src) ->
  computes (mExtractRowsByMask nz parts src mask dest) (m_data dest)
    (holds_block (m_rows dest) (m_rows dest) (cols_nb dest)
       (fun r c => do i <- nth_error (selected nz mask) r; mget src i c) (m_data dest)).
Proof. exact @extract_by_mask_correct. Qed.
Print Assumptions C16_extract_by_mask.

Theorem C16_fill_by_mask : forall A (nz : A -> bool) zero parts src mask dest,
  alloc src -> alloc dest -> cols_nb dest = cols_nb src ->
  length mask = m_rows dest -> m_rows src = length (selected nz mask) ->
  tiles parts (cols_nb dest) ->
  computes (mFillRowsByMask nz zero parts src mask dest) (m_data dest)
    (holds_block (m_rows dest) (m_rows dest) (cols_nb dest) (fill_f nz zero mask src) (m_data dest)).
Proof. exact @fill_by_mask_correct. Qed.
Print Assumptions C16_fill_by_mask.

(** Filling after extracting restores the selected rows, and zeros elsewhere. *)
Theorem C16_extract_then_fill : forall A (nz : A -> bool) zero partsE partsF src mask tmp dest,
  alloc src -> alloc tmp -> alloc dest ->
  cols_nb tmp = cols_nb src -> cols_nb dest = cols_nb src -> m_rows dest = m_rows src ->
  length mask = m_rows src -> m_rows tmp = length (selected nz mask) ->
  tiles partsE (cols_nb src) -> tiles partsF (cols_nb src) ->
  computes (mExtractRowsByMask nz partsE src mask tmp) (m_data tmp) (fun t =>
    computes (mFillRowsByMask nz zero partsF (with_data tmp t) mask dest) (m_data dest)
      (holds_block (m_rows dest) (m_rows dest) (cols_nb dest)
        (fun r c => do m <- nth_error mask r; if nz m then mget src r c else Some zero) (m_data dest))).
Proof. exact @mask_roundtrip. Qed.
Print Assumptions C16_extract_then_fill.

(** Extracting after filling is the identity. *)
Theorem C16_fill_then_extract : forall A (nz : A -> bool) zero partsE partsF src mask tmp dest,
  alloc src -> alloc tmp -> alloc dest ->
  cols_nb tmp = cols_nb src -> cols_nb dest = cols_nb src -> m_rows dest = m_rows src ->
  length mask = m_rows tmp -> m_rows src = length (selected nz mask) ->
  tiles partsE (cols_nb src) -> tiles partsF (cols_nb src) ->
  computes (mFillRowsByMask nz zero partsF src mask tmp) (m_data tmp) (fun t =>
    computes (mExtractRowsByMask nz partsE (with_data tmp t) mask dest) (m_data dest)
      (holds_block (m_rows dest) (m_rows dest) (cols_nb dest) (fun r c => mget src r c) (m_data dest))).
Proof. exact @mask_roundtrip2. Qed.
Print Assumptions C16_fill_then_extract.

Example C16_example :
  let nz x := negb (x =? 0) in
  selected nz [1; 0; 1] = [0; 2] /\
  m_rows ex_dest = length (selected nz [1; 0; 1]) /\ length [1; 0; 1] = m_rows ex_src /\
  (do trs <- mExtractRowsByMask nz (whole 2) ex_src [1; 0; 1] ex_dest;
   apply_writes (m_data ex_dest) (concat trs)) = Some [1; 3; 4; 6; 7; 7] /\
  (do trs <- mFillRowsByMask nz 0 (whole 2) (with_data ex_dest [1; 3; 4; 6; 7; 7]) [1; 0; 1] (with_data ex_src (repeat 8 9));
   apply_writes (repeat 8 9) (concat trs)) = Some [1; 0; 3; 4; 0; 6; 8; 8; 8].
Proof. repeat split; reflexivity. Qed.

(** ** C17: transposition; [ib] - ignore biases, [thr] - size threshold. *)
Theorem C17_transpose : forall A thr (src dest : mtx A) ib,
  alloc src -> alloc dest -> 0 < m_rows src -> 0 < m_rows dest ->
  rows_ib ib src = cols_ib ib dest -> cols_ib ib src = rows_ib ib dest ->
  computes (mTranspose thr src dest ib) (m_data dest) (transposed src dest ib) /\
  computes (mTranspose_seq_read src dest ib) (m_data dest) (transposed src dest ib) /\
  computes (mTranspose_seq_write src dest ib) (m_data dest) (transposed src dest ib).
Proof.
  intros. split; [apply transpose_correct; assumption|].
  split; [apply transpose_read_correct; assumption|apply transpose_write_correct; assumption].
Qed.
Print Assumptions C17_transpose.

Theorem C17_transpose_ignore_bias : forall A thr (src dest : mtx A),
  alloc src -> alloc dest -> 0 < m_rows src -> 0 < m_rows dest ->
  rows_nb src = cols_nb dest -> cols_nb src = rows_nb dest ->
  computes (mTranspose_ignore_bias thr src dest) (m_data dest) (transposed src dest true).
Proof. exact @transpose_ignore_bias_correct. Qed.
Print Assumptions C17_transpose_ignore_bias.

Theorem C17_transpose_twice : forall A thr1 thr2 (src tmp dest : mtx A) ib,
  alloc src -> alloc tmp -> alloc dest -> 0 < m_rows src -> 0 < m_rows tmp -> 0 < m_rows dest ->
  rows_ib ib src = cols_ib ib tmp -> cols_ib ib src = rows_ib ib tmp ->
  rows_ib ib dest = rows_ib ib src -> cols_ib ib dest = cols_ib ib src ->
  computes (mTranspose thr1 src tmp ib) (m_data tmp) (fun t =>
    computes (mTranspose thr2 (with_data tmp t) dest ib) (m_data dest)
      (holds_block (m_rows dest) (rows_ib ib dest) (cols_ib ib dest) (fun i j => mget src i j) (m_data dest))).
Proof. exact @transpose_twice. Qed.
Print Assumptions C17_transpose_twice.

(** a 3 x 2 matrix with a bias column to a 2 x 3 one with a bias column *)
Example C17_example :
  let dest := mkM 2 4 true false [0; 0; 0; 0; 0; 0; 7; 7] in
  rows_ib true ex_src = cols_ib true dest /\ cols_ib true ex_src = rows_ib true dest /\
  (do trs <- mTranspose 0 ex_src dest true; apply_writes (m_data dest) (concat trs)) =
    Some [1; 4; 2; 5; 3; 6; 7; 7] /\
  (do trs <- mTranspose 100 ex_src dest true; apply_writes (m_data dest) (concat trs)) =
    Some [1; 4; 2; 5; 3; 6; 7; 7].
Proof. repeat split; reflexivity. Qed.

(** ** C18: tiling *)
Theorem C18_roll : forall A t1 t2 m n k partsS partsD (src dest : mtx A),
  tiling_shapes m n k src dest -> tiles partsS (k * n) -> tiles partsD n ->
  computes (mTilingRoll t1 t2 partsS partsD src dest) (m_data dest)
    (holds_block (m_rows dest) (k * m) n (roll_f m n src) (m_data dest)).
Proof. exact @roll_correct. Qed.
Print Assumptions C18_roll.

Theorem C18_unroll : forall A t1 t2 m n k partsS partsD (src dest : mtx A),
  tiling_shapes m n k dest src -> tiles partsS n -> tiles partsD (k * n) ->
  computes (mTilingUnroll t1 t2 partsS partsD src dest) (m_data dest)
    (holds_block (m_rows dest) m (k * n) (unroll_f m n src) (m_data dest)).
Proof. exact @unroll_correct. Qed.
Print Assumptions C18_unroll.

Theorem C18_unroll_after_roll : forall A t1 t2 t3 t4 m n k pS pD pS' pD' (src tmp dest : mtx A),
  tiling_shapes m n k src tmp -> tiling_shapes m n k dest tmp ->
  tiles pS (k * n) -> tiles pD n -> tiles pS' n -> tiles pD' (k * n) ->
  computes (mTilingRoll t1 t2 pS pD src tmp) (m_data tmp) (fun t =>
    computes (mTilingUnroll t3 t4 pS' pD' (with_data tmp t) dest) (m_data dest)
      (holds_block (m_rows dest) m (k * n) (fun i j => mget src i j) (m_data dest))).
Proof. exact @roll_unroll. Qed.
Print Assumptions C18_unroll_after_roll.

Theorem C18_roll_after_unroll : forall A t1 t2 t3 t4 m n k pS pD pS' pD' (src tmp dest : mtx A),
  tiling_shapes m n k tmp src -> tiling_shapes m n k tmp dest ->
  tiles pS n -> tiles pD (k * n) -> tiles pS' (k * n) -> tiles pD' n ->
  computes (mTilingUnroll t1 t2 pS pD src tmp) (m_data tmp) (fun t =>
    computes (mTilingRoll t3 t4 pS' pD' (with_data tmp t) dest) (m_data dest)
      (holds_block (m_rows dest) (k * m) n (fun i j => mget src i j) (m_data dest))).
Proof. exact @unroll_roll. Qed.
Print Assumptions C18_roll_after_unroll.

(** m = 1, n = 2, k = 3, the destination has a bias column *)
Example C18_example :
  let src := mkM 1 6 false false [1; 2; 3; 4; 5; 6] in
  let dest := mkM 3 3 true false [0; 0; 0; 0; 0; 0; 7; 7; 7] in
  tiling_shapes 1 2 3 src dest /\
  (do trs <- mTilingRoll 0 0 (whole 6) [mkR 0 1 1; mkR 1 1 0] src dest; apply_writes (m_data dest) (concat trs))
    = Some [1; 3; 5; 2; 4; 6; 7; 7; 7] /\
  (do trs <- mTilingRoll 0 9 [mkR 0 3 1; mkR 3 3 0] (whole 2) src dest; apply_writes (m_data dest) (concat trs))
    = Some [1; 3; 5; 2; 4; 6; 7; 7; 7].
Proof.
  cbv zeta. split; [|split; reflexivity]. constructor; try (simpl; lia); try reflexivity; apply Nat.leb_le; reflexivity.
Qed.

(** ** C19: cloning columns *)
Theorem C19_clone_cols : forall A thr parts (src dest : mtx A) spec,
  clone_shapes src dest spec -> tiles parts (m_cols dest) ->
  computes (mCloneCols thr parts src dest spec) (m_data dest)
    (holds_block (m_rows dest) (m_rows dest) (m_cols dest) (clone_f src spec) (m_data dest)).
Proof. exact @clone_cols_correct. Qed.
Print Assumptions C19_clone_cols.

Theorem C19_clone_col : forall A thr parts (src dest : mtx A),
  m_rows src = m_rows dest -> 0 < m_rows src -> 0 < m_cols src -> 0 < m_cols dest -> alloc src -> alloc dest ->
  tiles parts (m_cols dest) ->
  computes (mCloneCol thr parts src dest) (m_data dest)
    (holds_block (m_rows dest) (m_rows dest) (m_cols dest) (fun i j => mget src i 0) (m_data dest)).
Proof. exact @clone_col_correct. Qed.
Print Assumptions C19_clone_col.

Example C19_example :
  let src := mkM 2 3 false false [1; 2; 3; 4; 5; 6] in
  let dest := mkM 2 4 false false (repeat 0 8) in
  clone_shapes src dest [1; 2; 1] /\ clone_map [1; 2; 1] = [0; 1; 1; 2] /\
  (do trs <- mCloneCols 0 [mkR 0 2 1; mkR 2 2 0] src dest [1; 2; 1]; apply_writes (m_data dest) (concat trs))
    = Some [1; 2; 3; 4; 3; 4; 5; 6].
Proof.
  cbv zeta. split; [|split; reflexivity].
  constructor; try (simpl; lia); try reflexivity; try (apply Nat.leb_le; reflexivity).
  repeat constructor.
Qed.

(** Zero counts are not handled: [1; 0; 2] copies column 1 twice instead of
    column 2 twice. *)
Theorem C19_zero_count_refuted : exists (src dest : mtx nat) spec,
  length spec = m_cols src /\ list_sum spec = m_cols dest /\ alloc src /\ alloc dest /\
  clone_map spec = [0; 2; 2] /\
  (do trs <- mCloneCols 100 [] src dest spec; apply_writes (m_data dest) (concat trs)) = Some [10; 20; 20] /\
  m_data src = [10; 20; 30].
Proof.
  exists (mkM 1 3 false false [10; 20; 30]), (mkM 1 3 false false [0; 0; 0]), [1; 0; 2].
  repeat split; try reflexivity; apply Nat.leb_le; reflexivity.
Qed.
Print Assumptions C19_zero_count_refuted.

(** ** C20, C21: row maxima *)

(** For every pool of threads, all thresholds, and every content of the temporary
    memory: each returned index is the column of a maximum of its row. *)
Theorem C20_index_is_maximum : forall A (gt : A -> A -> bool) thr thrRows cpt pool src tmp dest,
  total_gt gt -> ready src tmp dest cpt pool ->
  mrwIdxsOfMax gt thr thrRows cpt pool src tmp dest (fun dest' =>
    (forall r, r < m_rows src -> exists i, bget dest' r = Some i /\ is_max gt src r i) /\
    untouched src dest dest').
Proof. intros A gt; intros. apply idxs_of_max_is_max; assumption. Qed.
Print Assumptions C20_index_is_maximum.

(** The single-threaded version, the versions splitting rows, and a pool without
    workers return the first maximum. *)
Theorem C20_first_maximum : forall A (gt : A -> A -> bool) thr thrRows cpt pool src tmp dest,
  total_gt gt -> ready src tmp dest cpt pool ->
  numel src < thr \/ thrRows <= m_rows src \/ m_cols src <= cpt \/ length pool = 0 ->
  mrwIdxsOfMax gt thr thrRows cpt pool src tmp dest (fun dest' =>
    forall r, r < m_rows src -> exists i, bget dest' r = Some i /\ is_first_max gt src r i).
Proof.
  intros A gt thr thrRows cpt pool src tmp dest HG HR HX.
  eapply mrwIdxsOfMax_weaken; [|apply idxs_of_max_first; eassumption].
  cbv beta. intros d H r Hr. apply H; [exact Hr|tauto].
Qed.
Print Assumptions C20_first_maximum.

Lemma ltb_total_gt : total_gt (fun x y => y <? x).
Proof.
  constructor; intros *; repeat match goal with |- context [?a <? ?b] => destruct (Nat.ltb_spec a b) end; lia || auto.
Qed.

Example C20_example :
  let src := mkM 2 5 false false [1; 0; 5; 0; 2; 0; 5; 0; 3; 1] in
  total_gt (fun x y => y <? x) /\
  ready src (repeat (0, 0) 4) [9; 9; 9] 4 [mkR 0 0 1] /\
  (do trs <- cw_phase1 (fun x y => y <? x) (cw_parts 4 [mkR 0 0 1] src) src;
   do tmp <- apply_writes (repeat (0, 0) 4) (concat trs);
   do w <- cw_gather (fun x y => y <? x) 2 2 tmp; apply_writes [9; 9; 9] (concat w)) = Some [3; 4; 9] /\
  (do w <- idxmax_st (fun x y => y <? x) src; apply_writes [9; 9; 9] (concat w)) = Some [1; 4; 9].
Proof.
  cbv zeta. split; [apply ltb_total_gt|]. split; [|split; reflexivity].
  repeat split; try (apply Nat.leb_le; reflexivity).
Qed.

(** C21: with a single maximum in a row the index does not depend on anything
    but the row: it is the first (only) maximum for every pool and threshold. *)
Theorem C21_thread_independent_partial : forall A (gt : A -> A -> bool) thr thrRows cpt pool src tmp dest,
  total_gt gt -> ready src tmp dest cpt pool ->
  mrwIdxsOfMax gt thr thrRows cpt pool src tmp dest (fun dest' =>
    forall r, r < m_rows src -> unique_max gt src r ->
      exists i, bget dest' r = Some i /\ is_first_max gt src r i).
Proof.
  intros A gt thr thrRows cpt pool src tmp dest HG HR.
  eapply mrwIdxsOfMax_weaken; [|apply idxs_of_max_first; eassumption].
  cbv beta. intros d H r Hr HU. apply H; [exact Hr|tauto].
Qed.
Print Assumptions C21_thread_independent_partial.

Example C21_example : unique_max (fun x y => y <? x) (mkM 1 3 false false [1; 7; 4]) 0.
Proof.
  intros i j (Hi & v & Ev & Hv) (Hj & w & Ew & Hw). simpl in Hi, Hj.
  assert (forall k, k < 3 -> k <> 1 -> forall x, mget (mkM 1 3 false false [1; 7; 4]) 0 k = Some x -> x < 7) as HS.
  { intros [|[|[|k]]] Hk Nk x Ex; try lia; vm_compute in Ex; injection Ex as <-; lia. }
  destruct (Nat.eq_dec i 1) as [->|Ni], (Nat.eq_dec j 1) as [->|Nj]; auto; exfalso.
  - destruct (Hw 1 ltac:(simpl; lia)) as (z & Ez & Hz). vm_compute in Ez. injection Ez as <-.
    specialize (HS j Hj Nj w Ew). apply Nat.ltb_ge in Hz. lia.
  - destruct (Hv 1 ltac:(simpl; lia)) as (z & Ez & Hz). vm_compute in Ez. injection Ez as <-.
    specialize (HS i Hi Ni v Ev). apply Nat.ltb_ge in Hz. lia.
  - destruct (Hv 1 ltac:(simpl; lia)) as (z & Ez & Hz). vm_compute in Ez. injection Ez as <-.
    specialize (HS i Hi Ni v Ev). apply Nat.ltb_ge in Hz. lia.
Qed.

(** With equal elements in a row it does: as soon as columns are split over
    threads the index is not 0, although the single-threaded index is 0.  Holds
    for every matrix with constant rows and every pool with a worker. *)
Theorem C21_thread_independent_refuted : forall A (gt : A -> A -> bool) thr thrRows cpt pool src tmp dest,
  total_gt gt -> ready src tmp dest cpt pool ->
  thr <= numel src -> m_rows src < thrRows -> cpt < m_cols src -> 0 < length pool ->
  (forall r i j v w, mget src r i = Some v -> mget src r j = Some w -> gt v w = false) ->
  mrwIdxsOfMax gt thr thrRows cpt pool src tmp dest (fun dest' =>
    forall r, r < m_rows src -> exists i, bget dest' r = Some i /\ 0 < i) /\
  mrwIdxsOfMax gt thr thrRows cpt [] src tmp dest (fun dest' =>
    forall r, r < m_rows src -> bget dest' r = Some 0).
Proof.
  intros A gt thr thrRows cpt pool src tmp dest HG HR H1 H2 H3 H4 H5.
  split; [apply idxs_of_max_ties; assumption|].
  eapply mrwIdxsOfMax_weaken; [|apply idxs_of_max_first; [exact HG|]].
  - cbv beta. intros d H r Hr. destruct (H r Hr) as (i & Ei & [_ Hf]); [tauto|].
    destruct i as [|i]; [exact Ei|]. exfalso. apply (Hf 0); [lia|].
    destruct HR as (HA & _). split; [lia|].
    destruct (mget_all src r HA Hr 0) as (v & Ev); [lia|]. exists v. split; [exact Ev|].
    intros j Hj. destruct (mget_all src r HA Hr j Hj) as (w & Ew). exists w. split; [exact Ew|]. eapply H5; eauto.
  - destruct HR as (HA & R1 & R2 & R3 & R4 & R5 & R6). repeat split; auto.
    unfold howMuchThreads in *. cbn [length].
    assert (Hq : 2 <= (m_cols src + cpt - 1) / cpt) by (apply Nat.div_le_lower_bound; lia).
    set (q := (m_cols src + cpt - 1) / cpt) in *. clearbody q.
    destruct (Nat.ltb_spec q (0 + 1)); [lia|]. destruct (Nat.ltb_spec q (length pool + 1)); nia.
Qed.
Print Assumptions C21_thread_independent_refuted.

(** a matrix of equal elements meeting the hypotheses *)
Example C21_refuted_example :
  let src := mkM 1 6 false false [3; 3; 3; 3; 3; 3] in
  ready src [(0, 0); (0, 0)] [9] 4 [mkR 0 0 1] /\ 6 <= numel src /\ 4 < m_cols src /\
  (forall r i j v w, mget src r i = Some v -> mget src r j = Some w -> (w <? v) = false) /\
  (do trs <- cw_phase1 (fun x y => y <? x) (cw_parts 4 [mkR 0 0 1] src) src;
   do tmp <- apply_writes [(0, 0); (0, 0)] (concat trs);
   do w <- cw_gather (fun x y => y <? x) 1 2 tmp; apply_writes [9] (concat w)) = Some [3].
Proof.
  cbv zeta. split; [repeat split; try (apply Nat.leb_le; reflexivity)|].
  split; [apply Nat.leb_le; reflexivity|]. split; [apply Nat.leb_le; reflexivity|]. split; [|reflexivity].
  assert (E : forall r i v, mget (mkM 1 6 false false [3; 3; 3; 3; 3; 3]) r i = Some v -> v = 3).
  { intros r i v H. unfold mget, bget in H. apply nth_error_In in H. simpl in H.
    repeat destruct H as [<-|H]; auto. destruct H. }
  intros r i j v w H1 H2. apply E in H1. apply E in H2. subst. reflexivity.
Qed.
