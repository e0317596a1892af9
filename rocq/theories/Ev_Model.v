(** Classification evaluators and the observer that accumulates their results:
    nntl/nnet_evaluator.h, nntl/training_observer.h, and the kernels they use:
    nntl/interface/math/mathn.h ewBinarize (327-366), ewBinarizeBatch (372-463),
    vCountSame (1077-1104), vCountSameBatch (1127-1161).

    [gt] is the operator > of real_t.  char and vec_len_t elements are natural numbers.
    Left out: the debug-only members, the output to the console, data sets that
    prohibit caching.  For the math object see [mth]. *)
From Verif Require Import Base Workers_Model Kern_Model Kern_Spec IdxMax_Model Smx_Model TData_Model.

(** The math object during one call: thread pool, the order in which the threads'
    writes happen, and the temporary memory. *)
Record mth (B : Type) := mkK {
  k_pool : list prange;
  k_sched : list (list (wr nat)) -> list (wr nat);
  k_schedP : list (list (wr (B * nat))) -> list (wr (B * nat));
  k_tmp : list (B * nat) }.
Arguments mkK {B}. Arguments k_pool {B}. Arguments k_sched {B}. Arguments k_schedP {B}. Arguments k_tmp {B}.

(** The constants of Thresholds_t *)
Record thrs := mkThr { th_bin : nat; th_binb : nat; th_max : nat; th_maxRows : nat; th_cpt : nat }.

Section E.
Context {A B : Type} (oneA : A) (gt : B -> B -> bool) (th : thrs).
Notation sets := (sets A B). Notation tds := (tds A B). Notation imath := (imath A B). Notation mth := (mth B).
Implicit Types (S : sets) (t : tds) (k : mth) (src : mtx B).

(** a > frac, converted to the element type of the destination *)
Definition binz (frac v : B) : nat := if gt v frac then 1 else 0.

(** mathn.h 334-353 *)
Definition iewBinarize_st (frac : B) src (er : prange) : option (list (wr nat)) :=
  do (_, w) <- wfor (r_ofs er) (r_cnt er) (fun i (_ : unit) =>
    do a <- bget (m_data src) i; Some (tt, [(i, binz frac a)])) tt;
  Some w.
(** 327-332, 354-366 *)
Definition ewBinarize_call k (frac : B) src : option (list (list (wr nat))) :=
  par (iewBinarize_st frac src)
    (if numel_nb src <? th_bin th then whole (numel_nb src) else run_ranges (k_pool k) 0 (numel_nb src)).

(** the copying loops of 426-428, 439-441, 452-454 *)
Definition bin_copy (frac : B) src (pD pS n : nat) : option (list (wr nat)) :=
  do (_, w) <- wfor 0 n (fun r (_ : unit) =>
    do v <- bget (m_data src) (pS + r); Some (tt, [(pD + r, binz frac v)])) tt;
  Some w.
(** 397-463; [dRows]: dest.rows(); state of the loop: pD, pS.  An empty src divides by
    zero. *)
Definition iewBinarizeBatch_st (frac : B) (dRows start : nat) src (er : prange) : option (list (wr nat)) :=
  let destNextColOfs := dRows - m_rows src in
  let srcRows := m_rows src in
  do _ <- guard (0 <? srcRows);
  let srcBegCol := r_ofs er / srcRows in let srcBegRow := r_ofs er mod srcRows in
  let srcEndCol := (r_ofs er + r_cnt er) / srcRows in let srcEndRow := (r_ofs er + r_cnt er) mod srcRows in
  let pD := dRows * srcBegCol + start + srcBegRow in
  let pS := col_ofs src srcBegCol + srcBegRow in
  let totR1 := (if srcBegCol =? srcEndCol then srcEndRow else srcRows) - srcBegRow in
  do w1 <- bin_copy frac src pD pS totR1;
  let pD := pD + totR1 + destNextColOfs in let pS := pS + totR1 in
  do (s, w2) <- wfor (srcBegCol + 1) (srcEndCol - (srcBegCol + 1)) (fun _ '(pD, pS) =>
    do w <- bin_copy frac src pD pS srcRows;
    Some ((pD + (srcRows + destNextColOfs), pS + srcRows), w)) (pD, pS);
  let '(pD, pS) := s in
  do w3 <- (if srcBegCol =? srcEndCol then Some [] else bin_copy frac src pD pS srcEndRow);
  Some (w1 ++ w2 ++ w3).
(** 372-396 *)
Definition ewBinarizeBatch_call k (frac : B) (dRows start : nat) src : option (list (list (wr nat))) :=
  par (iewBinarizeBatch_st frac dRows start src)
    (if numel_nb src <? th_binb th then whole (numel_nb src) else run_ranges (k_pool k) 0 (numel_nb src)).

Definition run_nat k (call : option (list (list (wr nat)))) (d : list nat) : option (list nat) :=
  do trs <- call; apply_writes d (k_sched k trs).

Definition ewBinarize k (frac : B) (dest : smx nat) (a : smx B) : option (smx nat) :=
  do am <- as_mtx a; do d <- s_data dest;
  do d' <- run_nat k (ewBinarize_call k frac am) d;
  Some (with_mem dest (Some d')).
Definition ewBinarizeBatch k (frac : B) (dest : smx nat) (start : nat) (y : smx B) : option (smx nat) :=
  do ym <- as_mtx y; do d <- s_data dest;
  do d' <- run_nat k (ewBinarizeBatch_call k frac (s_rows dest) start ym) d;
  Some (with_mem dest (Some d')).

(** smath.h mrwIdxsOfMax (IdxMax_Model.v) executed; [dest] begins where the pointer
    argument points *)
Definition run_idxmax k src (dest : list nat) : option (list nat) :=
  if numel src <? th_max th then run_nat k (idxmax_st gt src) dest
  else if (m_rows src <? th_maxRows th) && (th_cpt th <? m_cols src) then
    let parts := cw_parts (th_cpt th) (k_pool k) src in
    do trs <- cw_phase1 gt parts src;
    do tmp' <- apply_writes (k_tmp k) (k_schedP k trs);
    run_nat k (cw_gather gt (m_rows src) (length parts) tmp') dest
  else run_nat k (idxmax_mt_rw gt (run_ranges (k_pool k) 0 (m_rows src)) src) dest.
Definition mrwIdxsOfMax_at k (y : smx B) (dest : list nat) (ofs : nat) : option (list nat) :=
  do ym <- as_mtx y;
  do _ <- guard (ofs <? length dest);
  do d' <- run_idxmax k ym (skipn ofs dest);
  Some (firstn ofs dest ++ d').

(** mathn.h 1089-1104 *)
Definition vCountSame (a b : list nat) (ofs n : nat) : option nat :=
  for_loop 0 n (fun i ret =>
    do x <- bget a (ofs + i); do y <- bget b i; Some (ret + Nat.b2n (x =? y))) 0.
(** 1135-1161; state: pA, pB, ret *)
Definition vCountSameBatch (a : mtx nat) (rOfsA : nat) (b : mtx nat) : option nat :=
  do (_, _, ret) <- for_loop 0 (m_cols b) (fun _ '(pA, pB, ret) =>
    do ret <- for_loop 0 (m_rows b) (fun r ret =>
      do x <- bget (m_data a) (pA + r); do y <- bget (m_data b) (pB + r); Some (ret + Nat.b2n (x =? y))) ret;
    Some (pA + m_rows a, pB + m_rows b, ret)) (rOfsA, 0, 0);
  Some ret.

(** smatrix.h:1637-1642, 1682 *)
Definition deform_like {X Y} (m : smx X) (l : smx Y) : smx X := with_dims m (s_rows l) (s_cols l).

(** ** eval_classification_binary_cached, nnet_evaluator.h:68-193 *)
Record bev := mkBev {
  b_y0 : smx nat; b_y1 : smx nat;       (* m_ydataPP *)
  b_p0 : smx nat; b_p1 : smx nat;       (* m_predictionsPP_orYData *)
  b_frac : B; b_ofs : nat }.            (* m_binarizeThreshold, m_curYOfs *)

(** 134-148; [ims], [ks]: the math object during the calls of batch bi *)
Definition binarizeYOfDataset (ims : nat -> imath) (ks : nat -> mth) (ibs : nat) S t (frac : B) (id : nat) (dest : smx nat)
  : option (tds * smx nat) :=
  do (maxBatches, t) <- walk_over_set oneA S t id ibs (-1)%Z 1;
  do (t, _, dest) <- for_loop 0 maxBatches (fun bi '(t, rOfs, dest) =>
    do t <- next_subset oneA (ims bi) S t bi;
    do y <- batchY S t;
    do dest <- ewBinarizeBatch (ks bi) frac dest rOfs y;
    Some (t, rOfs + s_rows y, dest)) (t, 0, dest);
  Some (t, dest).

(** 150-155 *)
Definition bev_deinit (e : bev) : bev :=
  mkBev (clear (b_y0 e)) (clear (b_y1 e)) (clear (b_p0 e)) (clear (b_p1 e)) (b_frac e) (b_ofs e).

(** 103-131; [maxBS]: cd.get_outBatchSizes().biggest(); [nsets]: td.datasets_count() *)
Definition bev_init (me : nat -> mem_env nat) (ims : nat -> nat -> imath) (ks : nat -> nat -> mth)
  (ibs maxBS nsets : nat) S t (e : bev) : option (bool * tds * bev) :=
  do n0 <- dataset_samples_count S 0; do n1 <- dataset_samples_count S 1;
  let w := yWidth S in
  if (max_vec_len <? Z.of_nat (Nat.max n0 n1))%Z then Some (false, t, e)
  else
    do (ok0, y0) <- d_resize 1 (me 0) (b_y0 e) n0 w;
    do (ok1, y1) <- (if ok0 then d_resize 1 (me 1) (b_y1 e) n1 w else Some (false, b_y1 e));
    do (ok2, p0) <- (if ok1 then d_resize 1 (me 2) (b_p0 e) maxBS w else Some (false, b_p0 e));
    do (ok3, p1) <- (if ok2 && (2 <? nsets) then d_resize 1 (me 3) (b_p1 e) maxBS w else Some (ok2, b_p1 e));
    let e := mkBev y0 y1 p0 p1 (b_frac e) (b_ofs e) in
    if negb ok3 then Some (false, t, bev_deinit e)
    else
      do (t, y0) <- binarizeYOfDataset (ims 0) (ks 0) ibs S t (b_frac e) 0 y0;
      do (t, y1) <- binarizeYOfDataset (ims 1) (ks 1) ibs S t (b_frac e) 1 y1;
      Some (true, t, mkBev y0 y1 p0 p1 (b_frac e) (b_ofs e)).

(** 157-160 *)
Definition bev_prepare (e : bev) : bev := mkBev (b_y0 e) (b_y1 e) (b_p0 e) (b_p1 e) (b_frac e) 0.

(** 164-187 *)
Definition bev_correct k (e : bev) (id : nat) (y acts : smx B) : option (nat * bev) :=
  do p0 <- ewBinarize k (b_frac e) (deform_like (b_p0 e) acts) acts;
  do p0m <- as_mtx p0;
  if id <=? 1 then
    do ym <- as_mtx (if id =? 0 then b_y0 e else b_y1 e);
    do ret <- vCountSameBatch ym (b_ofs e) p0m;
    Some (ret, mkBev (b_y0 e) (b_y1 e) p0 (b_p1 e) (b_frac e) (b_ofs e + s_rows acts))
  else
    do p1 <- ewBinarize k (b_frac e) (deform_like (b_p1 e) y) y;
    do d1 <- s_data p1;
    do ret <- vCountSame d1 (m_data p0m) 0 (numel p0m);
    Some (ret, mkBev (b_y0 e) (b_y1 e) p0 p1 (b_frac e) (b_ofs e)).

(** 189-192 *)
Definition bev_total (y : smx B) : nat := s_numel y.

(** ** eval_classification_one_hot_cached, nnet_evaluator.h:201-325 *)
Record hev := mkHev {
  h_y0 : list nat; h_y1 : list nat;     (* m_ydataClassIdxs *)
  h_p0 : list nat; h_p1 : list nat;     (* m_predictionClassOrYDataIdxs *)
  h_ofs : nat }.

(** std::vector::resize: new elements are zeros *)
Definition vresize (l : list nat) (n : nat) : list nat := firstn n l ++ repeat 0 (n - length l).

(** 267-280 *)
Definition maxYOfDataset (ims : nat -> imath) (ks : nat -> mth) (ibs : nat) S t (id : nat) (dest : list nat)
  : option (tds * list nat) :=
  do (maxBatches, t) <- walk_over_set oneA S t id ibs (-1)%Z 1;
  do (t, _, dest) <- for_loop 0 maxBatches (fun bi '(t, rOfs, dest) =>
    do t <- next_subset oneA (ims bi) S t bi;
    do y <- batchY S t;
    do dest <- mrwIdxsOfMax_at (ks bi) y dest rOfs;
    Some (t, rOfs + s_rows y, dest)) (t, 0, dest);
  Some (t, dest).

(** 227-264; an exception while resizing is [mem] = false *)
Definition hev_init (mem : bool) (ims : nat -> nat -> imath) (ks : nat -> nat -> mth)
  (ibs maxBS nsets : nat) S t (e : hev) : option (bool * tds * hev) :=
  do n0 <- dataset_samples_count S 0; do n1 <- dataset_samples_count S 1;
  if (max_vec_len <? Z.of_nat (Nat.max n0 n1))%Z then Some (false, t, e)
  else if negb mem then Some (false, t, mkHev [] [] [] [] (h_ofs e))
  else
    let y0 := vresize (h_y0 e) n0 in let y1 := vresize (h_y1 e) n1 in
    let p0 := vresize (h_p0 e) maxBS in let p1 := if 2 <? nsets then vresize (h_p1 e) maxBS else h_p1 e in
    do (t, y0) <- maxYOfDataset (ims 0) (ks 0) ibs S t 0 y0;
    do (t, y1) <- maxYOfDataset (ims 1) (ks 1) ibs S t 1 y1;
    Some (true, t, mkHev y0 y1 p0 p1 (h_ofs e)).

(** 291-294 *)
Definition hev_prepare (e : hev) : hev := mkHev (h_y0 e) (h_y1 e) (h_p0 e) (h_p1 e) 0.

(** 297-319 *)
Definition hev_correct k (e : hev) (id : nat) (y acts : smx B) : option (nat * hev) :=
  do p0 <- mrwIdxsOfMax_at k acts (vresize (h_p0 e) (s_rows acts)) 0;
  if id <=? 1 then
    do ret <- vCountSame (if id =? 0 then h_y0 e else h_y1 e) p0 (h_ofs e) (length p0);
    Some (ret, mkHev (h_y0 e) (h_y1 e) p0 (h_p1 e) (h_ofs e + s_rows acts))
  else
    do p1 <- mrwIdxsOfMax_at k y (vresize (h_p1 e) (s_rows y)) 0;
    do ret <- vCountSame p1 p0 0 (length p0);
    Some (ret, mkHev (h_y0 e) (h_y1 e) p0 p1 (h_ofs e)).

(** 321-324 *)
Definition hev_total (y : smx B) : nat := s_rows y.
End E.

(** ** training_observer_stdcout, training_observer.h:166-307, for an evaluator *)
Section O.
Context {B Ev : Type} (prepare : Ev -> Ev) (total : smx B -> nat)
        (correct : mth B -> Ev -> nat -> smx B -> smx B -> option (nat * Ev)).

Record tobs := mkObs {
  o_res : list (nat * nat);      (* m_classifRes: totalElements, correctlyClassif *)
  o_cur : nat;                   (* m_curDataSetId *)
  o_ev : Ev }.                   (* m_evaluator *)

(** 233-240 *)
Definition report_results_begin (o : tobs) (id : nat) : option tobs :=
  do r <- bset (o_res o) id (0, 0);
  Some (mkObs r id (prepare (o_ev o))).
(** 242-252 *)
Definition report_results (k : mth B) (o : tobs) (acts y : smx B) : option tobs :=
  do (tot, cor) <- bget (o_res o) (o_cur o);
  let tot := tot + total y in
  do (c, ev) <- correct k (o_ev o) (o_cur o) y acts;
  do r <- bset (o_res o) (o_cur o) (tot, cor + c);
  Some (mkObs r (o_cur o) ev).
(** nnet.h:264-301 calcLossAndReport as far as the observer and the training data take
    part; [net bi x]: the activations of the output layer after batch bi *)
Definition report_walk {A} (oneA : A) (ims : nat -> imath A B) (ks : nat -> mth B) (net : nat -> smx A -> option (smx B))
  (ibs : nat) (S : sets A B) (t : tds A B) (o : tobs) (id : nat) : option (tds A B * tobs) :=
  do (batchesCnt, t) <- walk_over_set oneA S t id ibs (-1)%Z 0;
  do o <- report_results_begin o id;
  for_loop 0 batchesCnt (fun bi '(t, o) =>
    do t <- next_subset oneA (ims bi) S t bi;
    do x <- batchX S t; do y <- batchY S t;
    do acts <- net bi x;
    do o <- report_results (ks bi) o acts y;
    Some (t, o)) (t, o).
(** The same for batches [batches] of a supplementary data set. *)
Definition report_set (o : tobs) (id : nat) (batches : list (mth B * smx B * smx B)) : option tobs :=
  do o <- report_results_begin o id;
  fold_left (fun oo '(k, acts, y) => do o <- oo; report_results k o acts y) batches (Some o).
End O.
Arguments mkObs {Ev}. Arguments o_res {Ev}. Arguments o_cur {Ev}. Arguments o_ev {Ev}.
