(** Training data made at run time out of stored data:
    nntl/train_data/transf_train_data.h, _td_base.h 49-54, 106-135, 148-263.

    The transformation is a parameter of the code and of the model ([tfun]); it owns the
    matrices of the current batch.  A matrix of a batch is given by the list of its rows
    (samples in rows; the code that normalises supports no other layout).  The element-wise
    kernels that apply a normalisation are those of Nrm_Model ([fix_whole], [fix_cw]); here
    they are applied as functions of the elements, see C92 for the kernels themselves.  The
    elements of x are real numbers.  Sizes that the code takes as int and checks for being
    negative are integers. *)
From Coq Require Import Reals Bool.
From Verif Require Import Base Workers_Model Kern_Model Ew_Model Smx_Model TData_Model Nrm_Model.
Local Open Scope nat_scope.

(** nntl/_nnet_errs.h *)
Inductive tferr := TfSuccess | TfOther | TfTooBigTrainTest | TfTooBigTrain | TfRelation | TfNoMemory.

Section T.
Context {Y FS : Type}.

(** 44-94 _i_td_transformer: [FS] is the state of the transformation.  [f_count]:
    base_dataset_samples_count(), [f_X], [f_Y]: the matrices it lets the pointers to the
    current batch point to.  next_batch() reads the numbers of the samples from a pointer
    into the vector of the caller; here it gets those it may read. *)
Record tfun := mkTF {
  f_sibs : nat; f_count : nat -> nat; f_xw : nat;
  f_deinit : FS -> FS; f_init : nat -> FS -> bool * FS;
  f_epoch : nat -> nat -> FS -> FS;                          (* epochIdx, batch size *)
  f_batch : nat -> list nat -> nat -> FS -> option FS;       (* batchIdx, samples, batch size *)
  f_walk : nat -> nat -> nat -> FS -> FS;                    (* set, batch size, exclude flag *)
  f_next : nat -> nat -> nat -> nat -> nat -> FS -> option FS; (* set, batchIdx, batch size, offset, exclude flag *)
  f_X : FS -> option (list (list R)); f_Y : FS -> option (list Y);
  f_setX : list (list R) -> FS -> FS }.
(** the storage of the base data: empty(), whether both coherence checks hold,
    X(id).batch_size() *)
Record stor := mkSt { st_empty : bool; st_coherent : bool; st_cnt : nat -> nat }.
(** 148-154 NormPrms_t *)
Inductive nprm := NNone | NWhole (s : scd) | NCols (l : list scd).

(** 137-154, _td_base.h 50-54; [d_ptr]: m_pCurBatchX, m_pCurBatchY are set *)
Record td := mkTd { d_idx : list nat; d_fp : nat; d_tb : nat; d_cur : nat; d_walk : option nat; d_ex : nat;
  d_ptr : bool; d_norm : nprm; d_f : FS }.

Context (F : tfun) (st : stor).

(** 182-205; _td_base.h 59: two sets *)
Definition dataset_samples_count (id : nat) : nat := f_sibs F * f_count F id.
Definition base_biggest : nat := fold_left (fun r i => Nat.max r (f_count F i)) (seq 0 2) 0.

(** 216-223, _td_base.h 106-111 *)
Definition deinit4all (t : td) : td := mkTd [] 0 0 0 None (d_ex t) false (d_norm t) (f_deinit F (d_f t)).

(** 226-247 *)
Definition bad_size (n : Z) : bool := (n <? 0)%Z || negb (n mod Z.of_nat (f_sibs F) =? 0)%Z.
Definition base_init_checks (t : td) (mf mt : Z) : tferr * td :=
  if st_empty st || negb (st_coherent st) then (TfOther, t) else
  if bad_size mf then (TfOther, t) else
  if (mt <? 0)%Z || ((0 <? mt)%Z && bad_size mt) then (TfOther, t) else
  (TfSuccess, deinit4all t).

(** 250-255; [bs] = 0: whatever is possible; [None]: false *)
Definition is_initialized4inference (t : td) (bs : nat) : option nat :=
  let tbs := if bs =? 0 then d_fp t else bs in
  if st_empty st || (d_fp t =? 0) || (d_fp t <? tbs) || negb (tbs mod f_sibs F =? 0) then None else Some tbs.

Definition negotiate (asked biggest : nat) : nat := if (asked =? 0) || (biggest <? asked) then biggest else asked.
Definition with_f (t : td) (f : FS) : td := mkTd (d_idx t) (d_fp t) (d_tb t) (d_cur t) (d_walk t) (d_ex t) (d_ptr t) (d_norm t) f.
Definition with_sizes (t : td) (fp tb : nat) (idx : list nat) : td :=
  mkTd idx fp tb (d_cur t) (d_walk t) (d_ex t) (d_ptr t) (d_norm t) (d_f t).

(** 257-280; result: the error, maxFPropSize, the object *)
Definition init4inference (t : td) (mf : Z) : tferr * Z * td :=
  let (e, t) := base_init_checks t mf 0 in
  match e with
  | TfSuccess =>
      let base := negotiate (Z.to_nat mf / f_sibs F) base_biggest in
      let real := base * f_sibs F in
      if (max_vec_len <? Z.of_nat real)%Z then (TfTooBigTrainTest, mf, t) else
      let t := with_sizes t real (d_tb t) (d_idx t) in
      let (ok, f) := f_init F base (d_f t) in
      ((if ok then TfSuccess else TfOther), Z.of_nat real, with_f t f)
  | _ => (e, mf, t)
  end.

(** 282-293; result: fpropBs, trainBs, bMiniBatch *)
Definition is_initialized4train (t : td) (fb tb : nat) : option (nat * nat * bool) :=
  match is_initialized4inference t fb with
  | None => None
  | Some fb =>
      let tbs := if tb =? 0 then d_tb t else tb in
      if (d_tb t =? 0) || (d_tb t <? tbs) || negb (tbs mod f_sibs F =? 0) || (fb <? tbs) then None
      else Some (fb, tbs, tbs / f_sibs F <? f_count F 0)
  end.

(** 295-351; [mem]: the vector of the samples can be allocated; result: the error, both
    sizes, *pbMiniBatch if it is written to *)
Definition init4train (mem : bool) (t : td) (mf mt : Z) : tferr * Z * Z * option bool * td :=
  let (e, t) := base_init_checks t mf mt in
  match e with
  | TfSuccess =>
      let trainCnt := f_count F 0 in
      let baseF := negotiate (Z.to_nat mf / f_sibs F) base_biggest in
      let baseB := negotiate (Z.to_nat mt / f_sibs F) trainCnt in
      if baseF <? baseB then (TfRelation, mf, mt, None, deinit4all t) else
      let mini := Some (baseB <? trainCnt) in
      let realF := baseF * f_sibs F in
      let realB := baseB * f_sibs F in
      if (max_vec_len <? Z.of_nat realF)%Z then (TfTooBigTrainTest, mf, mt, mini, deinit4all t) else
      if (max_vec_len <? Z.of_nat realB)%Z then (TfTooBigTrain, mf, mt, mini, deinit4all t) else
      let t := with_sizes t realF realB (d_idx t) in
      if negb mem then (TfNoMemory, Z.of_nat realF, Z.of_nat realB, mini, deinit4all t) else
      let t := with_sizes t realF realB (seq 0 trainCnt) in
      let (ok, f) := f_init F (Nat.max baseF baseB) (d_f t) in
      let t := with_f t f in
      if ok then (TfSuccess, Z.of_nat realF, Z.of_nat realB, mini, t)
      else (TfOther, Z.of_nat realF, Z.of_nat realB, mini, deinit4all t)
  | _ => (e, mf, mt, None, t)
  end.

(** 366-370, 425-429; [ibs]: cd.input_batch_size() *)
Definition real_batch_size (dflt ibs : nat) (bs : Z) : nat :=
  if (bs <? 0)%Z then dflt else if (bs =? 0)%Z then ibs else Z.to_nat bs.

(** 357-386; [rv]: the answers of the random number generator; division by zero is undefined *)
Definition on_next_epoch (t : td) (e : nat) (rv : nat -> nat) (ibs : nat) (bs : Z) : option (nat * td) :=
  let bs := real_batch_size (d_tb t) ibs bs in
  let cur := bs / f_sibs F in
  do idx <- random_shuffle rv (d_idx t);
  let t := mkTd idx (d_fp t) (d_tb t) cur None (d_ex t) true (d_norm t) (f_epoch F e cur (d_f t)) in
  do _ <- guard (0 <? bs);
  Some (dataset_samples_count 0 / bs, t).

(** _td_base.h 119-120 *)
Definition batchX (t : td) : option (list (list R)) := if d_ptr t then f_X F (d_f t) else None.
Definition batchY (t : td) : option (list Y) := if d_ptr t then f_Y F (d_f t) else None.

(** mtx2Normal.h 188-253 *)
Definition fix_elem (s : scd) (v : R) : R := match fix_fun s with Some f => f v | None => v end.
Fixpoint fix_row (l : list scd) (row : list R) : option (list R) :=
  match l, row with
  | [], [] => Some []
  | s :: l, v :: row => do r <- fix_row l row; Some (fix_elem s v :: r)
  | _, _ => None
  end.
Fixpoint omap {A C} (f : A -> option C) (l : list A) : option (list C) :=
  match l with [] => Some [] | x :: l => do y <- f x; do ys <- omap f l; Some (y :: ys) end.
(** 486-510 *)
Definition normed (n : nprm) (x : list (list R)) : option (list (list R)) :=
  match n with
  | NNone => Some x
  | NWhole s => Some (map (map (fix_elem s)) x)
  | NCols l => omap (fix_row l) x
  end.
Definition apply_normalization (t : td) : option td :=
  match d_norm t with
  | NNone => Some t
  | n => do x <- batchX t; do x <- normed n x; Some (with_f t (f_setX F x (d_f t)))
  end.

(** 387-406 *)
Definition on_next_batch (t : td) (bi : nat) : option td :=
  let offs := bi * d_cur t in
  do _ <- guard (offs + d_cur t <=? length (d_idx t));
  do f <- f_batch F bi (firstn (d_cur t) (skipn offs (d_idx t))) (d_cur t) (d_f t);
  apply_normalization (with_f t f).

(** 416-448 *)
Definition walk_over_set (t : td) (id ibs : nat) (bs : Z) (flag : nat) : option (nat * td) :=
  let bs := real_batch_size (d_fp t) ibs bs in
  let n := dataset_samples_count id in
  let bs := if n <? bs then n else bs in
  let cur := bs / f_sibs F in
  let t := mkTd (d_idx t) (d_fp t) (d_tb t) cur (Some id) flag true (d_norm t) (f_walk F id cur flag (d_f t)) in
  do _ <- guard (0 <? bs);
  Some (n / bs + (if 1 <? n mod bs then 1 else 0), t).

(** 450-482; a batch past the end aborts the program ([None]) *)
Definition next_subset (t : td) (bi : nat) : option td :=
  do id <- d_walk t;
  let size := st_cnt st id in
  let ofs := bi * d_cur t in
  if size <=? ofs then None else
  let bs := if size - ofs <? d_cur t then size - ofs else d_cur t in
  do f <- f_next F id bi bs ofs (d_ex t) (d_f t);
  let t := with_f t f in
  if exclude_dataX (d_ex t) then Some t else apply_normalization t.

(** ** Normalisation *)
Definition with_norm (t : td) (n : nprm) : td := mkTd (d_idx t) (d_fp t) (d_tb t) (d_cur t) (d_walk t) (d_ex t) (d_ptr t) n (d_f t).
(** 517-519 *)
Definition reset_normalization (t : td) : td := with_norm t NNone.
(** mtx2Normal.h 143-161 _upd_all_typed (one type) *)
Definition upd_all (old new : scd) : scd :=
  let s := if bsc new then upd_scale (sc new) old else old in
  if bofs new then upd_ofs (ofs new) s else s.
Fixpoint upd_vec (old new : list scd) : list scd :=
  match old, new with o :: old, n :: new => upd_all o n :: upd_vec old new | _, _ => old end.
(** 532-543 *)
Definition fix_trainX_whole (t : td) (s : scd) : td :=
  with_norm t (match d_norm t with NWhole o => NWhole (upd_all o s) | _ => NWhole s end).
(** 546-564 *)
Definition fix_trainX_cw (t : td) (l : list scd) : td :=
  with_norm t (match d_norm t with NCols o => NCols (upd_vec o l) | _ => NCols l end).

(** mtx2Normal.h 375-380, 470-488, _td_norm.h 104-108 *)
Fixpoint gather {D} (feed : list (list R) -> D -> option D) (t : td) (k n : nat) (d : D) : option (D * td) :=
  match n with
  | 0 => Some (d, t)
  | S n => do t <- next_subset t k; do x <- batchX t; do d <- feed x d; gather feed t (k + 1) n d
  end.
(** all elements; the sums do not depend on their order *)
Definition feed_whole (x : list (list R)) (a : acc) : option acc := Some (acc_all a (concat x)).
(** every column; a row of a different width would be read outside of the matrix *)
Fixpoint feed_cols (x : list (list R)) (c : nat) (a : list acc) : option (list acc) :=
  match a with
  | [] => Some []
  | b :: a => do v <- omap (fun row => bget row c) x; do a' <- feed_cols x (c + 1) a; Some (acc_all b v :: a')
  end.

Context (p : nset) (ibs : nat).
(** _td_norm.h 95-99 *)
Definition prepare (t : td) : option (nat * td) :=
  do (n, t) <- walk_over_set t train_set_id ibs (n_bs p) 2;
  Some (Nat.min n (if n_bc p =? 0 then n else n_bc p), t).
(** _td_norm.h 149-161: the statistics of a single pass.  Without centring the offset is
    the mean as it was measured: with bOffset unset, but kept.  (A mean that is NaN does not
    occur: no batch is empty.) *)
Definition whole_stat (a : acc) : scd :=
  mkSC (factor p a) (if do_central p a then shift p a else match get_central a with Some c => c | None => 0%R end) (do_scale p a) (do_central p a).
(** mtx2Normal.h 359-418 *)
Fixpoint norm_whole (n : nat) (t : td) (s : scd) : option (bool * td * scd) :=
  match n with
  | 0 => Some (false, t, s)
  | S n =>
      do (cnt, t) <- prepare t;
      do (a, t) <- gather feed_whole t 0 cnt acc0;
      if bad_stats p a && n_break p then Some (false, t, s) else
      let ds := do_scale p a in
      let dc := do_central p a in
      let t := if ds || dc then fix_trainX_whole t (whole_stat a) else t in
      let s := upd_stat p a s in
      if (negb ds || near (n_stol p) (n_scale p) (get_scale (n_adj p) a)) &&
         (negb dc || near (n_ctol p) (n_central p) (get_central a))
      then Some (true, t, s)
      else norm_whole n t s
  end.
(** 447-563 *)
Fixpoint norm_cw (n : nat) (t : td) (s : list scd) (ok : list bool) : option (bool * td * list scd) :=
  match n with
  | 0 => Some (false, t, s)
  | S n =>
      do (cnt, t) <- prepare t;
      do (a, t) <- gather (fun x => feed_cols x 0) t 0 cnt (repeat acc0 (f_xw F));
      let '(s, it, ok, all, bad) := norm_cols p a s (repeat scd0 (f_xw F)) ok in
      let t := fix_trainX_cw t it in
      if bad then Some (false, t, s) else
      if all then Some (true, t, s) else norm_cw n t s ok
  end.
(** _td_norm.h 297-341, _td_base.h 200-263, transf_train_data.h 566-576 *)
Definition is_init (t : td) : bool := match is_initialized4inference t (Z.to_nat (n_bs p)) with Some _ => true | None => false end.
Definition normalize_td (t : td) : option (bool * td) :=
  if negb (should_normalize p) then Some (true, t) else
  if negb (is_init t) then Some (false, t) else
  if n_cw p then
    do (r, t, s) <- norm_cw (n_tries p) t (repeat scd0 (f_xw F)) (repeat false (f_xw F));
    if negb r then Some (false, t) else
    if forallb (fun s => negb (bsc s) && negb (bofs s)) s then Some (false, t) else
    Some (true, with_norm t (NCols s))
  else
    do (r, t, s) <- norm_whole (n_tries p) t scd0;
    if negb r then Some (false, t) else
    if negb (bsc s) && negb (bofs s) then Some (false, t) else
    Some (true, with_norm t (NWhole s)).
(** 523-528, _td_base.h 148-177; [mok]: what iMath.init() returns *)
Definition normalize_data (mok : bool) (t : td) : option (bool * td) :=
  let t := reset_normalization t in
  if negb (should_normalize p) then Some (true, t) else
  let init := negb (is_init t) in
  let '(e, t) := if init then let '(e, _, t) := init4inference t (Z.of_nat (Z.to_nat (n_bs p))) in (e, t) else (TfSuccess, t) in
  if init && negb (match e with TfSuccess => mok | _ => false end) then Some (false, t) else
  do (r, t) <- normalize_td t;
  Some (r, if init then deinit4all t else t).
End T.
Arguments tfun : clear implicits.
Arguments td : clear implicits.
