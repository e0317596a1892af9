(** Model of the small utility classes: nntl/utils/vector_conditions.h,
    nntl/utils/epochs_props.h, nntl/utils/bwlist.h, nntl/utils/confusion_mtx.h
    and the batch size setters of nntl/nnet_train_opts.h.

    [None] is undefined behaviour (an access outside of the vector, signed
    overflow, a loop which never ends) or, where stated, a call of
    [std::terminate]. *)
From Verif Require Import Base.
From Coq Require Import Reals.
Local Open Scope Z_scope.

(** ** [std::vector<bool>] with a signed index: [m_flgEvalPerf[i]],
    vector_conditions.h:82, 84, 87. *)
Definition zget {A} (v : list A) (i : Z) : option A :=
  if i <? 0 then None else bget v (Z.to_nat i).

Definition zset {A} (v : list A) (i : Z) (b : A) : option (list A) :=
  if i <? 0 then None else bset v (Z.to_nat i) b.

(** *** [vector_conditions::set(beg, end, stride, v)], vector_conditions.h:85-89:
    [for (i = beg - 1; i < end; i += stride) flg[i] = v].  The loop performs at
    most [end - beg + 1] steps when [stride >= 1]; running out of [fuel] is a loop
    which does not end. *)
Fixpoint stride_loop (fuel : nat) (i en stride : Z) (b : bool) (v : list bool)
  : option (list bool) :=
  if i <? en then
    match fuel with
    | O => None
    | S fuel' =>
        do v' <- zset v i b;
        stride_loop fuel' (i + stride) en stride b v'
    end
  else Some v.

Definition vc_set_range (beg en stride : Z) (b : bool) (v : list bool) :=
  stride_loop (Z.to_nat (en - (beg - 1))) (beg - 1) en stride b v.

(** vector_conditions.h:84 *)
Definition vc_set (i : Z) (b : bool) (v : list bool) := zset v i b.

(** vector_conditions.h:53-56: [vector_conditions(maxEpoch, defVal)].  A
    non-positive [maxEpoch] is excluded by the assertion; the vector is empty
    then (a negative one throws, not modelled) and the access is outside. *)
Definition vc_ctor_def (maxEpoch : Z) (defVal : bool) : option (list bool) :=
  vc_set (maxEpoch - 1) true (repeat defVal (Z.to_nat maxEpoch)).

(** vector_conditions.h:57-61: [vector_conditions(maxEpoch, stride)] *)
Definition vc_ctor_stride (maxEpoch stride : Z) : option (list bool) :=
  do v <- vc_set_range stride maxEpoch stride true (repeat false (Z.to_nat maxEpoch));
  vc_set (maxEpoch - 1) true v.

(** vector_conditions.h:62-66: [vector_conditions(maxEpoch, startsAt, stride)] *)
Definition vc_ctor_start (maxEpoch startsAt stride : Z) : option (list bool) :=
  do v <- vc_set_range startsAt maxEpoch stride true (repeat false (Z.to_nat maxEpoch));
  vc_set (maxEpoch - 1) true v.

(** [std::vector::resize(n, b)] as used by vector_conditions.h:74-77 *)
Definition vc_resize (n : Z) (b : bool) (v : list bool) : list bool :=
  firstn (Z.to_nat n) v ++ repeat b (Z.to_nat n - length v)%nat.

(** vector_conditions.h:90-94 and 74-81: the public modifiers. *)
Inductive vc_op :=
| OVerbose (i : Z) | OVerboseR (beg en stride : Z)
| OSilence (i : Z) | OSilenceR (beg en stride : Z)
| OResize (n : Z) (defVal : bool) | OClear.

Definition vc_do (o : vc_op) (v : list bool) : option (list bool) :=
  match o with
  | OVerbose i => vc_set i true v
  | OVerboseR b e s => vc_set_range b e s true v
  | OSilence i => vc_set i false v
  | OSilenceR b e s => vc_set_range b e s false v
  | OResize n b => Some (vc_resize n b v)
  | OClear => Some []
  end.

Fixpoint vc_run (ops : list vc_op) (v : list bool) : option (list bool) :=
  match ops with
  | [] => Some v
  | o :: t => do v' <- vc_do o v; vc_run t v'
  end.

(** vector_conditions.h:82 *)
Definition vc_ask (v : list bool) (e : Z) : option bool := zget v e.

(** *** [epochs_props], epochs_props.h:43-51: [for (i = startsAt; i <= maxEpoch;
    i += stride) flg[i] = true]; the two-argument constructor starts at 0. *)
Definition ep_ctor_start (maxEpoch startsAt stride : Z) : option (list bool) :=
  stride_loop (Z.to_nat (maxEpoch + 1 - startsAt)) startsAt (maxEpoch + 1) stride true
    (repeat false (Z.to_nat maxEpoch)).

Definition ep_ctor_stride (maxEpoch stride : Z) : option (list bool) :=
  ep_ctor_start maxEpoch 0 stride.

(** ** [_bwlist], bwlist.h:41-181 *)
Record bwlist := mkBw {
  bw_cond : list bool;      (* m_dumpLayerCond *)
  bw_types : list Z;        (* m_layerTypes *)
  bw_idxs : list Z;         (* m_layerIdxs *)
  bw_white : bool }.        (* m_bWhiteList *)

(** bwlist.h:124-133: setMode(b) = resetLists() with the new mode *)
Definition bw_setMode (b : bool) (w : bwlist) : bwlist := mkBw [] [] [] b.

(** bwlist.h:124-129 *)
Definition bw_resetLists (w : bwlist) : bwlist := mkBw [] [] [] (bw_white w).

(** bwlist.h:82-95: _checksetWhitelist / _checksetBlacklist *)
Definition bw_checkset (b : bool) (w : bwlist) : bwlist :=
  if Bool.eqb (bw_white w) b then w else bw_setMode b w.

(** bwlist.h:58-65 *)
Definition bw_addType (t : Z) (w : bwlist) : bwlist :=
  mkBw (bw_cond w) (bw_types w ++ [t]) (bw_idxs w) (bw_white w).
Definition bw_addIdx (i : Z) (w : bwlist) : bwlist :=
  mkBw (bw_cond w) (bw_types w) (bw_idxs w ++ [i]) (bw_white w).

(** bwlist.h:67-80: whole lists replace the stored ones *)
Definition bw_setTypes (ts : list Z) (w : bwlist) : bwlist :=
  mkBw (bw_cond w) ts (bw_idxs w) (bw_white w).
Definition bw_setIdxs (is : list Z) (w : bwlist) : bwlist :=
  mkBw (bw_cond w) (bw_types w) is (bw_white w).

(** bwlist.h:140-180: [whitelist(...)] is [white = true], [blacklist(...)] is
    [white = false]. *)
Inductive bw_op :=
| BListType (white : bool) (t : Z) | BListIdx (white : bool) (i : Z)
| BListTypes (white : bool) (ts : list Z) | BListIdxs (white : bool) (is : list Z)
| BReset | BMode (white : bool).

Definition bw_do (o : bw_op) (w : bwlist) : bwlist :=
  match o with
  | BListType b t => bw_addType t (bw_checkset b w)
  | BListIdx b i => bw_addIdx i (bw_checkset b w)
  | BListTypes b ts => bw_setTypes ts (bw_checkset b w)
  | BListIdxs b is => bw_setIdxs is (bw_checkset b w)
  | BReset => bw_resetLists w
  | BMode b => bw_setMode b w
  end.

(** bwlist.h:122 *)
Definition bw_ctor (white : bool) : bwlist := mkBw [] [] [] white.

(** bwlist.h:98-101 *)
Definition bw_init (total : Z) (w : bwlist) : bwlist :=
  mkBw (vc_resize total (negb (bw_white w)) []) (bw_types w) (bw_idxs w) (bw_white w).

(** bwlist.h:102-114 *)
Definition bw_updateLayer (lIdx ty : Z) (w : bwlist) : option bwlist :=
  if (existsb (fun e => e =? ty) (bw_types w) || existsb (fun e => e =? lIdx) (bw_idxs w))%bool
  then
    do c <- vc_set lIdx (bw_white w) (bw_cond w);
    Some (mkBw c (bw_types w) (bw_idxs w) (bw_white w))
  else Some w.

(** inspectors/dumper.h:403-428: [init_nnet] calls [_bwlist_init] with the number of
    layers, then [init_layer] calls [_bwlist_updateLayer] for each of them. *)
Fixpoint bw_updateAll (ls : list (Z * Z)) (w : bwlist) : option bwlist :=
  match ls with
  | [] => Some w
  | (i, ty) :: t => do w' <- bw_updateLayer i ty w; bw_updateAll t w'
  end.

Definition bw_session (total : Z) (ls : list (Z * Z)) (w : bwlist) : option bwlist :=
  bw_updateAll ls (bw_init total w).

(** bwlist.h:116-118 *)
Definition bw_allowed (w : bwlist) (lIdx : Z) : option bool := vc_ask (bw_cond w) lIdx.

(** ** [ConfusionMtx], confusion_mtx.h:43-159.

    [vec_len_t] is a 32 bit signed integer: every arithmetic result is checked to
    fit ([i32]); signed overflow is undefined. *)
Definition i32 (x : Z) : option Z :=
  if (- 2 ^ 31 <=? x) && (x <? 2 ^ 31) then Some x else None.

(** confusion_mtx.h:48-56: [m_asArray]; [None] cells are not initialised (the
    constructor, 134, leaves the array as it is). *)
Definition cmtx := list (option Z).
Definition cm_ctor : cmtx := [None; None; None; None].

(** confusion_mtx.h:137-139 *)
Definition cm_clear (m : cmtx) : cmtx := map (fun _ => Some 0) m.

Definition b2n (b : bool) : nat := if b then 1%nat else 0%nat.

(** confusion_mtx.h:59-61: [++m_asArray[pred * 2 + truth]] *)
Definition cm_update (truth pred : bool) (m : cmtx) : option cmtx :=
  let k := (b2n pred * 2 + b2n truth)%nat in
  do c <- bget m k;
  do x <- c;
  do y <- i32 (x + 1);
  bset m k (Some y).

Fixpoint cm_updates (l : list (bool * bool)) (m : cmtx) : option cmtx :=
  match l with
  | [] => Some m
  | (t, p) :: l' => do m' <- cm_update t p m; cm_updates l' m'
  end.

(** The named counters, confusion_mtx.h:48-53, 63-82. *)
Definition cm_cell (k : nat) (m : cmtx) : option Z := do c <- bget m k; c.
Definition cm_TN := cm_cell 0.
Definition cm_FN := cm_cell 1.
Definition cm_FP := cm_cell 2.
Definition cm_TP := cm_cell 3.

Definition i32_add (a b : option Z) : option Z := do x <- a; do y <- b; i32 (x + y).
Definition i32_sub (a b : option Z) : option Z := do x <- a; do y <- b; i32 (x - y).
Definition i32_mul (a b : option Z) : option Z := do x <- a; do y <- b; i32 (x * y).

(** confusion_mtx.h:84-90 *)
Definition cm_TotalPos m := i32_add (cm_TP m) (cm_FP m).
Definition cm_TotalNeg m := i32_add (cm_TN m) (cm_FN m).
Definition cm_DataPos m := i32_add (cm_TP m) (cm_FN m).
Definition cm_DataNeg m := i32_add (cm_TN m) (cm_FP m).
Definition cm_All (m : cmtx) : option Z := fold_left i32_add m (Some 0).

(** confusion_mtx.h:147-152 *)
Definition cm_plus (m r : cmtx) : option cmtx :=
  for_loop 0 (length m) (fun i a =>
    do x <- bget a i;
    do y <- bget r i;
    do z <- i32_add x y;
    bset a i (Some z)) m.

(** confusion_mtx.h:153-157: reduce(pCM, cnt); [ms] is the array [pCM[0..cnt)]. *)
Fixpoint cm_pluses (m : cmtx) (ms : list cmtx) : option cmtx :=
  match ms with
  | [] => Some m
  | r :: t => do m' <- cm_plus m r; cm_pluses m' t
  end.

Definition cm_reduce (ms : list cmtx) : option cmtx :=
  match ms with
  | [] => None
  | m :: t => cm_pluses m t
  end.

(** *** The scores, confusion_mtx.h:93-129, over the reals; a division by the
    number zero is [None] (NaN or infinity in the code). *)
Definition rdiv (a b : option Z) : option R :=
  do x <- a; do y <- b; if y =? 0 then None else Some (IZR x / IZR y)%R.

Definition cm_Sensitivity m := rdiv (cm_TP m) (cm_DataPos m).
Definition cm_Specificity m := rdiv (cm_TN m) (cm_DataNeg m).
Definition cm_Precision m := rdiv (cm_TP m) (cm_TotalPos m).
Definition cm_NPV m := rdiv (cm_TN m) (cm_TotalNeg m).
Definition cm_Accuracy m := rdiv (i32_add (cm_TP m) (cm_TN m)) (cm_All m).
Definition cm_Informedness m :=
  do a <- cm_Sensitivity m; do b <- cm_Specificity m; Some (a + b - 1)%R.
Definition cm_Markedness m :=
  do a <- cm_Precision m; do b <- cm_NPV m; Some (a + b - 1)%R.
Definition cm_Jaccard m :=
  rdiv (cm_TP m) (i32_add (i32_add (cm_TP m) (cm_FP m)) (cm_FN m)).
Definition cm_F1 m :=
  let tp2 := i32_mul (Some 2) (cm_TP m) in
  rdiv tp2 (i32_add (i32_add tp2 (cm_FP m)) (cm_FN m)).

(** confusion_mtx.h:110-113.  [den] has the type [vec_len_t]. *)
Definition cm_MCC (m : cmtx) : option R :=
  let TP := cm_TP m in let FP := cm_FP m in let TN := cm_TN m in let FN := cm_FN m in
  do den <- i32_mul (i32_mul (i32_mul (i32_add TP FP) (i32_add TP FN)) (i32_add TN FP))
                    (i32_add TN FN);
  if den =? 0 then Some 0%R
  else
    do num <- i32_sub (i32_mul TP TN) (i32_mul FP FN);
    Some (IZR num / sqrt (IZR den))%R.

(** ** [nnet_train_opts]: batch sizes, nnet_train_opts.h:176-188, 201-213.  [None]:
    an exception leaves a [noexcept] function, the process is terminated. *)
Record topts := mkTo { to_batch : Z; to_fprop : Z }.
Definition to_ctor : topts := mkTo 0 0.

Definition to_setBatch (v : Z) (o : topts) : option topts :=
  if (v <? 0) || (negb (to_fprop o =? 0) && (v >? to_fprop o)) then None
  else Some (mkTo v (to_fprop o)).

Definition to_setFprop (v : Z) (o : topts) : option topts :=
  if (v <? 0) || ((v >? 0) && (0 =? to_batch o)) || ((v >? 0) && (v <? to_batch o)) then None
  else Some (mkTo (to_batch o) v).

Inductive to_op := TBatch (v : Z) | TFprop (v : Z).
Definition to_do (p : to_op) (o : topts) : option topts :=
  match p with TBatch v => to_setBatch v o | TFprop v => to_setFprop v o end.

Fixpoint to_run (ps : list to_op) (o : topts) : option topts :=
  match ps with
  | [] => Some o
  | p :: t => do o' <- to_do p o; to_run t o'
  end.
