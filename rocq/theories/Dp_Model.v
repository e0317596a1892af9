(** The inspector that dumps a training into Matlab files.
    nntl/interface/inspectors/dumper.h, nntl/utils/layer_idx_keeper.h; the calls a training
    makes: nntl/nnet.h.  The archive is that of [Mf_Model], the lists of layers and the flags of
    epochs are those of [Util_Model].

    Not modelled: opening a file that cannot be opened (all the calls of Matlab's library
    succeed), the directory, messages, values other than numbers and matrices.  A file name is
    kept as the numbers printed into it.  [None]: undefined behaviour, an exception thrown out of
    a noexcept function, or the call of abort() in _epic_fail. *)
From Coq Require Import String List.
From Verif Require Import Base Smx_Model Util_Model Mf_Model.
Import ListNotations.
Local Open Scope Z_scope.

(** ** What is to be dumped: dumper.h:40-168 *)
Inductive kind := EpochNum | EpochNumWLastBatch | EpochNumWFirstNLastBatch
                | CalcErrByEpochNum | CalcErrOnlyByEpochNum | FirstBatches.

(** m_epochsToDump, m_dumpEpochCond, lastEpoch, lastBatch, bDumpInitialErr;
    m_firstNBatches or maxBatches, m_firstNBatchesStride or stride *)
Record cond := mkC {
  c_epochs : list Z; c_flags : list bool; c_lastE : Z; c_lastB : Z; c_init : bool;
  c_n : Z; c_stride : Z }.

Definition before_start : Z := -1.                                   (* 42 idx_before_start *)
Definition train_set : Z := 0.

(** dumper.h:60-64 *)
Fixpoint mark (tot : Z) (l : list Z) (v : list bool) : option (list bool) :=
  match l with
  | [] => Some v
  | e :: l' => do v' <- (if e <? tot then vc_set e true v else vc_set (tot - 1) true v); mark tot l' v'
  end.
(** dumper.h:54-65 EpochNum::on_init_nnet *)
Definition epoch_init (tot : Z) (c : cond) : option cond :=
  let eps := match c_epochs c with [] => [tot - 1] | l => l end in
  do v <- mark tot eps (vc_resize tot false []);
  Some (mkC eps v (c_lastE c) (c_lastB c) (c_init c) (c_n c) (c_stride c)).
(** on_init_nnet of each: 54-65, 85-90, 123-128, 149-159 *)
Definition cond_init (k : kind) (tot : Z) (c : cond) : option cond :=
  match k with
  | EpochNum => epoch_init tot c
  | EpochNumWLastBatch | EpochNumWFirstNLastBatch =>
      epoch_init tot (mkC (c_epochs c) (c_flags c) (tot - 1) (-1) (c_init c) (c_n c) (c_stride c))
  | CalcErrByEpochNum | CalcErrOnlyByEpochNum =>
      do c' <- epoch_init tot c;
      Some (mkC (c_epochs c') (c_flags c') (c_lastE c') (c_lastB c')
                (existsb (fun v => v =? before_start) (c_epochs c')) (c_n c') (c_stride c'))
  | FirstBatches =>
      if c_n c =? 0 then None
      else Some (mkC (c_epochs c) (c_flags c) (c_lastE c) (c_lastB c) (c_init c) (c_n c)
                     (if c_stride c =? 0 then 1 else c_stride c))
  end.
(** on_train_epochBegin: 67-71, 92-96, 137-138, 161 *)
Definition cond_epoch (k : kind) (e nb : Z) (c : cond) : option (bool * cond) :=
  match k with
  | EpochNum | CalcErrByEpochNum => do b <- vc_ask (c_flags c) e; Some (b, c)
  | EpochNumWLastBatch | EpochNumWFirstNLastBatch =>
      do b <- vc_ask (c_flags c) e;
      Some (b, mkC (c_epochs c) (c_flags c) (c_lastE c) (nb - 1) (c_init c) (c_n c) (c_stride c))
  | CalcErrOnlyByEpochNum => Some (false, c)
  | FirstBatches => Some (true, c)
  end.
(** on_train_batchBegin: 72-74, 97-99, 110-114, 139-140, 162-164 *)
Definition last_batch (b e : Z) (c : cond) : option bool :=
  do f <- vc_ask (c_flags c) e;
  Some (f && (if e =? c_lastE c then b =? c_lastB c else 0 =? b)).
Definition cond_batch (k : kind) (b e : Z) (c : cond) : option bool :=
  match k with
  | EpochNum | CalcErrByEpochNum => if 0 =? b then vc_ask (c_flags c) e else Some false
  | EpochNumWLastBatch => last_batch b e c
  | EpochNumWFirstNLastBatch =>
      if 0 =? e then Some ((b <? c_n c) && ((0 =? b) || (c_stride c <=? 1) || (0 =? Z.rem b (c_stride c))))
      else last_batch b e c
  | CalcErrOnlyByEpochNum => Some false
  | FirstBatches => Some ((b <? c_n c) && (Z.rem b (c_stride c) =? 0))
  end.
(** on_calcErr: 75, 130-132, 165 *)
Definition cond_err (k : kind) (e ds : Z) (c : cond) : option bool :=
  match k with
  | CalcErrByEpochNum | CalcErrOnlyByEpochNum =>
      if ds =? train_set then (if e =? before_start then Some (c_init c) else vc_ask (c_flags c) e)
      else Some false
  | _ => Some false
  end.

(** ** The inspector *)

(** The name of a file, 308-320: ep<E>_<b>_f.mat, ep<E>_<b>_b.mat, ep<E>_err_<set>.mat *)
Inductive fname := FFwd (E b : Z) | FBwd (E b : Z) | FErr (E ds : Z).

(** m_condDump, m_layerNames, the lists, m_epochIdx, m_batchIdx, m_curLayer (top first),
    m_bInspectorIsActive, m_bDoDump, the archive and the name of its file, and the files closed
    so far *)
Record st := mkS {
  d_cond : cond; d_names : list string; d_bw : bwlist; d_ep : Z; d_bt : Z; d_stk : list Z;
  d_on : bool; d_do : bool; d_ar : ar; d_fn : option fname; d_files : list (fname * fields) }.
Definition set_cond s c := mkS c (d_names s) (d_bw s) (d_ep s) (d_bt s) (d_stk s) (d_on s) (d_do s) (d_ar s) (d_fn s) (d_files s).
Definition set_bw s w := mkS (d_cond s) (d_names s) w (d_ep s) (d_bt s) (d_stk s) (d_on s) (d_do s) (d_ar s) (d_fn s) (d_files s).
Definition set_names s n := mkS (d_cond s) n (d_bw s) (d_ep s) (d_bt s) (d_stk s) (d_on s) (d_do s) (d_ar s) (d_fn s) (d_files s).
Definition set_ep s e := mkS (d_cond s) (d_names s) (d_bw s) e (d_bt s) (d_stk s) (d_on s) (d_do s) (d_ar s) (d_fn s) (d_files s).
Definition set_bt s b := mkS (d_cond s) (d_names s) (d_bw s) (d_ep s) b (d_stk s) (d_on s) (d_do s) (d_ar s) (d_fn s) (d_files s).
Definition set_stk s k := mkS (d_cond s) (d_names s) (d_bw s) (d_ep s) (d_bt s) k (d_on s) (d_do s) (d_ar s) (d_fn s) (d_files s).
Definition set_on s b := mkS (d_cond s) (d_names s) (d_bw s) (d_ep s) (d_bt s) (d_stk s) b (d_do s) (d_ar s) (d_fn s) (d_files s).
Definition set_do s b := mkS (d_cond s) (d_names s) (d_bw s) (d_ep s) (d_bt s) (d_stk s) (d_on s) b (d_ar s) (d_fn s) (d_files s).
Definition set_ar s a := mkS (d_cond s) (d_names s) (d_bw s) (d_ep s) (d_bt s) (d_stk s) (d_on s) (d_do s) a (d_fn s) (d_files s).
Definition set_out s a n f := mkS (d_cond s) (d_names s) (d_bw s) (d_ep s) (d_bt s) (d_stk s) (d_on s) (d_do s) a n f.

(** Every call of Matlab's library succeeds *)
Definition lib : nat -> bool := fun _ => true.

(** 334-339 _open_archive; matfile.h:254-286 with UpdateDelete *)
Definition open_archive (n : fname) s : option st :=
  if a_open (d_ar s) then None else Some (set_out s (opened true []) (Some n) (d_files s)).
(** 340-343 _close_archive; an archive that is not open has no file to close *)
Definition close_archive s : option st :=
  let '(ec, a) := close lib (d_ar s) in
  if is_ok ec then
    match a_open (d_ar s), d_fn s with
    | true, Some n => Some (set_out s a None (d_files s ++ [(n, a_file a)]))
    | _, _ => Some (set_ar s a)
    end
  else None.

(** 373-376 bDoDump *)
Definition do_dump s : bool := d_on s && d_do s.
Definition do_dump_l s (l : Z) : option bool := if do_dump s then bw_allowed (d_bw s) l else Some false.

(** layer_idx_keeper.h:74-76, 88-95; _i_inspector.h:79: layer_index_t(-1) of 16 bits *)
Definition no_layer : Z := 65535.
Definition cur s : Z := match d_stk s with [] => no_layer | l :: _ => l end.
Definition upper_diff s : bool := match d_stk s with a :: b :: _ => negb (a =? b) | _ => true end.

(** 273-276 _layer_name *)
Definition layer_name s : option string :=
  match zget (d_names s) (cur s) with Some n => Some n | None => Some "_NoName"%string end.

(** ar & make_nvp(n, v), then _check_err *)
Definition save (n : string) (v : value) s : option st :=
  do a <- save_item lib (INvp n v) (d_ar s);
  if is_ok (a_err a) then Some (set_ar s a) else None.
Definition str_begin (n : string) s : option st :=
  let '(ec, a) := struct_begin lib n false true (d_ar s) in
  if is_ok ec then Some (set_ar s a) else None.
Definition str_end s : option st :=
  do (ec, a) <- struct_end lib (d_ar s);
  if is_ok ec then Some (set_ar s a) else None.

(** What the layers tell the inspector during a pass: values of the current layer (inspect(),
    479-487; fprop_makePreActivations, bprop_dLdZ, apply_grad_begin and the others, 551-657) and
    the begin and the end of a layer, with the value passed to them *)
Inductive call := Note (n : string) (v : value) | Layer (l : Z) (vin vout : value) (body : calls)
with calls := cnil | ccons (c : call) (l : calls).

(** 491-498, 504-507 fprop_begin, bprop_begin; 536-541, 578-586 on_fprop_begin, on_bprop_begin *)
Definition layer_begin (fwd : bool) (l : Z) (vin : value) s : option st :=
  let s := set_stk s (l :: d_stk s) in
  do b <- do_dump_l s l;
  if b && upper_diff s then
    do n <- layer_name s;
    do s <- str_begin n s;
    if fwd then Some s else save "dLdA"%string vin s
  else Some s.
(** 499-502, 508-511 fprop_end, bprop_end; 542-549, 587-591 on_fprop_end, on_bprop_end *)
Definition layer_end (fwd : bool) (vout : value) s : option st :=
  do b <- do_dump_l s (cur s);
  do s <- (if b && upper_diff s then
             do s <- (if fwd then save "A"%string vout s else Some s);
             str_end s
           else Some s);
  match d_stk s with [] => None | _ :: k => Some (set_stk s k) end.

Fixpoint run_call (fwd : bool) (c : call) s : option st :=
  match c with
  | Note n v => do b <- do_dump_l s (cur s); if b then save n v s else Some s
  | Layer l vin vout body =>
      do s <- layer_begin fwd l vin s;
      do s <- run_calls fwd body s;
      layer_end fwd vout s
  end
with run_calls (fwd : bool) (l : calls) s : option st :=
  match l with
  | cnil => Some s
  | ccons c l' => do s <- run_call fwd c s; run_calls fwd l' s
  end.

(** ** The notifications of a network *)
Inductive cmd :=
| InitNnet (layers tot : Z) | InitLayer (l : Z) (name : string) (ty : Z)
| EpochBegin (e nb : Z) | BatchBegin (b : Z) | PreBprop | BatchEnd
| PreCalcError (ds : Z) | PostCalcError
| Pass (fwd : bool) (l : calls) | Turn (b : bool).

Section K.
Context (k : kind).
Definition run_cmd (c : cmd) s : option st :=
  match c with
  | InitNnet layers tot =>                                          (* 403-421 init_nnet *)
      do c <- cond_init k tot (d_cond s);
      Some (mkS c (repeat ""%string (Z.to_nat layers)) (bw_init layers (d_bw s)) before_start before_start
                (d_stk s) (d_on s) false (d_ar s) (d_fn s) (d_files s))
  | InitLayer l name ty =>                                          (* 423-428 init_layer *)
      do n <- zset (d_names s) l name;
      do w <- bw_updateLayer l ty (d_bw s);
      Some (set_bw (set_names s n) w)
  | EpochBegin e nb =>                                              (* 430-433 *)
      do (b, c) <- cond_epoch k e nb (d_cond s);
      Some (set_do (set_cond (set_ep s e) c) b)
  | BatchBegin b =>                                                 (* 434-442 *)
      do w <- cond_batch k b (d_ep s) (d_cond s);
      let s := set_do s w in
      if do_dump s then open_archive (FFwd (d_ep s + 1) b) (set_bt s b) else Some s
  | PreBprop =>                                                     (* 445-452, bSplitFiles *)
      if do_dump s then do s <- close_archive s; open_archive (FBwd (d_ep s + 1) (d_bt s)) s else Some s
  | BatchEnd | PostCalcError =>                                     (* 454-460, 470-476 *)
      if do_dump s then do s <- close_archive s; Some (set_do s false) else Some s
  | PreCalcError ds =>                                              (* 462-469 *)
      do w <- cond_err k (d_ep s) ds (d_cond s);
      let s := set_do s w in
      if do_dump s then open_archive (FErr (d_ep s + 1) ds) s else Some s
  | Pass fwd l => run_calls fwd l s
  | Turn b => Some (set_on s b)                                     (* 362-371 turn_on, turn_off *)
  end.
Fixpoint run_cmds (l : list cmd) s : option st :=
  match l with [] => Some s | c :: l' => do s <- run_cmd c s; run_cmds l' s end.
End K.

(** ** The notifications made by a training: nnet.h:237-252, 263-301, 581-654 *)

(** A batch: the forward and the backward pass.  A report: the forward passes over the training
    and over the test set.  An epoch: its batches, and the report after it, if any. *)
Definition batch := (calls * calls)%type.
Definition report := (list calls * list calls)%type.
Definition epoch := (list batch * option report)%type.

Definition err_cmds (ds : Z) (l : list calls) : list cmd :=
  PreCalcError ds :: map (Pass true) l ++ [PostCalcError].
Definition report_cmds (r : report) : list cmd := err_cmds 0 (fst r) ++ err_cmds 1 (snd r).
Definition batch_cmds (b : Z) (x : batch) : list cmd :=
  [BatchBegin b; Pass true (fst x); PreBprop; Pass false (snd x); BatchEnd].
Fixpoint batches_cmds (b : Z) (l : list batch) : list cmd :=
  match l with [] => [] | x :: l' => batch_cmds b x ++ batches_cmds (b + 1) l' end.
Definition epoch_cmds (e : Z) (x : epoch) : list cmd :=
  EpochBegin e (Z.of_nat (length (fst x))) :: batches_cmds 0 (fst x)
  ++ match snd x with Some r => report_cmds r | None => [] end.
Fixpoint epochs_cmds (e : Z) (l : list epoch) : list cmd :=
  match l with [] => [] | x :: l' => epoch_cmds e x ++ epochs_cmds (e + 1) l' end.

(** [ls]: the layers that announce themselves when the network is initialized; a network that
    already is is not initialized again (nnet.h:360-365): then there are none *)
Definition train_cmds (layers tot : Z) (ls : list (Z * string * Z)) (r0 : report) (l : list epoch) : list cmd :=
  InitNnet layers tot :: map (fun x => InitLayer (fst (fst x)) (snd (fst x)) (snd x)) ls
  ++ report_cmds r0 ++ epochs_cmds 0 l.

(** A new inspector, 245-251; the fields of conditions that nothing initializes are zeros here *)
Definition ctor (c : cond) (w : bwlist) : st :=
  mkS c [] w before_start before_start [] true false (mkAr false false None [] [] Success [] 0) None [].
