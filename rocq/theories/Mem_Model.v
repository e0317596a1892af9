(** Shared temporary memory: layer_init (announcements) and initMem of the layers,
    nntl/nnet.h _full_init, _totalTrainingMemSize, _processTmpStor,
    nntl/layer/_init_layers.h, nntl/layers.h.

    Offsets are in elements from the start of m_pTmpStor.  Violated size assertions are
    [None].  numel_cnt_t does not overflow.  Left out: gated packs; layers never fail to
    initialise; inner layers do not change the batch size. *)
From Verif Require Import Base.
Local Open Scope nat_scope.

(** Fully connected (incoming neurons, neurons, bUpdateWeights), identity, vertical
    pack (lowest layer first), horizontal pack, tiles. *)
Inductive mlayer :=
| MFC (inc n : nat) (upd : bool)
| MI (n : nat)
| MV (ls : mlist)
| MH (inc : nat) (ls : mlist)
| MT (k : nat) (l : mlayer)
with mlist := MNil | MCons (l : mlayer) (ls : mlist).

Fixpoint mneurons (l : mlayer) : nat :=
  match l with MFC _ n _ => n | MI n => n | MV ls => mtop ls | MH _ ls => mtotal ls | MT k l => k * mneurons l end
with mtop (ls : mlist) : nat :=
  match ls with MNil => 0 | MCons l MNil => mneurons l | MCons _ ls => mtop ls end
with mtotal (ls : mlist) : nat := match ls with MNil => 0 | MCons l ls => mneurons l + mtotal ls end.
Fixpoint mincoming (l : mlayer) : nat :=
  match l with MFC inc _ _ => inc | MI n => n
  | MV ls => match ls with MNil => 0 | MCons l _ => mincoming l end
  | MH inc _ => inc | MT k l => k * mincoming l end.

(** _layer_init_data: maxMemFPropRequire, maxMemTrainingRequire, max_dLdA_numel,
    nParamsToLearn *)
Record lid := mkLid { q_f : nat; q_t : nat; q_d : nat; q_p : nat }.
(** aggregate_from, _init_layers.h:362-371 *)
Definition agg (a o : lid) : lid :=
  mkLid (Nat.max (q_f a) (q_f o)) (Nat.max (q_t a) (q_t o)) (Nat.max (q_d a) (q_d o)) (q_p a + q_p o).
Definition no_lid : lid := mkLid 0 0 0 0.

(** the biggest number of incoming neurons of the inner layers, _lph_base.h:331-334 *)
Fixpoint max_inc (ls : mlist) : nat :=
  match ls with MNil => 0 | MCons l ls => Nat.max (mincoming l) (max_inc ls) end.

(** layer_init; [B], [T]: incBS.maxBS and incBS.maxTrainBS; training is possible iff
    0 < T.  fully_connected.h:366-381, identity.h, pack_vertical.h:197-226,
    _lph_base.h:295-355, pack_tile.h:224-276 *)
Fixpoint linit (B T : nat) (l : mlayer) : lid :=
  match l with
  | MFC inc n upd =>
      let prms := if upd then n * (inc + 1) else 0 in
      mkLid 0 0 (if 0 <? T then Nat.max (T * n) prms else 0) prms
  | MI _ => no_lid
  | MV ls => linits B T ls
  | MH _ ls =>
      let a := linits B T ls in
      if 0 <? T then
        let cap := Nat.max (q_d a) (T * max_inc ls) in
        mkLid (q_f a + B) (q_t a + (2 * cap + B)) (T * mtotal ls) (q_p a)
      else mkLid (q_f a + B) (q_t a) (q_d a) (q_p a)
  | MT k l =>
      agg (mkLid 0 0 (if 0 <? T then Nat.max (T * (k * mneurons l)) (T * k * mincoming l) else 0) 0) (linit (B * k) (T * k) l)
  end
with linits (B T : nat) (ls : mlist) : lid :=
  match ls with MNil => no_lid | MCons l ls => agg (linit B T l) (linits B T ls) end.
(** m_layers_max_dLdA_numel *)
Definition icap (B T : nat) (ls : mlist) : nat := Nat.max (q_d (linits B T ls)) (T * max_inc ls).

(** What a piece is used for: the saved column of the lower layer's activations, the
    inner dL/dA and dL/dAPrev of a horizontal pack, dL/dW of the output layer, the dL/dA
    matrices of layers.h *)
Inductive use := UBias | UInner | UInnerPrev | UdLdW | UdLdA (i : nat).
(** who (position within the network), what for, offset, number of elements *)
Record piece := mkP { p_who : list nat; p_use : use; p_ofs : nat; p_len : nat }.

(** initMem(ptr, cnt): _lph_base.h:369-386, pack_vertical.h:236-239, pack_tile.h:285-287,
    _layer_base.h:591 *)
Fixpoint initMem (B T : nat) (who : list nat) (ptr cnt : nat) (l : mlayer) : option (list piece) :=
  match l with
  | MFC _ _ _ | MI _ => Some []
  | MV ls => initMems B T who 0 ptr cnt ls
  | MH _ ls =>
      do _ <- guard (B <=? cnt);
      let bias := mkP who UBias ptr B in
      let ptr := ptr + B in let cnt := cnt - B in
      if 0 <? T then
        let cap := icap B T ls in
        do _ <- guard (2 * cap <=? cnt);
        do ps <- initMems B T who 0 (ptr + cap + cap) (cnt - 2 * cap) ls;
        Some (bias :: mkP who UInner ptr cap :: mkP who UInnerPrev (ptr + cap) cap :: ps)
      else do ps <- initMems B T who 0 ptr cnt ls; Some (bias :: ps)
  | MT k l => initMem (B * k) (T * k) (who ++ [0]) ptr cnt l
  end
with initMems (B T : nat) (who : list nat) (i ptr cnt : nat) (ls : mlist) : option (list piece) :=
  match ls with
  | MNil => Some []
  | MCons l ls =>
      do p <- initMem B T (who ++ [i]) ptr cnt l; do ps <- initMems B T who (i + 1) ptr cnt ls; Some (p ++ ps)
  end.

(** A network: the hidden layers and the output layer *)
Record mnet := mkMN { m_hid : mlist; m_oinc : nat; m_on : nat; m_oupd : bool }.

(** output.h:128-140 *)
Definition out_init (T : nat) (x : mnet) : lid :=
  let prms := if m_oupd x then m_on x * (m_oinc x + 1) else 0 in
  mkLid 0 (if (0 <? T) && m_oupd x then prms else 0) 0 prms.
(** output.h:159-166 *)
Definition out_initMem (T : nat) (who : list nat) (ptr cnt : nat) (x : mnet) : option (list piece) :=
  if (0 <? T) && m_oupd x then
    do _ <- guard (m_on x * (m_oinc x + 1) <=? cnt); Some [mkP who UdLdW ptr (m_on x * (m_oinc x + 1))]
  else Some [].

(** layers_mem_requirements: updateLayerReq, _init_layers.h:411-424: maxMemLayerTrainingRequire,
    maxSingledLdANumel, totalParamsToLearn *)
Record lmr := mkR { r_mem : nat; r_dLdA : nat; r_prms : nat }.
Definition upd_req (r : lmr) (q : lid) : lmr :=
  mkR (Nat.max (r_mem r) (Nat.max (q_f q) (q_t q))) (Nat.max (r_dLdA r) (q_d q)) (r_prms r + q_p q).
(** layers.h:235-259; the input layer announces nothing *)
Fixpoint hid_req (B T : nat) (r : lmr) (ls : mlist) : lmr :=
  match ls with MNil => r | MCons l ls => hid_req B T (upd_req r (linit B T l)) ls end.
(** with nnet.h:396 *)
Definition net_req (B T : nat) (x : mnet) : lmr :=
  let r := upd_req (hid_req B T (mkR 0 0 0) (m_hid x)) (out_init T x) in
  if (0 <? T) && (r_dLdA r =? 0) then mkR (r_mem r) 1 (r_prms r) else r.
Fixpoint mlen (ls : mlist) : nat := match ls with MNil => 0 | MCons _ ls => mlen ls + 1 end.

(** nnet.h:417-433; m_a_dLdA has two matrices *)
Definition total_mem (T : nat) (r : lmr) : nat := r_mem r + (if 0 <? T then 2 * r_dLdA r else 0).
(** nnet.h:435-474 with layers.h:268-272: used size and pieces *)
Definition process_tmp (B T : nat) (x : mnet) : option (nat * list piece) :=
  let r := net_req B T x in
  let ps := if 0 <? T then [mkP [] (UdLdA 0) 0 (r_dLdA r); mkP [] (UdLdA 1) (r_dLdA r) (r_dLdA r)] else [] in
  let used := if 0 <? T then r_dLdA r + r_dLdA r else 0 in
  if 0 <? r_mem r then
    do hs <- initMems B T [] 0 used (r_mem r) (m_hid x);
    do os <- out_initMem T [mlen (m_hid x)] used (r_mem r) x;
    Some (used + r_mem r, ps ++ hs ++ os)
  else Some (used, ps).
(** nnet.h:389-413, fp and tb as in common_nn_data: the storage and its pieces *)
Definition full_init_mem (fp tb : nat) (x : mnet) : option (nat * nat * list piece) :=
  let B := Nat.max tb fp in
  do (used, ps) <- process_tmp B tb x;
  Some (total_mem tb (net_req B tb x), used, ps).
