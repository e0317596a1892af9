(** Data-driven initialisation of the weights of a network:
    nntl/weights_init/LsuvExt.h over nntl/utils/mtx2Normal.h, nnet.h 676-718.

    The network is the one of Net_Model.v, the data that of TData_Model.v, the statistics
    those of Nrm_Model.v.  Simplifications: those of these files; weights are present
    (layer_init has made them); the initialisation of the layers for a batch size
    succeeds and changes nothing but memory (C96); the activations a forward propagation
    leaves in the layers are not part of the state, since the next one overwrites them;
    verbose output is left out.  When the memory for the data or the math object can not
    be had, the code throws out of a noexcept function, which terminates the program:
    [None]. *)
From Coq Require Import Reals Bool.
From Verif Require Import Base Act_Model Act_Spec Smx_Model TData_Model Net_Model Net_Spec Nrm_Model Fit_Model.
Local Open Scope nat_scope.

(** LsuvExt.h 57-70 WeightNormSetts: the settings of mtx2Normal (n_cw:
    bOnInvidualNeurons, n_bc: batchCount), batchSize, maxReinitTries, bOverPreActivations *)
Record lset := mkLS { l_n : nset; l_bs : nat; l_re : nat; l_pre : bool }.

(** A layer: identifier of a hidden one, or the output layer *)
Definition lname := option nat.

(** fully connected layers from the lowest one on: the order in which
    for_each_packed_layer visits them (layers.h 190-224, pack_vertical.h 160-164,
    _lph_base.h 181-187, pack_tile.h 212; LsuvExt.h 158-170) *)
Record fc := mkF { f_id : nat; f_act : act; f_inc : nat; f_n : nat; f_W : list R; f_A : list R }.
Fixpoint fcl (l : layer) : list fc :=
  match l with
  | LFC id a inc n W _ A => [mkF id a inc n W A]
  | LI _ _ => []
  | LPV s => sfcl s
  | LPH _ h _ _ => hfcl h
  | LPT _ l _ _ => fcl l
  end
with sfcl (s : stack) : list fc :=
  match s with SOne l => fcl l | SCons l b => sfcl b ++ fcl l end
with hfcl (h : hpack) : list fc :=
  match h with HNil => [] | HCons _ _ l h => fcl l ++ hfcl h end.
Definition nfcl (x : net) : list fc := match n_hid x with None => [] | Some s => sfcl s end.
Definition visited (x : net) : list lname := map (fun f => Some (f_id f)) (nfcl x) ++ [None].
Definition layer_of (q : lname) (x : net) : option fc :=
  match q with
  | None => Some (mkF 0 (outp_act (n_out x)) (n_inc x) (n_n x) (n_W x) (n_A x))
  | Some id => find (fun f => f_id f =? id) (nfcl x)
  end.

(** setIgnoreActivation(true): _activation_wrapper.h 136-143; the output layer computes
    what one without activation computes *)
Fixpoint linear (id : nat) (l : layer) : layer :=
  match l with
  | LFC id' a inc n W G A => LFC id' (if id' =? id then Identity else a) inc n W G A
  | LI n A => LI n A
  | LPV s => LPV (slinear id s)
  | LPH inc h b1 b2 => LPH inc (hlinear id h) b1 b2
  | LPT k l inn A => LPT k (linear id l) inn A
  end
with slinear (id : nat) (s : stack) : stack :=
  match s with SOne l => SOne (linear id l) | SCons l b => SCons (linear id l) (slinear id b) end
with hlinear (id : nat) (h : hpack) : hpack :=
  match h with HNil => HNil | HCons ofs cnt l h => HCons ofs cnt (linear id l) (hlinear id h) end.
Definition ignoring (q : lname) (x : net) : net :=
  match q with
  | None => mkN (n_hid x) IdQuad (n_inc x) (n_n x) (n_W x) (n_G x) (n_A x) (n_buf x)
  | Some id => mkN (option_map (slinear id) (n_hid x)) (n_out x) (n_inc x) (n_n x) (n_W x) (n_G x) (n_A x) (n_buf x)
  end.

(** act_scaling_coeff: _i_activation.h 115, selu.h 74 *)
Definition act_scaling (a : act) : R := match a with Selu _ l => snn_lambda l | _ => 1%R end.

(** the weights of one layer are replaced *)
Definition put_w (q : lname) (u : list R -> list R) (x : net) : net :=
  match q with
  | None => reweight (fun _ W => W) u x
  | Some id => reweight (fun i W => if i =? id then u W else W) (fun W => W) x
  end.

(** LsuvExt.h 300-330, 350-383: the offset for the biases *)
Definition offset (p : nset) (asc : R) (a : acc) : R :=
  match get_central a with Some c => ((n_central p - c) * asc * factor p a)%R | None => 0%R end.
(** 312-328: all weights; the biases are the last column *)
Definition norm_w (p : nset) (asc : R) (a : acc) (n inc : nat) (W : list R) : list R :=
  let W := if do_scale p a then map (fun w => (w * factor p a)%R) W else W in
  if do_central p a then firstn (n * inc) W ++ map (fun w => (w + offset p asc a)%R) (skipn (n * inc) W) else W.
(** 364-388: the weights of neuron [c], every n-th from the c-th on *)
Definition norm_row (p : nset) (asc : R) (a : acc) (n inc c : nat) (W : list R) : list R :=
  let W := if do_scale p a then map (fun k => (nth k W 0 * (if k mod n =? c then factor p a else 1))%R) (seq 0 (length W)) else W in
  if do_central p a then setn (c + n * inc) (nth (c + n * inc) W 0 + offset p asc a)%R W else W.

Section L.
Notation sets := (sets R R). Notation tds := (tds R R). Notation imath := (imath R R).

(** _fprop 262-265, nnet.h 706-714: the activations of the layer *)
Definition look (q : lname) (pre : bool) (x : net) (b : smx R) : option fc :=
  do X <- elems b;
  do x' <- net_fprop (batch_size b) X (if pre then ignoring q x else x);
  layer_of q x'.
(** mtx2Normal.h 376-380 *)
Definition lfeed (q : lname) (pre : bool) (x : net) (b : smx R) (a : acc) : option acc :=
  do f <- look q pre x b; Some (acc_all a (f_A f)).
(** 471-488; the activations have as many rows as there are values per neuron *)
Fixpoint lfeed_cols (A : list R) (rows c : nat) (a : list acc) : option (list acc) :=
  match a with
  | [] => Some []
  | y :: a => do v <- read A (rows * c) rows; do a' <- lfeed_cols A rows (c + 1) a; Some (acc_all y v :: a')
  end.
Definition lfeed_cw (q : lname) (pre : bool) (x : net) (b : smx R) (a : list acc) : option (list acc) :=
  do f <- look q pre x b; lfeed_cols (f_A f) (length (f_A f) / f_n f) 0 a.

(** Inputs of one call to normalize_whole/normalize_cw: settings, layer, whether its
    activation is ignored, act scaling; [imw]: the math object per try and batch *)
Section P.
Context (p : nset) (q : lname) (pre : bool) (asc : R) (n inc : nat) (imw : nat -> nat -> imath) (ibs : nat) (S : sets).

(** mtx2Normal.h 359-418; [k]: tries left, [i]: tryIdx *)
Fixpoint lnorm_whole (k i : nat) (t : tds) (x : net) : option (bool * tds * net) :=
  match k with
  | 0 => Some (false, t, x)
  | Datatypes.S k =>
      do (cnt, t) <- prepare p S t ibs;
      do (a, t) <- gather (lfeed q pre x) (imw i) S t 0 cnt acc0;
      if bad_stats p a && n_break p then Some (false, t, x) else
      let ds := do_scale p a in
      let dc := do_central p a in
      let x := if ds || dc then put_w q (norm_w p asc a n inc) x else x in
      if (negb ds || near (n_stol p) (n_scale p) (get_scale (n_adj p) a)) &&
         (negb dc || near (n_ctol p) (n_central p) (get_central a))
      then Some (true, t, x)
      else lnorm_whole k (i + 1) t x
  end.

(** 497-547: the neurons from [c] on; state: weights, bColumnOk; result: these, whether all
    neurons are treated as good, whether statistics were invalid *)
Fixpoint lnorm_rows (c : nat) (a : list acc) (ok : list bool) (W : list R) : list R * list bool * bool * bool :=
  match a, ok with
  | y :: a, o :: ok =>
      if o then let '(W, ok', all, bad) := lnorm_rows (c + 1) a ok W in (W, o :: ok', all, bad)
      else if bad_stats p y && n_break p then (W, o :: ok, false, true)
      else
        let o' := (negb (do_scale p y) || near (n_stol p) (n_scale p) (get_scale (n_adj p) y)) &&
                  (negb (do_central p y) || near (n_ctol p) (n_central p) (get_central y)) in
        let '(W, ok', all, bad) := lnorm_rows (c + 1) a ok (norm_row p asc y n inc c W) in
        (W, o' :: ok', o' && all, bad)
  | _, _ => (W, ok, true, false)
  end.
(** 447-563 *)
Fixpoint lnorm_cw (k i : nat) (t : tds) (x : net) (ok : list bool) : option (bool * tds * net) :=
  match k with
  | 0 => Some (false, t, x)
  | Datatypes.S k =>
      do (cnt, t) <- prepare p S t ibs;
      do (a, t) <- gather (lfeed_cw q pre x) (imw i) S t 0 cnt (repeat acc0 n);
      do f <- layer_of q x;
      let '(W, ok, all, bad) := lnorm_rows 0 a ok (f_W f) in
      let x := put_w q (fun _ => W) x in
      if bad then Some (false, t, x) else
      if all then Some (true, t, x) else lnorm_cw k (i + 1) t x ok
  end.
End P.

(** What comes from outside: the math object per layer, re-initialisation, try and batch;
    memory for the data and the result of iMath.init() per layer; the weights of the
    re-initialisations (whatever a failing one leaves) *)
Record lenv := mkLE { le_im : lname -> nat -> nat -> nat -> imath; le_mx : lname -> mem_env R; le_my : lname -> mem_env R;
  le_math : lname -> bool; le_new : lname -> nat -> list R }.

(** 246-249 nonZeroBatchSize; [N]: samples in the training set *)
Definition nz_batch (N b : nat) : nat := if b =? 0 then N else Nat.min b N.
(** 251-255, nnet.h 687-702 *)
Definition prep (E : lenv) (q : lname) (S : sets) (t : tds) (bs : nat) : option tds :=
  do t <- match is_initialized4inference S t bs with
          | Some _ => Some t
          | None => do (e, _, t) <- init4inference 1%R 1%R (le_mx E q) (le_my E q) S t bs;
                    match e with Success => Some t | _ => None end
          end;
  do _ <- guard (le_math E q);
  Some t.

(** 215-232; [k]: tries left, [rt]: attempt *)
Fixpoint attempts (E : lenv) (q : lname) (f : nat -> tds -> net -> option (bool * tds * net)) (k rt : nat) (t : tds) (x : net)
  : option (bool * tds * net) :=
  match k with
  | 0 => Some (false, t, x)
  | Datatypes.S k =>
      do (ok, t, x) <- f rt t x;
      if ok then Some (true, t, x)
      else attempts E q f k (rt + 1) t (if 0 <? k then put_w q (fun _ => le_new E q rt) x else x)
  end.

(** 192-238 _processLayer; [bad]: m_firstFailedLayerIdx *)
Definition process (E : lenv) (cfg : lname -> lset) (S : sets) (N : nat) (q : lname) (bad : option lname) (t : tds) (x : net)
  : option (option lname * tds * net) :=
  let ls := cfg q in
  let p := l_n ls in
  if (negb (n_doc p) && negb (n_dos p)) || (n_tries p =? 0) then Some (bad, t, x) else
  do f <- layer_of q x;
  let asc := if l_pre ls then 1%R else act_scaling (f_act f) in
  let bs := nz_batch N (l_bs ls) in
  do t <- prep E q S t bs;
  let p := mkNS (n_scale p) (n_central p) (n_stol p) (n_ctol p) (n_tries p) (n_dos p) (n_doc p) (n_break p) (Z.of_nat bs) (n_bc p) (n_cw p) true in
  do (ok, t, x) <- attempts E q (fun rt t x =>
      if n_cw p then lnorm_cw p q (l_pre ls) asc (f_n f) (f_inc f) (le_im E q rt) bs S (n_tries p) 0 t x (repeat false (f_n f))
      else lnorm_whole p q (l_pre ls) asc (f_n f) (f_inc f) (le_im E q rt) bs S (n_tries p) 0 t x) (l_re ls) 0 t x;
  Some (match ok, bad with false, None => Some q | _, _ => bad end, t, x).

Fixpoint process_all (E : lenv) (cfg : lname -> lset) (S : sets) (N : nat) (qs : list lname) (bad : option lname) (t : tds) (x : net)
  : option (option lname * tds * net) :=
  match qs with
  | [] => Some (bad, t, x)
  | q :: qs => do (bad, t, x) <- process E cfg S N q bad t x; process_all E cfg S N qs bad t x
  end.

(** 124-156 run; result, m_firstFailedLayerIdx *)
Definition lsuv (E : lenv) (cfg : lname -> lset) (S : sets) (t : tds) (x : net) : option (bool * option lname * tds * net) :=
  let N := trainset_samples_count S in
  if N <? 2 then Some (false, None, t, x) else
  do (bad, t, x) <- process_all E cfg S N (visited x) None t x;
  Some (match bad with None => true | Some _ => false end, bad, deinit4all t, x).
End L.
