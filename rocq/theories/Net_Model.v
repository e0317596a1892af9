(** Layers, packs of layers and the network: forward and backward propagation.
    nntl/layer/fully_connected.h, output.h, identity.h, pack_vertical.h,
    pack_horizontal.h, _lph_base.h, pack_tile.h, _pack_.h, nntl/layers.h.

    Simplifications: real arithmetic; every matrix has the batch in columns
    (bBatchInRow() is false); matrices are flat lists in column-major order; the bias
    column of the activations is added where they are handed to the upper layer
    (C26 is about the column in storage); weight updates are not switched off
    (bUpdateWeights()), no dropout, no gating, dL/dZ of the output is not clamped;
    every hidden layer takes part in bprop (no LFC_FProp).  Out-of-range accesses and
    violated size assertions are [None].  The gemm of the BLAS is what its
    documentation says; the threads inside element-wise kernels are the matter of
    C30, C31. *)
From Coq Require Import Reals Bool.
From Verif Require Import Base Act_Model.
Local Open Scope nat_scope.

Definition rsum (l : list R) : R := fold_right Rplus 0%R l.

(** BLAS gemm with beta = 0 into a matrix with leading dimension M *)
Definition gemm (tA tB : bool) (M N K : nat) (alpha : R) (A : list R) (lda : nat) (B : list R) (ldb : nat) : list R :=
  map (fun q => let i := q mod M in let j := q / M in
    (alpha * rsum (map (fun k =>
      nth (if tA then k + i * lda else i + k * lda) A 0 * nth (if tB then j + k * ldb else k + j * ldb) B 0) (seq 0 K)))%R)
    (seq 0 (M * N)).

(** A deformable matrix over a storage of fixed size: the dL/dA buffers.
    smatrix_deform::deform asserts that the size fits *)
Record dbuf := mkB { b_r : nat; b_c : nat; b_d : list R }.
Definition deform (r c : nat) (b : dbuf) : option dbuf :=
  do _ <- guard (r * c <=? length (b_d b)); Some (mkB r c (b_d b)).
Definition content (b : dbuf) : list R := firstn (b_r b * b_c b) (b_d b).
Definition put (b : dbuf) (l : list R) : option dbuf :=
  do _ <- guard ((length l =? b_r b * b_c b) && (length l <=? length (b_d b)));
  Some (mkB (b_r b) (b_c b) (l ++ skipn (length l) (b_d b))).
Definition shaped (r c : nat) (b : dbuf) : bool := (b_r b =? r) && (b_c b =? c).

Definition overwrite (i : nat) (w l : list R) : list R := firstn i l ++ w ++ skipn (i + length w) l.
Definition slice (i n : nat) (l : list R) : list R := firstn n (skipn i l).

(** ** The layers with their state
    LFC: incoming neurons, neurons, weights [n x (inc+1)], the dL/dW last handed to
    apply_grad, activations.  LPH: incoming neurons, the inner layers with offset and
    count of PHL_coord, the storages of m_innerdLdA and m_innerdLdAPrev.  LPT: number
    of tiles, the tiled layer, m_innerLowerLayerActivations, activations.
    A stack is written from the topmost layer down.  Activations of a LPH are the
    storage in which its inner layers put theirs, one after another
    (_lph_base.h:226-262 _init_phls); those of a LPV are its topmost layer's. *)
Inductive layer :=
| LFC (id : nat) (a : act) (inc n : nat) (W G A : list R)
| LI (n : nat) (A : list R)
| LPV (s : stack)
| LPH (inc : nat) (h : hpack) (b1 b2 : list R)
| LPT (k : nat) (l : layer) (inn A : list R)
with stack := SOne (l : layer) | SCons (l : layer) (below : stack)
with hpack := HNil | HCons (ofs cnt : nat) (l : layer) (h : hpack).

Fixpoint neurons (l : layer) : nat :=
  match l with
  | LFC _ _ _ n _ _ _ => n
  | LI n _ => n
  | LPV s => match s with SOne l => neurons l | SCons l _ => neurons l end
  | LPH _ h _ _ => hneurons h
  | LPT k l _ _ => k * neurons l
  end
with hneurons (h : hpack) : nat :=
  match h with HNil => 0 | HCons _ _ l h => neurons l + hneurons h end.
Definition sneurons (s : stack) : nat := match s with SOne l => neurons l | SCons l _ => neurons l end.

Fixpoint incoming (l : layer) : nat :=
  match l with
  | LFC _ _ inc _ _ _ _ => inc
  | LI n _ => n
  | LPV s => sincoming s
  | LPH inc _ _ _ => inc
  | LPT k l _ _ => k * incoming l
  end
with sincoming (s : stack) : nat :=
  match s with SOne l => incoming l | SCons _ b => sincoming b end.

(** get_activations(), without the bias column *)
Fixpoint acts (l : layer) : list R :=
  match l with
  | LFC _ _ _ _ _ _ A => A
  | LI _ A => A
  | LPV s => match s with SOne l => acts l | SCons l _ => acts l end
  | LPH _ h _ _ => hacts h
  | LPT _ _ _ A => A
  end
with hacts (h : hpack) : list R :=
  match h with HNil => [] | HCons _ _ l h => acts l ++ hacts h end.
Definition sacts (s : stack) : list R := match s with SOne l => acts l | SCons l _ => acts l end.

(** activations with their bias column *)
Definition biased (m : nat) (A : list R) : list R := A ++ repeat 1%R m.

(** _trainable_partial_layer_wrapper, _pack_.h:128-190: the columns [ofs, ofs+cnt) of
    the lower layer's activations; the column after them is overwritten by ones unless
    it is the bias column, and restored by the destructor.  View and storage *)
Definition part_ctor (m inc ofs cnt : nat) (P : list R) : option (list R * list R) :=
  do _ <- guard (ofs + cnt <=? inc);
  let P1 := if ofs + cnt <? inc then overwrite (m * (ofs + cnt)) (repeat 1%R m) P else P in
  Some (slice (m * ofs) (m * (cnt + 1)) P1, P1).
Definition part_dtor (m inc ofs cnt : nat) (saved P1 : list R) : list R :=
  if ofs + cnt <? inc then overwrite (m * (ofs + cnt)) saved P1 else P1.

(** mTilingRoll and mTilingUnroll as C18 characterises them: wide m x (k*n), tall
    (k*m) x n *)
Definition roll (m n k : nat) (src : list R) : list R :=
  map (fun q => let i := q mod (k * m) in let j := q / (k * m) in nth (i mod m + m * ((i / m) * n + j)) src 0%R) (seq 0 (k * m * n)).
Definition unroll (m n k : nat) (src : list R) : list R :=
  map (fun q => let i := q mod m in let c := q / m in nth ((c / n) * m + i + (k * m) * (c mod n)) src 0%R) (seq 0 (m * (k * n))).

(** ** Forward propagation; [P]: activations of the lower layer with bias, [m] rows *)
Fixpoint fprop (m : nat) (P : list R) (l : layer) : option layer :=
  match l with
  | LFC id a inc n W G _ => (* fully_connected.h:240-286 _lfc_fprop, mathn.h:2452-2528 *)
      do _ <- guard ((length P =? m * (inc + 1)) && (length W =? n * (inc + 1)));
      Some (LFC id a inc n W G (map (act_f a) (gemm false true m n (inc + 1) 1%R P m W n)))
  | LI n _ => (* identity.h:60-82 *)
      do _ <- guard (length P =? m * (n + 1));
      Some (LI n (firstn (m * n) P))
  | LPV s => do s' <- sfprop m P s; Some (LPV s')
  | LPH inc h b1 b2 => (* pack_horizontal.h:69-87 *)
      do _ <- guard (length P =? m * (inc + 1));
      do hP <- hfprop m inc P h; Some (LPH inc (fst hP) b1 b2)
  | LPT k l _ _ => (* pack_tile.h:320-353 *)
      do _ <- guard (length P =? m * (k * incoming l + 1));
      let inn := roll m (incoming l) k P in
      do l' <- fprop (k * m) (biased (k * m) inn) l;
      Some (LPT k l' inn (unroll m (neurons l) k (acts l')))
  end
(** pack_vertical.h:250-264, layers.h:301-313 *)
with sfprop (m : nat) (P : list R) (s : stack) : option stack :=
  match s with
  | SOne l => do l' <- fprop m P l; Some (SOne l')
  | SCons l b => do b' <- sfprop m P b; do l' <- fprop m (biased m (sacts b')) l; Some (SCons l' b')
  end
with hfprop (m inc : nat) (P : list R) (h : hpack) : option (hpack * list R) :=
  match h with
  | HNil => Some (HNil, P)
  | HCons ofs cnt l h =>
      do vP <- part_ctor m inc ofs cnt P;
      do l' <- fprop m (fst vP) l;
      let P := part_dtor m inc ofs cnt (slice (m * (ofs + cnt)) m P) (snd vP) in
      do hP <- hfprop m inc P h;
      Some (HCons ofs cnt l' (fst hP), snd hP)
  end.

(** What apply_grad does to weights and to the matrix with the gradient, per layer *)
Definition gworks := nat -> list R -> list R -> list R * list R.

(** two buffers and the index of the current one *)
Definition bsel (idx : bool) (arr : dbuf * dbuf) : dbuf := if idx then snd arr else fst arr.
Definition barr (idx : bool) (cur other : dbuf) : dbuf * dbuf := if idx then (other, cur) else (cur, other).

(** ** Backward propagation: dLdA in [d], dLdAPrev goes to [e]; [hp]: the lower layer
    takes part in bprop.  Result: layer, both buffers, and whether dL/dA for the lower
    layer is in [e] (return value 1) or in [d] (0) *)
Fixpoint bprop (gw : gworks) (m : nat) (P : list R) (hp : bool) (d e : dbuf) (l : layer) {struct l}
  : option (layer * dbuf * dbuf * bool) :=
  match l with
  | LFC id a inc n W _ A => (* fully_connected.h:402-524 _lfc_bprop *)
      do _ <- guard (shaped m n d && (length A =? m * n) && (length P =? m * (inc + 1)) && (length W =? n * (inc + 1)));
      (* 455-470: dL/dZ overwrites the activations *)
      let z := match a with
               | Identity => content d
               | _ => map (fun q => (act_df a (fst q) * snd q)%R) (combine A (content d))
               end in
      (* 489-497; mathn.h:2539-2587: the bias weights, the last column, are hidden *)
      do e <- (if hp then do _ <- guard (shaped m inc e); put e (gemm false false m inc n 1%R z m W n) else Some e);
      (* 499-524: dL/dW is built in dLdA's storage *)
      do d <- deform n (inc + 1) d;
      let g := gemm true false n (inc + 1) m (1 / INR m)%R z m P m in
      let '(W', g') := gw id W g in
      do d <- put d g';
      do d <- deform m n d;
      Some (LFC id a inc n W' g z, d, e, true)
  | LI n A => (* identity.h:84-116 *)
      do _ <- guard (shaped m n d);
      Some (l, d, e, false)
  | LPV s => (* pack_vertical.h:266-313 *)
      do r <- sbprop gw m P hp (d, e) false s;
      let '(s', arr, idx) := r in
      Some (LPV s', fst arr, snd arr, idx)
  | LPH inc h b1 b2 => (* pack_horizontal.h:106-184 *)
      do _ <- guard (shaped m (hneurons h) d && (length P =? m * (inc + 1)));
      do e <- (if hp then do _ <- guard (shaped m inc e); put e (repeat 0%R (m * inc)) else Some e);
      do r <- hbprop gw m inc P hp d (hneurons h, e, mkB 0 0 b1, mkB 0 0 b2) h;
      let '(h', (_, e, b1, b2), _) := r in
      Some (LPH inc h' (b_d b1) (b_d b2), d, e, true)
  | LPT k l inn A => (* pack_tile.h:356-413 *)
      do _ <- guard (shaped m (k * neurons l) d);
      do e <- deform (k * m) (neurons l) e;
      do e <- put e (roll m (neurons l) k (b_d d));
      do d <- (if hp then deform (k * m) (incoming l) d else deform 0 0 d);
      do r <- bprop gw (k * m) (biased (k * m) inn) hp e d l;
      let '(l', e, d, sw) := r in
      if hp then
        if sw then (do e <- deform m (k * incoming l) e;
                    do e <- put e (unroll m (incoming l) k (b_d d)); Some (LPT k l' inn A, d, e, true))
        else (do d <- deform m (k * incoming l) d;
              do d <- put d (unroll m (incoming l) k (b_d e)); Some (LPT k l' inn A, d, e, false))
      else Some (LPT k l' inn A, d, e, negb sw)
  end
(** one pass over a stack: pack_vertical.h:277-309, layers.h:330-352 *)
with sbprop (gw : gworks) (m : nat) (P : list R) (hp : bool) (arr : dbuf * dbuf) (idx : bool) (s : stack) {struct s}
  : option (stack * (dbuf * dbuf) * bool) :=
  match s with
  | SOne l =>
      do nxt <- (if hp then deform m (incoming l) (bsel (negb idx) arr) else deform 0 0 (bsel (negb idx) arr));
      do r <- bprop gw m P hp (bsel idx arr) nxt l;
      let '(l', d, e, alt) := r in
      Some (SOne l', barr idx d e, xorb idx alt)
  | SCons l b =>
      do nxt <- deform m (sneurons b) (bsel (negb idx) arr);
      do r <- bprop gw m (biased m (sacts b)) true (bsel idx arr) nxt l;
      let '(l', d, e, alt) := r in
      do r <- sbprop gw m P hp (barr idx d e) (xorb idx alt) b;
      let '(b', arr, idx) := r in
      Some (SCons l' b', arr, idx)
  end
(** pack_horizontal.h:134-174, from the last inner layer to the first; state:
    firstNeuronOfs, dLdAPrev, m_innerdLdA, m_innerdLdAPrev *)
with hbprop (gw : gworks) (m inc : nat) (P : list R) (hp : bool) (dLdA : dbuf) (st : nat * dbuf * dbuf * dbuf) (h : hpack) {struct h}
  : option (hpack * (nat * dbuf * dbuf * dbuf) * list R) :=
  match h with
  | HNil => Some (HNil, st, P)
  | HCons ofs cnt l h =>
      do r <- hbprop gw m inc P hp dLdA st h;
      let '(h', (first, e, b1, b2), P) := r in
      do _ <- guard (neurons l <=? first);
      let first := first - neurons l in
      do b1 <- deform m (neurons l) b1;
      do b1 <- put b1 (slice (m * first) (m * neurons l) (b_d dLdA));
      do b2 <- (if hp then deform m cnt b2 else deform 0 0 b2);
      do vP <- part_ctor m inc ofs cnt P;
      do r <- bprop gw m (fst vP) hp b1 b2 l;
      let '(l', b1, b2, sw) := r in
      let P := part_dtor m inc ofs cnt (slice (m * (ofs + cnt)) m P) (snd vP) in
      (* vAdd_ip into the columns of dLdAPrev from [ofs] on *)
      do e <- (if hp then
                 let cur := if sw then b2 else b1 in
                 do _ <- guard (shaped m cnt cur);
                 do _ <- guard (m * (ofs + cnt) <=? length (b_d e));
                 Some (mkB (b_r e) (b_c e) (overwrite (m * ofs)
                   (map (fun q => (fst q + snd q)%R) (combine (slice (m * ofs) (m * cnt) (b_d e)) (content cur))) (b_d e)))
               else Some e);
      Some (HCons ofs cnt l' h', (first, e, b1, b2), P)
  end.

(** ** Sizes of the gradient buffers: layer_init, with the biggest training batch [M] *)
Fixpoint maxInc (h : hpack) : nat := match h with HNil => 0 | HCons _ _ l h => Nat.max (incoming l) (maxInc h) end.
(** lid.max_dLdA_numel: fully_connected.h:362-367; identity.h does not set it;
    pack_vertical.h:197-226 and _init_layers.h:365 take the maximum over the inner
    layers; _lph_base.h:311-324; pack_tile.h:263-273 *)
Fixpoint max_dLdA (M : nat) (l : layer) : nat :=
  match l with
  | LFC _ _ inc n _ _ _ => Nat.max (M * n) (n * (inc + 1))
  | LI _ _ => 0
  | LPV s => smax_dLdA M s
  | LPH _ h _ _ => M * hneurons h
  | LPT k l _ _ => Nat.max (Nat.max (M * (k * neurons l)) (M * k * incoming l)) (max_dLdA (k * M) l)
  end
with smax_dLdA (M : nat) (s : stack) : nat :=
  match s with SOne l => max_dLdA M l | SCons l b => Nat.max (max_dLdA M l) (smax_dLdA M b) end
with hmax_dLdA (M : nat) (h : hpack) : nat :=
  match h with HNil => 0 | HCons _ _ l h => Nat.max (max_dLdA M l) (hmax_dLdA M h) end.
(** m_layers_max_dLdA_numel *)
Definition inner_cap (M : nat) (h : hpack) : nat := Nat.max (hmax_dLdA M h) (M * maxInc h).
(** _lph_base.h:344-360 initMem *)
Fixpoint inited (M : nat) (l : layer) : Prop :=
  match l with
  | LFC _ _ _ _ _ _ _ | LI _ _ => True
  | LPV s => sinited M s
  | LPH _ h b1 b2 => length b1 = inner_cap M h /\ length b2 = inner_cap M h /\ hinited M h
  | LPT k l _ _ => inited (k * M) l
  end
with sinited (M : nat) (s : stack) : Prop :=
  match s with SOne l => inited M l | SCons l b => inited M l /\ sinited M b end
with hinited (M : nat) (h : hpack) : Prop :=
  match h with HNil => True | HCons _ _ l h => inited M l /\ hinited M h end.

(** ** The network: hidden layers, output layer, the two buffers of layers.h *)
Record net := mkN { n_hid : option stack; n_out : outp; n_inc : nat; n_n : nat;
  n_W : list R; n_G : list R; n_A : list R; n_buf : list R * list R }.

(** nnet.h:396, 413-470, layers.h:240-260: both buffers have the size of the biggest
    max_dLdA_numel, at least 1; the output layer announces none (output.h:136) *)
Definition dLdA_size (M : nat) (s : stack) : nat := Nat.max 1 (smax_dLdA M s).
Definition net_inited (M : nat) (x : net) : Prop :=
  match n_hid x with
  | None => True
  | Some s => sinited M s /\ length (fst (n_buf x)) = dLdA_size M s /\ length (snd (n_buf x)) = dLdA_size M s
  end.

(** layers.h:301-313, output.h *)
Definition net_fprop (m : nat) (X : list R) (x : net) : option net :=
  do hP <- match n_hid x with
           | None => Some (None, X)
           | Some s => do s' <- sfprop m X s; Some (Some s', biased m (sacts s'))
           end;
  do _ <- guard ((length (snd hP) =? m * (n_inc x + 1)) && (length (n_W x) =? n_n x * (n_inc x + 1)));
  Some (mkN (fst hP) (n_out x) (n_inc x) (n_n x) (n_W x) (n_G x)
    (map (act_f (outp_act (n_out x))) (gemm false true m (n_n x) (n_inc x + 1) 1%R (snd hP) m (n_W x) (n_n x))) (n_buf x)).

(** layers.h:316-353, output.h:176-250 _outp_bprop *)
Definition net_bprop (gw : gworks) (gwo : list R -> list R -> list R * list R) (m : nat) (X Y : list R) (x : net) : option net :=
  let P := match n_hid x with None => X | Some s => biased m (sacts s) end in
  do a0 <- match n_hid x with
           | None => deform 0 0 (mkB 0 0 (fst (n_buf x)))
           | Some s => deform m (sneurons s) (mkB 0 0 (fst (n_buf x)))
           end;
  do _ <- guard ((length P =? m * (n_inc x + 1)) && (length (n_W x) =? n_n x * (n_inc x + 1)) &&
                 (length (n_A x) =? m * n_n x) && (length Y =? m * n_n x));
  let z := map (fun q => outp_dLdZ (n_out x) (fst q) (snd q)) (combine Y (n_A x)) in
  do a0 <- match n_hid x with
           | None => Some a0
           | Some s => do _ <- guard (shaped m (n_inc x) a0); put a0 (gemm false false m (n_inc x) (n_n x) 1%R z m (n_W x) (n_n x))
           end;
  let g := gemm true false (n_n x) (n_inc x + 1) m (1 / INR m)%R z m P m in
  let W' := fst (gwo (n_W x) g) in
  match n_hid x with
  | None => Some (mkN None (n_out x) (n_inc x) (n_n x) W' g z (b_d a0, snd (n_buf x)))
  | Some s =>
      do r <- sbprop gw m X false (a0, mkB 0 0 (snd (n_buf x))) false s;
      let '(s', arr, _) := r in
      Some (mkN (Some s') (n_out x) (n_inc x) (n_n x) W' g z (b_d (fst arr), b_d (snd arr)))
  end.
