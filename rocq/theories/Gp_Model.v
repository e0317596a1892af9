(** The gated pack of layers: nntl/layer/pack_horizontal_optional.h (_LPHO),
    identity.h (_LIG), _lph_base.h, _pack_.h.

    The inner layers are layers of Net_Model.  Simplifications as there; in addition the
    row kernels are what C16 proves them to be, the gate is the identity gate (the only
    one there is) over the columns from [g_gofs] on, inspectors and serialization are
    left out.  [None]: an access outside of a storage or a violated assertion about
    sizes. *)
From Coq Require Import Reals Bool.
From Verif Require Import Base Act_Model Net_Model.
Local Open Scope nat_scope.

Definition rnz (v : R) : bool := if Req_EM_T v 0 then false else true.
Definition gtb (v b : R) : bool := if Rlt_dec b v then true else false.

(** rows with a non-zero mask; mathn.h 1048-1057 vCountNonZeros is their number *)
Definition open_rows (g : list R) : list nat := filter (fun r => rnz (nth r g 0%R)) (seq 0 (length g)).
(** mathn.h 602-665 mExtractRowsByMask: [m x n] to the open rows *)
Definition extract (m n : nat) (rs : list nat) (V : list R) : list R :=
  map (fun q => nth (q / length rs * m + nth (q mod length rs) rs 0) V 0%R) (seq 0 (length rs * n)).
(** mathn.h 668-740 mFillRowsByMask: back to [m x n], zeros elsewhere *)
Definition place (g : list R) (r : nat) : nat := length (open_rows (firstn r g)).
Definition fill (m n : nat) (g V : list R) : list R :=
  map (fun q => if rnz (nth (q mod m) g 0%R) then nth (q / m * length (open_rows g) + place g (q mod m)) V 0%R else 0%R) (seq 0 (m * n)).

(** writing [w] into a storage *)
Definition store (i : nat) (w s : list R) : option (list R) :=
  do _ <- guard (i + length w <=? length s); Some (overwrite i w s).

(** m_offset and m_count of the PHL, the layer *)
Definition glay := (nat * nat * layer)%type.
(** incoming neurons; offset of the gate's range (as wide as there are gated layers);
    sBinarizeFrac if sbBinarizeGate; bAddDataNotPresentFeature; gated layers;
    m_activations without the bias column; m_prevActsStor; rows() of m_aPrevActs;
    m_biggestIncBS; storages of m_innerdLdA, m_innerdLdAPrev *)
Record gpack := mkGP { g_inc : nat; g_gofs : nat; g_bin : option R; g_add : bool; g_lay : list glay;
  g_A : list R; g_prev : list R; g_rows : list nat; g_max : nat; g_b1 : list R; g_b2 : list R }.

Definition lneurons (ls : list glay) : nat := fold_right (fun q n => neurons (snd q) + n) 0 ls.
Definition lcount (ls : list glay) : nat := fold_right (fun q n => snd (fst q) + n) 0 ls.
(** gate_neurons_count: pack_horizontal_optional.h:64 *)
Definition gneurons (k : nat) (add : bool) : nat := if add then k + k else k.
(** _lph_base.h:129-152 _calcNeuronsCnt, 155-158 addNeurons *)
Definition g_neurons (x : gpack) : nat := gneurons (length (g_lay x)) (g_add x) + lneurons (g_lay x).

(** ** layer_init *)

(** pack_horizontal_optional.h:149-161 _init_self: overlapping receptive fields end in
    abort() *)
Definition no_overlap (x : gpack) : bool := length (g_lay x) + lcount (g_lay x) =? g_inc x.
(** _lph_base.h:305-318 m_layers_max_dLdA_numel; the gate has as many incoming neurons
    as there are gated layers and announces no max_dLdA_numel *)
Definition g_cap (M : nat) (x : gpack) : nat :=
  Nat.max (fold_right (fun q n => Nat.max (max_dLdA M (snd q)) n) 0 (g_lay x))
    (M * Nat.max (length (g_lay x)) (fold_right (fun q n => Nat.max (incoming (snd q)) n) 0 (g_lay x))).
(** 162-190: the storage has room for all incoming neurons but the gate's, and one bias
    column; [M]: biggest batch size *)
Definition g_inited (M : nat) (x : gpack) : Prop :=
  no_overlap x = true /\ g_max x = M /\ length (g_prev x) = M * (lcount (g_lay x) + 1) /\
  length (g_b1 x) = g_cap M x /\ length (g_b2 x) = g_cap M x /\ Forall (fun q => inited M (snd q)) (g_lay x).

(** ** Forward propagation *)

(** pack_horizontal_optional.h:246-291.  [i]: index of the gated layer, [ofs]: its first
    neuron, [base]: begin of its m_aPrevActs in the storage; state: m_activations, the
    storage *)
Fixpoint gl_fprop (m M inc : nat) (P : list R) (i ofs base : nat) (ls : list glay) (A V : list R)
  : option (list glay * list nat * list R * list R) :=
  match ls with
  | [] => Some ([], [], A, V)
  | (o, c, l) :: ls =>
      let g := slice (m * i) m A in
      let rs := open_rows g in
      let n := length rs in
      do _ <- guard (n <=? M); (* deform_rows *)
      do r <- (if 0 <? n then
                 do _ <- guard (o + c <=? inc);
                 do V <- store base (extract m c rs (slice (m * o) (m * c) P)) V;
                 do V <- store (base + n * c) (repeat 1%R n) V; (* set_biases *)
                 do l' <- fprop n (slice base (n * (c + 1)) V) l;
                 do A <- store (m * ofs) (fill m (neurons l) g (acts l')) A;
                 Some (l', A, V)
               else
                 do A <- store (m * ofs) (repeat 0%R (m * neurons l)) A;
                 Some (l, A, V));
      let '(l', A, V) := r in
      do r <- gl_fprop m M inc P (i + 1) (ofs + neurons l) (base + M * c) ls A V;
      let '(ls', ns, A, V) := r in
      Some ((o, c, l') :: ls', n :: ns, A, V)
  end.

(** 222-300 _lpho_fprop, 202-220 _fprop_add_no_present_feature, identity.h 60-82,
    216-238 (mathn.h 274-315 ewBinarize_ip); m_activations has been resized to the
    batch and has any content *)
Definition g_fprop (m : nat) (P : list R) (x : gpack) : option gpack :=
  let k := length (g_lay x) in
  do _ <- guard ((length P =? m * (g_inc x + 1)) && (g_gofs x + k <=? g_inc x));
  let A := firstn (m * g_neurons x) (g_A x ++ repeat 0%R (m * g_neurons x)) in
  let src := slice (m * g_gofs x) (m * k) P in
  let gate := match g_bin x with None => src | Some f => map (fun v => if gtb v f then 1%R else 0%R) src end in
  do A <- store 0 gate A;
  do A <- (if g_add x then store (m * k) (map (fun v => (1 - v)%R) gate) A else Some A);
  do r <- gl_fprop m (g_max x) (g_inc x) P 0 (gneurons k (g_add x)) 0 (g_lay x) A (g_prev x);
  let '(ls, ns, A, V) := r in
  Some (mkGP (g_inc x) (g_gofs x) (g_bin x) (g_add x) ls A V ns (g_max x) (g_b1 x) (g_b2 x)).

(** ** Backward propagation *)

(** _pack_.h 198-220: the column of ones may have been overwritten unless the matrix
    ends before the next one's begin; it is written again and what was there is put back *)
Definition opt_ctor (base n c maxN : nat) (V : list R) : option (list R * list R) :=
  do _ <- guard (base + n * (c + 1) <=? length V);
  let V1 := if n * (c + 1) <=? maxN then V else overwrite (base + n * c) (repeat 1%R n) V in
  Some (slice base (n * (c + 1)) V1, V1).
Definition opt_dtor (base n c maxN : nat) (saved V1 : list R) : list R :=
  if n * (c + 1) <=? maxN then V1 else overwrite (base + n * c) saved V1.

(** 314-375, from the last gated layer to the first; state: firstNeuronOfs, the storage,
    dLdAPrev, m_innerdLdA, m_innerdLdAPrev *)
Fixpoint gl_bprop (gw : gworks) (m M inc : nat) (hp : bool) (D A : list R) (i base : nat) (ls : list glay) (ns : list nat)
  (st : nat * list R * dbuf * dbuf * dbuf) {struct ls} : option (list glay * (nat * list R * dbuf * dbuf * dbuf)) :=
  match ls, ns with
  | (o, c, l) :: ls, n :: ns =>
      do r <- gl_bprop gw m M inc hp D A (i + 1) (base + M * c) ls ns st;
      let '(ls', (first, V, e, b1, b2)) := r in
      let g := slice (m * i) m A in
      do _ <- guard (neurons l <=? first);
      let first := first - neurons l in
      if 0 <? n then
        do _ <- guard (length (open_rows g) =? n);
        do b1 <- deform n (neurons l) b1;
        do b1 <- put b1 (extract m (neurons l) (open_rows g) (slice (m * first) (m * neurons l) D));
        do b2 <- (if hp then deform n c b2 else deform 0 0 b2);
        do vV <- opt_ctor base n c (M * c) V;
        do r <- bprop gw n (fst vV) hp b1 b2 l;
        let '(l', b1, b2, sw) := r in
        let V := opt_dtor base n c (M * c) (slice (base + n * c) n V) (snd vV) in
        do e <- (if hp then
                   let cur := if sw then b2 else b1 in
                   do _ <- guard (shaped n c cur);
                   do w <- store (m * o) (fill m c g (content cur)) (b_d e);
                   Some (mkB (b_r e) (b_c e) w)
                 else Some e);
        Some ((o, c, l') :: ls', (first, V, e, b1, b2))
      else
        do e <- (if hp then do w <- store (m * o) (repeat 0%R (m * c)) (b_d e); Some (mkB (b_r e) (b_c e) w) else Some e);
        Some ((o, c, l) :: ls', (first, V, e, b1, b2))
  | [], [] => Some ([], st)
  | _, _ => None
  end.

(** 303-404 _lpho_bprop; the identity gate has a trivial bprop (379-385) *)
Definition g_bprop (gw : gworks) (m : nat) (hp : bool) (d e : dbuf) (x : gpack) : option (gpack * dbuf * dbuf * bool) :=
  let k := length (g_lay x) in
  do _ <- guard (shaped m (g_neurons x) d && (length (g_A x) =? m * g_neurons x));
  do _ <- guard (negb hp || shaped m (g_inc x) e);
  do r <- gl_bprop gw m (g_max x) (g_inc x) hp (b_d d) (g_A x) 0 0 (g_lay x) (g_rows x) (g_neurons x, g_prev x, e, mkB 0 0 (g_b1 x), mkB 0 0 (g_b2 x));
  let '(ls, (_, V, e, b1, b2)) := r in
  do e <- (if hp then do w <- store (m * g_gofs x) (repeat 0%R (m * k)) (b_d e); Some (mkB (b_r e) (b_c e) w) else Some e);
  Some (mkGP (g_inc x) (g_gofs x) (g_bin x) (g_add x) ls (g_A x) V (g_rows x) (g_max x) (b_d b1) (b_d b2), d, e, true).
