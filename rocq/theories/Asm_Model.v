(** Assembling a network: indices and incoming neurons of the layers, the coverage
    check of horizontal packs, iteration over all layers.
    nntl/layers.h, nntl/layer/_init_layers.h, _layer_base.h, pack_vertical.h,
    _lph_base.h, pack_tile.h, nntl/utils/tuple_utils.h.

    A layer object is a number; tuples hold references, so the same object may occur in
    several places.  Static assertions (kinds of layers, sizes of tuples) are not
    modelled; NNTL_ASSERT is a no-op.  neurons_count_t is Z without a limit,
    layer_index_t wraps at 2^16. *)
From Verif Require Import Base.
Local Open Scope Z_scope.

(** What a constructor does: it finishes, it calls abort(), or its behaviour is
    undefined (a write outside of the check storage, a division by zero) *)
Inductive outcome (A : Type) := Ok (a : A) | Aborted | Undef.
Arguments Ok {A} a. Arguments Aborted {A}. Arguments Undef {A}.
Definition obnd {A B} (x : outcome A) (f : A -> outcome B) : outcome B :=
  match x with Ok a => f a | Aborted => Aborted | Undef => Undef end.
Notation "'run' x <- a ; b" := (obnd a (fun x => b))
  (at level 200, x pattern, a at level 100, b at level 200, right associativity).

(** _LFC, _LI, input and output layers: object, neurons.  _LPV: object, inner layers from
    the lowmost up (pack_vertical.h).  _LPH and _LPHO: object, additional neurons, inner
    layers with m_offset and m_count of PHL_coord (_lph_base.h, _pack_.h:43-60).  _LPT:
    object, number of tiles, the tiled layer (pack_tile.h) *)
Inductive lay :=
| LyPlain (id : nat) (n : Z)
| LyV (id : nat) (ls : lays)
| LyH (id : nat) (add : Z) (ps : phls)
| LyT (id : nat) (k : Z) (l : lay)
with lays := LsNil | LsCons (l : lay) (ls : lays)
with phls := PsNil | PsCons (ofs cnt : Z) (l : lay) (ps : phls).

(** get_neurons_cnt(): _layer_base.h:598-601; pack_vertical.h:136, _layer_base.h:716
    (the topmost layer's); _lph_base.h:132-157 _calcNeuronsCnt and the constructor;
    pack_tile.h:191-193 *)
Fixpoint lneurons (l : lay) : Z :=
  match l with
  | LyPlain _ n => n
  | LyV _ ls => last_neurons ls
  | LyH _ add ps => sum_neurons ps + add
  | LyT _ k l => k * lneurons l
  end
with last_neurons (ls : lays) : Z :=
  match ls with
  | LsNil => 0
  | LsCons l LsNil => lneurons l
  | LsCons _ ls => last_neurons ls
  end
with sum_neurons (ps : phls) : Z :=
  match ps with PsNil => 0 | PsCons _ _ l ps => lneurons l + sum_neurons ps end.

(** m_totalLayersCount and the objects: m_layerIdx and m_incoming_neurons_cnt
    (_layer_base.h:355-375, 520-530: 65535 and 0 initially) *)
Record asm := mkA { a_cnt : Z; a_objs : list (Z * Z) }.
Definition invalid_layer_index : Z := 65535.
Definition fresh_obj : Z * Z := (invalid_layer_index, 0).

Definition aget (s : asm) (id : nat) : outcome (Z * Z) :=
  match nth_error (a_objs s) id with Some o => Ok o | None => Undef end.

(** _init_layers.h:162-165 newIndex: _idx++ on a uint16_t *)
Definition newIndex (s : asm) : Z * asm := (a_cnt s, mkA ((a_cnt s + 1) mod 65536) (a_objs s)).

(** _layer_base.h:638-652 *)
Definition base_preinit (id : nat) (inc : Z) (s : asm) : outcome asm :=
  run o <- aget s id;
  if negb (fst o =? invalid_layer_index) || negb (snd o =? 0) then Aborted
  else let (i, s) := newIndex s in
       Ok (mkA (a_cnt s) (upd (a_objs s) id (i, if negb (i =? 0) then inc else snd o))).

(** _layer_base.h:685-691, the forwarder: no incoming count of its own *)
Definition fwd_preinit (id : nat) (s : asm) : outcome asm :=
  run o <- aget s id;
  if negb (fst o =? invalid_layer_index) then Aborted
  else let (i, s) := newIndex s in Ok (mkA (a_cnt s) (upd (a_objs s) id (i, snd o))).

(** _init_layers.h:227-228: std::fill over [m_offset, m_offset + m_count) of the check
    storage *)
Definition fill_range (ofs cnt : Z) (chk : list bool) : outcome (list bool) :=
  if (ofs <? 0) || (cnt <? 0) || (Z.of_nat (length chk) <? ofs + cnt) then Undef
  else Ok (firstn (Z.to_nat ofs) chk ++ repeat true (Z.to_nat cnt) ++ skipn (Z.to_nat (ofs + cnt)) chk).

Fixpoint preinit (l : lay) (inc : Z) (s : asm) : outcome asm :=
  match l with
  | LyPlain id _ => base_preinit id inc s
  | LyV id ls => (* pack_vertical.h:116-124 *)
      run s <- fwd_preinit id s; preinit_up ls inc s
  | LyH id _ ps => (* _lph_base.h:100-121, _init_layers.h:212-217, 234-242 *)
      run s <- base_preinit id inc s;
      if inc <? 0 then Aborted else (* new(nothrow) char[inc] gives nullptr *)
      run sc <- preinit_phls ps (s, repeat false (Z.to_nat inc));
      if forallb (fun c => c) (snd sc) then Ok (fst sc) else Aborted
  | LyT id k l => (* pack_tile.h:172-188 *)
      run s <- base_preinit id inc s;
      if k =? 0 then Undef else preinit l (Z.quot inc k) s
  end
(** for_eachwp_up with _preinit_layers::operator()(lcur, lprev, bFirst),
    tuple_utils.h:162-179, _init_layers.h:199-208: the first layer gets the incoming
    neurons, every other one the neurons of the layer before it *)
with preinit_up (ls : lays) (inc : Z) (s : asm) : outcome asm :=
  match ls with
  | LsNil => Ok s
  | LsCons l ls => run s <- preinit l inc s; preinit_up ls (lneurons l) s
  end
(** for_each_up with operator()(phl), _init_layers.h:220-231 *)
with preinit_phls (ps : phls) (sc : asm * list bool) : outcome (asm * list bool) :=
  match ps with
  | PsNil => Ok sc
  | PsCons ofs cnt l ps =>
      run chk <- fill_range ofs cnt (snd sc);
      run s <- preinit l cnt (fst sc);
      preinit_phls ps (s, chk)
  end.

(** layers.h:140-146, the constructor: all layers from the input up, starting with
    m_totalLayersCount = 0 and no incoming neurons; total_layers() is a_cnt *)
Definition assemble (ls : lays) (objs : list (Z * Z)) : outcome asm := preinit_up ls 0 (mkA 0 objs).

(** ** for_each_layer and for_each_layer_down: _layer_base.h:58-86 call_F_for_each_layer,
    layers.h:163-188, pack_vertical.h:153-165, _lph_base.h:174-187, pack_tile.h:203-210.
    [f]: what the functor does to its captured state when given the layer *)
Section Each.
Context {St : Type} (f : nat -> St -> St).
Fixpoint each_up (l : lay) (s : St) : St :=
  match l with
  | LyPlain id _ => f id s
  | LyV id ls => f id (each_ups ls s)
  | LyH id _ ps => f id (each_upp ps s)
  | LyT id _ l => f id (each_up l s)
  end
with each_ups (ls : lays) (s : St) : St :=
  match ls with LsNil => s | LsCons l ls => each_ups ls (each_up l s) end
with each_upp (ps : phls) (s : St) : St :=
  match ps with PsNil => s | PsCons _ _ l ps => each_upp ps (each_up l s) end.

Fixpoint each_down (l : lay) (s : St) : St :=
  match l with
  | LyPlain id _ => f id s
  | LyV id ls => each_downs ls (f id s)
  | LyH id _ ps => each_downp ps (f id s)
  | LyT id _ l => each_down l (f id s)
  end
with each_downs (ls : lays) (s : St) : St :=
  match ls with LsNil => s | LsCons l ls => each_down l (each_downs ls s) end
with each_downp (ps : phls) (s : St) : St :=
  match ps with PsNil => s | PsCons _ _ l ps => each_down l (each_downp ps s) end.
End Each.

(** ** Where the activations are stored: on_batch_size_change with [m] rows
    Result: for each object with a matrix of activations, the allocation it lies in, the
    offset there, rows and columns without bias.  A layer that is given no
    pNewActivationStorage uses its own allocation, named by the object.
    _activation_storage.h:120-150; pack_vertical.h:241-246; _lph_base.h:388-403;
    pack_tile.h:289-299 (the tiled layer keeps its own storage with k*m rows).  Layers
    other than LPT leave the batch size as it is; with additional neurons (_LPHO) the
    inner layers are placed elsewhere: not modelled. *)
Definition where_ (id : nat) (p : option (nat * Z)) : nat * Z := match p with Some q => q | None => (id, 0) end.
Fixpoint place (m : Z) (l : lay) (p : option (nat * Z)) : list (nat * (nat * Z * Z * Z)) :=
  match l with
  | LyPlain id n => [(id, (where_ id p, m, n))]
  | LyV _ ls => place_up m ls p
  | LyH id _ ps => (id, (where_ id p, m, lneurons l)) :: place_phls m ps (where_ id p) 0
  | LyT id k l' => place (k * m) l' None ++ [(id, (where_ id p, m, lneurons l))]
  end
with place_up (m : Z) (ls : lays) (p : option (nat * Z)) : list (nat * (nat * Z * Z * Z)) :=
  match ls with
  | LsNil => []
  | LsCons l LsNil => place m l p
  | LsCons l ls => place m l None ++ place_up m ls p
  end
(** act.colDataAsVec(firstNeuronOfs), firstNeuronOfs += get_neurons_cnt() *)
with place_phls (m : Z) (ps : phls) (act : nat * Z) (first : Z) : list (nat * (nat * Z * Z * Z)) :=
  match ps with
  | PsNil => []
  | PsCons _ _ l ps => place m l (Some (fst act, snd act + m * first)) ++ place_phls m ps act (first + lneurons l)
  end.
