(** What assembling a network should achieve *)
From Verif Require Import Base Asm_Model.
Local Open Scope Z_scope.

(** The objects of a structure in pre-order: a pack before its inner layers *)
Fixpoint ids (l : lay) : list nat :=
  match l with
  | LyPlain id _ => [id]
  | LyV id ls => id :: lids ls
  | LyH id _ ps => id :: pids ps
  | LyT id _ l => id :: ids l
  end
with lids (ls : lays) : list nat := match ls with LsNil => [] | LsCons l ls => ids l ++ lids ls end
with pids (ps : phls) : list nat := match ps with PsNil => [] | PsCons _ _ l ps => ids l ++ pids ps end.

(** and with inner layers before their pack *)
Fixpoint post (l : lay) : list nat :=
  match l with
  | LyPlain id _ => [id]
  | LyV id ls => lpost ls ++ [id]
  | LyH id _ ps => ppost ps ++ [id]
  | LyT id _ l => post l ++ [id]
  end
with lpost (ls : lays) : list nat := match ls with LsNil => [] | LsCons l ls => post l ++ lpost ls end
with ppost (ps : phls) : list nat := match ps with PsNil => [] | PsCons _ _ l ps => post l ++ ppost ps end.

(** The connections: each object that keeps a number of incoming neurons, with the number
    of neurons it is wired to when its structure is wired to [inc] neurons *)
Fixpoint wires (inc : Z) (l : lay) : list (nat * Z) :=
  match l with
  | LyPlain id _ => [(id, inc)]
  | LyV _ ls => lwires inc ls
  | LyH id _ ps => (id, inc) :: pwires ps
  | LyT id k l => (id, inc) :: wires (Z.quot inc k) l
  end
with lwires (inc : Z) (ls : lays) : list (nat * Z) :=
  match ls with LsNil => [] | LsCons l ls => wires inc l ++ lwires (lneurons l) ls end
with pwires (ps : phls) : list (nat * Z) :=
  match ps with PsNil => [] | PsCons _ cnt l ps => wires cnt l ++ pwires ps end.

(** The ranges of the inner layers of a horizontal pack *)
Fixpoint ranges (ps : phls) : list (Z * Z) :=
  match ps with PsNil => [] | PsCons ofs cnt _ ps => (ofs, cnt) :: ranges ps end.
Definition inside (inc : Z) (r : Z * Z) : Prop := 0 <= fst r /\ 0 <= snd r /\ fst r + snd r <= inc.
Definition covered (inc : Z) (rs : list (Z * Z)) : Prop :=
  forall k, 0 <= k < inc -> exists r, In r rs /\ fst r <= k < fst r + snd r.

(** Every horizontal pack in the structure has its ranges inside the neurons it is wired
    to, and all of these are covered; there is a tile to divide by (Z.quot is the division of C++) *)
Fixpoint pluggable (inc : Z) (l : lay) : Prop :=
  match l with
  | LyPlain _ _ => True
  | LyV _ ls => lpluggable inc ls
  | LyH _ _ ps => 0 <= inc /\ Forall (inside inc) (ranges ps) /\ covered inc (ranges ps) /\ ppluggable ps
  | LyT _ k l => k <> 0 /\ pluggable (Z.quot inc k) l
  end
with lpluggable (inc : Z) (ls : lays) : Prop :=
  match ls with LsNil => True | LsCons l ls => pluggable inc l /\ lpluggable (lneurons l) ls end
with ppluggable (ps : phls) : Prop :=
  match ps with PsNil => True | PsCons _ cnt l ps => pluggable cnt l /\ ppluggable ps end.
(** The same without the coverage: what keeps the construction defined *)
Fixpoint in_bounds (inc : Z) (l : lay) : Prop :=
  match l with
  | LyPlain _ _ => True
  | LyV _ ls => lin_bounds inc ls
  | LyH _ _ ps => Forall (inside inc) (ranges ps) /\ pin_bounds ps
  | LyT _ k l => k <> 0 /\ in_bounds (Z.quot inc k) l
  end
with lin_bounds (inc : Z) (ls : lays) : Prop :=
  match ls with LsNil => True | LsCons l ls => in_bounds inc l /\ lin_bounds (lneurons l) ls end
with pin_bounds (ps : phls) : Prop :=
  match ps with PsNil => True | PsCons _ cnt l ps => in_bounds cnt l /\ pin_bounds ps end.

Definition exist_in (objs : list (Z * Z)) (l : list nat) : Prop := Forall (fun id => (id < length objs)%nat) l.
Definition all_fresh (objs : list (Z * Z)) (l : list nat) : Prop :=
  Forall (fun id => nth_error objs id = Some (65535, 0)) l.

(** m_layerIdx and m_incoming_neurons_cnt are only set together *)
Definition sane (objs : list (Z * Z)) : Prop := forall id o, nth_error objs id = Some o -> fst o = 65535 -> snd o = 0.

(** ** Activations of the inner layers of a horizontal pack *)
(** The object whose activations are those of the structure *)
Fixpoint top (l : lay) : option nat :=
  match l with LyV _ ls => ltop ls | LyPlain id _ | LyH id _ _ | LyT id _ _ => Some id end
with ltop (ls : lays) : option nat :=
  match ls with LsNil => None | LsCons l LsNil => top l | LsCons _ ls => ltop ls end.
(** The inner layers of a pack from the first one *)
Fixpoint inner (ps : phls) : list lay := match ps with PsNil => [] | PsCons _ _ l ps => l :: inner ps end.
(** Columns before the i-th inner layer *)
Fixpoint columns_before (i : nat) (ls : list lay) : Z :=
  match i, ls with S i, l :: ls => lneurons l + columns_before i ls | _, _ => 0 end.

(** Layers of one neuron each, one above the other *)
Fixpoint flat (l : list nat) : lays := match l with [] => LsNil | id :: t => LsCons (LyPlain id 1) (flat t) end.

(** ** Sizes *)
(** The neurons of a structure: those of the topmost layer of a vertical pack, those of
    all inner layers of a horizontal pack and its additional ones, [k] times those of a
    tiled layer *)
Fixpoint width (l : lay) : Z :=
  match l with
  | LyPlain _ n => n
  | LyV _ ls => top_width 0 ls
  | LyH _ add ps => add + all_widths ps
  | LyT _ k l => width l * k
  end
with top_width (below : Z) (ls : lays) : Z :=
  match ls with LsNil => below | LsCons l ls => top_width (width l) ls end
with all_widths (ps : phls) : Z := match ps with PsNil => 0 | PsCons _ _ l ps => all_widths ps + width l end.

(** Rows and columns of the activations of each object for [m] samples: one row for each
    sample, for each tile of each sample inside of a tiled layer *)
Fixpoint shapes (m : Z) (l : lay) : list (nat * Z * Z) :=
  match l with
  | LyPlain id n => [(id, m, n)]
  | LyV _ ls => lshapes m ls
  | LyH id _ ps => (id, m, width l) :: pshapes m ps
  | LyT id k l' => (id, m, width l) :: shapes (m * k) l'
  end
with lshapes (m : Z) (ls : lays) : list (nat * Z * Z) :=
  match ls with LsNil => [] | LsCons l ls => shapes m l ++ lshapes m ls end
with pshapes (m : Z) (ps : phls) : list (nat * Z * Z) :=
  match ps with PsNil => [] | PsCons _ _ l ps => shapes m l ++ pshapes m ps end.
(** an entry of [place] without the location *)
Definition shape_of (e : nat * (nat * Z * Z * Z)) : nat * Z * Z :=
  match e with (id, (_, _, r, c)) => (id, r, c) end.
