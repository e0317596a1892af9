(** What it means that a (possibly thread-parallel) kernel call computes
    something. *)
From Coq Require Import Permutation.
From Verif Require Import Base Workers_Model Workers_Spec Kern_Model.

(** The ranges are non-empty and cover 0..cnt-1, every index once. *)
Definition tiles (parts : list prange) (cnt : nat) : Prop :=
  Permutation (flat_map idxs parts) (seq 0 cnt) /\
  (forall p, In p parts -> 0 < r_cnt p).

(** No two threads write the same cell. *)
Definition race_free {A} (trs : list (list (wr A))) : Prop :=
  forall i j ti tj a v v', i <> j ->
    nth_error trs i = Some ti -> nth_error trs j = Some tj ->
    In (a, v) ti -> ~ In (a, v') tj.

(** The call is free of undefined behaviour and of data races and, in whatever
    order its threads proceed, takes the destination storage [d] to a storage
    satisfying [post]. *)
Definition computes {A} (call : option (list (list (wr A))))
  (d : list A) (post : list A -> Prop) : Prop :=
  exists trs, call = Some trs /\ race_free trs /\
    forall ws, interleaving trs ws ->
      exists d', apply_writes d ws = Some d' /\ length d' = length d /\ post d'.

(** Storage [d'] of an r x c matrix holds [f] in its first [r] rows and [c]
    columns (leading dimension [ld]) and agrees with [d] everywhere else. *)
Definition holds_block {A} (ld r c : nat) (f : nat -> nat -> option A) (d d' : list A) : Prop :=
  (forall i j, i < r -> j < c -> bget d' (i + ld * j) = f i j /\ f i j <> None) /\
  (forall a, (forall i j, i < r -> j < c -> a <> i + ld * j) -> bget d' a = bget d a).
