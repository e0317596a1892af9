(** What back-propagation through a horizontal pack should give the layer below *)
From Coq Require Import Reals.
From Verif Require Import Base Act_Model Net_Model.
Local Open Scope nat_scope.

(** The inner layers with the number of columns before them, their offset and count *)
Fixpoint members (first : nat) (h : hpack) : list (nat * nat * nat * layer) :=
  match h with HNil => [] | HCons ofs cnt l h => (first, ofs, cnt, l) :: members (first + neurons l) h end.

(** [c] is the dL/dA an inner layer answers with, when it is given its columns of dL/dA of
    the pack and sees its range of the activations [B] of the layer below *)
Definition answers (gw : gworks) (m : nat) (B : list R) (d : dbuf) (x : nat * nat * nat * layer) (c : list R) : Prop :=
  let '(first, ofs, cnt, l) := x in
  exists d1 e1 l' d2 e2 sw,
    shaped m (neurons l) d1 = true /\ content d1 = slice (m * first) (m * neurons l) (b_d d) /\
    bprop gw m (biased m (slice (m * ofs) (m * cnt) B)) true d1 e1 l = Some (l', d2, e2, sw) /\
    c = content (if sw then e2 else d2).

(** What the inner layer [x] with the answer [c] gives to row [r] of the neuron [k] below *)
Definition share (m r k : nat) (xc : (nat * nat * nat * layer) * list R) : R :=
  let '(first, ofs, cnt, l, c) := xc in
  if (ofs <=? k) && (k <? ofs + cnt) then nth (m * (k - ofs) + r) c 0%R else 0%R.
