(** What the shared memory promises. *)
From Verif Require Import Base Mem_Model.
Local Open Scope nat_scope.

(** The layer [l] sits at position [who] and sees batches of up to [B] samples, [T]
    in training. *)
Inductive nth_l : nat -> mlist -> mlayer -> Prop :=
| nth_l0 l ls : nth_l 0 (MCons l ls) l
| nth_lS i l l' ls : nth_l i ls l -> nth_l (S i) (MCons l' ls) l.
Inductive sits (B0 T0 : nat) (x : mnet) : list nat -> nat -> nat -> mlayer -> Prop :=
| sits_net i l : nth_l i (m_hid x) l -> sits B0 T0 x [i] B0 T0 l
| sits_v who B T ls i l : sits B0 T0 x who B T (MV ls) -> nth_l i ls l -> sits B0 T0 x (who ++ [i]) B T l
| sits_h who B T inc ls i l : sits B0 T0 x who B T (MH inc ls) -> nth_l i ls l -> sits B0 T0 x (who ++ [i]) B T l
| sits_t who B T k l : sits B0 T0 x who B T (MT k l) -> sits B0 T0 x (who ++ [0]) (B * k) (T * k) l.

(** One is the other or contains it: both are at work at the same time *)
Definition nested (a b : list nat) : Prop := exists c, b = a ++ c \/ a = b ++ c.
Definition apart (p q : piece) : Prop := p_ofs p + p_len p <= p_ofs q \/ p_ofs q + p_len q <= p_ofs p.
Definition inside (total : nat) (p : piece) : Prop := p_ofs p + p_len p <= total.
Definition gets (ps : list piece) (who : list nat) (u : use) (n : nat) : Prop :=
  exists p, In p ps /\ p_who p = who /\ p_use p = u /\ n <= p_len p.

(** The biggest matrix a layer needs in the buffer its dL/dA arrives in: dL/dA itself,
    for a fully connected layer that learns also dL/dW. *)
Definition need_dLdA (T : nat) (l : mlayer) : nat :=
  match l with MFC inc n true => Nat.max (T * n) (n * (inc + 1)) | MFC _ n false => T * n
  | MH _ ls => T * mtotal ls | MT k l => Nat.max (T * (k * mneurons l)) (T * k * mincoming l) | _ => 0 end.
(** [l'] is [l] or a layer in it that works on the same pair of dL/dA buffers *)
Inductive within : nat -> mlayer -> nat -> mlayer -> Prop :=
| w_self T l : within T l T l
| w_v T ls i l T' l' : nth_l i ls l -> within T l T' l' -> within T (MV ls) T' l'
| w_t T k l T' l' : within (T * k) l T' l' -> within T (MT k l) T' l'.
