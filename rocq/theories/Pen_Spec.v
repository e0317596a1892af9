(** What training with penalties of activations minimises and what is reported. *)
From Coq Require Import Reals.
From Verif Require Import Base Act_Model Act_Spec Net_Model Net_Spec La_Model La_Spec Pen_Model.
Local Open Scope nat_scope.

(** The network without the penalties *)
Fixpoint plain (s : pstack) : option stack :=
  match s with
  | [] => None
  | (l, _) :: b => Some (match plain b with None => SOne l | Some s => SCons l s end)
  end.
Definition strip (x : pnet) : net := mkN (plain (p_hid x)) (p_out x) (p_inc x) (p_n x) (p_W x) (p_G x) (p_A x) (p_buf x).

(** Its hidden layers after forward propagation of [X] *)
Fixpoint layers_of (s : stack) : list layer := match s with SOne l => [l] | SCons l b => l :: layers_of b end.
Definition shown_layers (m : nat) (X : list R) (x : pnet) : list layer :=
  match plain (p_hid x) with
  | None => []
  | Some s => match sfprop m X s with Some s' => layers_of s' | None => [] end
  end.

(** The penalties of the activations of the layers *)
Definition penalties (m : nat) (X : list R) (x : pnet) : R :=
  sumR (map (fun q => pen_value (snd (fst q)) m (neurons (snd q)) (acts (snd q))) (combine (p_hid x) (shown_layers m X x))).

(** The loss as it is reported for one batch, and mean of losses and penalties *)
Definition reported (m : nat) (X Y : list R) (x : pnet) : R := (mean_loss m X Y (strip x) + penalties m X x)%R.
Definition objective (m : nat) (X Y : list R) (x : pnet) : R := (mean_loss m X Y (strip x) + / INR m * penalties m X x)%R.

(** Penalties that can be computed, add to every entry, and have a derivative *)
Definition well_penalised (t : tmem) (m : nat) (X : list R) (x : pnet) : Prop :=
  forall las l a, In (las, l) (combine (map snd (p_hid x)) (shown_layers m X x)) -> In a las -> a_scale a <> 0%R ->
    usable a m (neurons l) t /\ a_nz a = false /\ (a_fp a = true -> m * neurons l <= length (a_mtx a)) /\
    forall q, q < m * neurons l -> regular a (nth q (acts l) 0%R).

(** one weight replaced *)
Definition pset_hid (id j : nat) (v : R) (x : pnet) : pnet :=
  mkPN (map (fun q => (with_w (fun i W => if Nat.eqb i id then setn j v W else W) (fst q), snd q)) (p_hid x))
    (p_out x) (p_inc x) (p_n x) (p_W x) (p_G x) (p_A x) (p_buf x).
Definition pset_out (j : nat) (v : R) (x : pnet) : pnet :=
  mkPN (p_hid x) (p_out x) (p_inc x) (p_n x) (setn j v (p_W x)) (p_G x) (p_A x) (p_buf x).
