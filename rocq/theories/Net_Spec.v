(** Specification of back-propagation. *)
From Coq Require Import Reals Bool.
From Coquelicot Require Import Coquelicot.
From Verif Require Import Base Act_Model Act_Spec Net_Model.
Local Open Scope nat_scope.

(** ** Networks as they are put together *)

(** Sizes fit; the parameters of the activations are those the kernels accept. *)
Fixpoint wf (l : layer) : Prop :=
  match l with
  | LFC _ a inc n W _ _ => 0 < inc /\ 0 < n /\ length W = n * (inc + 1) /\ admissible a
  | LI n _ => 0 < n
  | LPV s => swf s
  | LPH inc h _ _ => 0 < hneurons h /\ hwf inc h
  | LPT k l _ _ => 0 < k /\ wf l
  end
with swf (s : stack) : Prop :=
  match s with SOne l => wf l | SCons l b => wf l /\ swf b /\ incoming l = sneurons b end
with hwf (inc : nat) (h : hpack) : Prop :=
  match h with HNil => True | HCons ofs cnt l h => wf l /\ incoming l = cnt /\ ofs + cnt <= inc /\ hwf inc h end.

(** The weights of every fully connected layer are replaced. *)
Fixpoint with_w (f : nat -> list R -> list R) (l : layer) : layer :=
  match l with
  | LFC id a inc n W G A => LFC id a inc n (f id W) G A
  | LI n A => LI n A
  | LPV s => LPV (swith_w f s)
  | LPH inc h b1 b2 => LPH inc (hwith_w f h) b1 b2
  | LPT k l inn A => LPT k (with_w f l) inn A
  end
with swith_w (f : nat -> list R -> list R) (s : stack) : stack :=
  match s with SOne l => SOne (with_w f l) | SCons l b => SCons (with_w f l) (swith_w f b) end
with hwith_w (f : nat -> list R -> list R) (h : hpack) : hpack :=
  match h with HNil => HNil | HCons ofs cnt l h => HCons ofs cnt (with_w f l) (hwith_w f h) end.

(** Fully connected layers: identifier, number of tiles it is repeated in, weights. *)
Fixpoint fcs (k : nat) (l : layer) : list (nat * nat * list R) :=
  match l with
  | LFC id _ _ _ W _ _ => [(id, k, W)]
  | LI _ _ => []
  | LPV s => sfcs k s
  | LPH _ h _ _ => hfcs k h
  | LPT j l _ _ => fcs (k * j) l
  end
with sfcs (k : nat) (s : stack) : list (nat * nat * list R) :=
  match s with SOne l => fcs k l | SCons l b => fcs k l ++ sfcs k b end
with hfcs (k : nat) (h : hpack) : list (nat * nat * list R) :=
  match h with HNil => [] | HCons _ _ l h => fcs k l ++ hfcs k h end.

(** ... and the gradients with which they were updated. *)
Fixpoint grads (k : nat) (l : layer) : list (nat * nat * list R) :=
  match l with
  | LFC id _ _ _ _ G _ => [(id, k, G)]
  | LI _ _ => []
  | LPV s => sgrads k s
  | LPH _ h _ _ => hgrads k h
  | LPT j l _ _ => grads (k * j) l
  end
with sgrads (k : nat) (s : stack) : list (nat * nat * list R) :=
  match s with SOne l => grads k l | SCons l b => grads k l ++ sgrads k b end
with hgrads (k : nat) (h : hpack) : list (nat * nat * list R) :=
  match h with HNil => [] | HCons _ _ l h => grads k l ++ hgrads k h end.

Definition fid (q : nat * nat * list R) : nat := fst (fst q).

(** ** Points of differentiability: the activation of every hidden neuron is
    differentiable at its net input, for every row of the batch. *)
Definition net_input (m n inc : nat) (P W : list R) (r c : nat) : R :=
  sumR (map (fun k => (nth (r + k * m) P 0 * nth (c + k * n) W 0)%R) (seq 0 (inc + 1))).

Fixpoint smooth_at (m : nat) (P : list R) (l : layer) : Prop :=
  match l with
  | LFC _ a inc n W _ _ => forall r c, r < m -> c < n -> ex_derive (act_f a) (net_input m n inc P W r c)
  | LI _ _ => True
  | LPV s => ssmooth_at m P s
  | LPH inc h _ _ => hsmooth_at m inc P h
  | LPT k l _ _ => smooth_at (k * m) (biased (k * m) (roll m (incoming l) k P)) l
  end
with ssmooth_at (m : nat) (P : list R) (s : stack) : Prop :=
  match s with
  | SOne l => smooth_at m P l
  | SCons l b => ssmooth_at m P b /\ exists b', sfprop m P b = Some b' /\ smooth_at m (biased m (sacts b')) l
  end
with hsmooth_at (m inc : nat) (P : list R) (h : hpack) : Prop :=
  match h with
  | HNil => True
  | HCons ofs cnt l h => smooth_at m (biased m (slice (m * ofs) (m * cnt) P)) l /\ hsmooth_at m inc P h
  end.

(** ** The network *)
Definition net_wf (i : nat) (x : net) : Prop :=
  match n_hid x with None => n_inc x = i | Some s => swf s /\ sincoming s = i /\ sneurons s = n_inc x end /\
  0 < i /\ 0 < n_inc x /\ 0 < n_n x /\ length (n_W x) = n_n x * (n_inc x + 1) /\ admissible (outp_act (n_out x)).

Definition nfcs (x : net) : list (nat * nat * list R) := match n_hid x with None => [] | Some s => sfcs 1 s end.
Definition ngrads (x : net) : list (nat * nat * list R) := match n_hid x with None => [] | Some s => sgrads 1 s end.

(** one weight of one hidden layer, one weight of the output layer replaced *)
Definition set_hid (id j : nat) (v : R) (x : net) : net :=
  mkN (option_map (swith_w (fun i W => if Nat.eqb i id then setn j v W else W)) (n_hid x))
    (n_out x) (n_inc x) (n_n x) (n_W x) (n_G x) (n_A x) (n_buf x).
Definition set_out (j : nat) (v : R) (x : net) : net :=
  mkN (n_hid x) (n_out x) (n_inc x) (n_n x) (setn j v (n_W x)) (n_G x) (n_A x) (n_buf x).

(** The mean loss over the batch at the network's weights: forward propagation, then
    the loss of the output's activations. *)
Definition mean_loss (m : nat) (X Y : list R) (x : net) : R :=
  match net_fprop m X x with
  | Some x' => (/ INR m * loss_spec (outp_loss 0 (n_out x)) (m * n_n x) (n_A x') Y)%R
  | None => 0%R
  end.

(** Activations are differentiable at all net inputs of hidden layers, the loss at all
    net inputs of the output layer. *)
Definition net_smooth (m : nat) (X Y : list R) (x : net) : Prop :=
  exists P, match n_hid x with
            | None => P = X
            | Some s => ssmooth_at m X s /\ exists s', sfprop m X s = Some s' /\ P = biased m (sacts s')
            end /\
  forall r c, r < m -> c < n_n x ->
    loss_domain (n_out x) (nth (m * c + r) Y 0%R) (net_input m (n_n x) (n_inc x) P (n_W x) r c).

(** apply_grad keeps the sizes of its matrices. *)
Definition gw_ok (gw : list R -> list R -> list R * list R) : Prop :=
  forall W g, length g = length W -> length (fst (gw W g)) = length W /\ length (snd (gw W g)) = length g.

(** The lowest layer, the one directly on the input, is an identity layer. *)
Fixpoint bottom_id (l : layer) : bool :=
  match l with
  | LI _ _ => true
  | LPV s => sbottom_id s
  | _ => false
  end
with sbottom_id (s : stack) : bool := match s with SOne l => bottom_id l | SCons _ b => sbottom_id b end.

(** ** Back-propagation without buffers: every layer is handed the vector with dL/dA of
    its activations and returns dL/dA of the layer below. *)
Definition add_at (i : nat) (w acc : list R) : list R :=
  map (fun q => (nth q acc 0 + (if (i <=? q) && (q <? i + length w) then nth (q - i) w 0 else 0))%R) (seq 0 (length acc)).

Fixpoint pback (gw : gworks) (m : nat) (P : list R) (v : list R) (l : layer) : layer * list R :=
  match l with
  | LFC id a inc n W _ A =>
      let z := map (fun q => (act_df a (nth q A 0) * nth q v 0)%R) (seq 0 (m * n)) in
      let g := gemm true false n (inc + 1) m (1 / INR m)%R z m P m in
      (LFC id a inc n (fst (gw id W g)) g z, gemm false false m inc n 1%R z m W n)
  | LI _ _ => (l, v)
  | LPV s => let '(s', w) := spback gw m P v s in (LPV s', w)
  | LPH inc h b1 b2 => let '(h', w) := hpback gw m inc P v h in (LPH inc h' b1 b2, w)
  | LPT k l inn A =>
      let '(l', w) := pback gw (k * m) (biased (k * m) inn) (roll m (neurons l) k v) l in
      (LPT k l' inn A, unroll m (incoming l) k w)
  end
with spback (gw : gworks) (m : nat) (P : list R) (v : list R) (s : stack) : stack * list R :=
  match s with
  | SOne l => let '(l', w) := pback gw m P v l in (SOne l', w)
  | SCons l b =>
      let '(l', w) := pback gw m (biased m (sacts b)) v l in
      let '(b', w') := spback gw m P w b in (SCons l' b', w')
  end
with hpback (gw : gworks) (m inc : nat) (P : list R) (v : list R) (h : hpack) : hpack * list R :=
  match h with
  | HNil => (HNil, repeat 0%R (m * inc))
  | HCons ofs cnt l h =>
      let '(h', acc) := hpback gw m inc P (skipn (m * neurons l) v) h in
      let '(l', w) := pback gw m (biased m (slice (m * ofs) (m * cnt) P)) (firstn (m * neurons l) v) l in
      (HCons ofs cnt l' h', add_at (m * ofs) w acc)
  end.

(** The storages inside horizontal packs, which are scratch memory, are left out of
    the comparison. *)
Fixpoint bare (l : layer) : layer :=
  match l with
  | LFC _ _ _ _ _ _ _ | LI _ _ => l
  | LPV s => LPV (sbare s)
  | LPH inc h _ _ => LPH inc (hbare h) [] []
  | LPT k l inn A => LPT k (bare l) inn A
  end
with sbare (s : stack) : stack := match s with SOne l => SOne (bare l) | SCons l b => SCons (bare l) (sbare b) end
with hbare (h : hpack) : hpack := match h with HNil => HNil | HCons ofs cnt l h => HCons ofs cnt (bare l) (hbare h) end.

(** The gradient buffers suffice for a batch of m rows when they were made for M. *)
Definition room (m M : nat) (x : net) : Prop :=
  match n_hid x with None => True | Some s => sbottom_id s = false \/ m * sincoming s <= dLdA_size M s end.

(** No layer is tiled. *)
Definition untiled (x : net) : Prop := forall id k W, In (id, k, W) (nfcs x) -> k = 1.

(** What back-propagation leaves in a network, without the buffers. *)
Definition dLdZ_out (Y : list R) (x : net) : list R :=
  map (fun q => outp_dLdZ (n_out x) (nth q Y 0%R) (nth q (n_A x) 0%R)) (seq 0 (length (n_A x))).
Definition net_pback (gw : gworks) (m : nat) (X Y : list R) (x : net) : option stack :=
  option_map (fun s => fst (spback gw m X (gemm false false m (n_inc x) (n_n x) 1%R (dLdZ_out Y x) m (n_W x) (n_n x)) s)) (n_hid x).

(** ** A training session: one forward and one backward pass after another *)
Record step := mkS { s_gw : gworks; s_gwo : list R -> list R -> list R * list R; s_m : nat; s_X : list R; s_Y : list R }.
Fixpoint session (steps : list step) (x : net) : option net :=
  match steps with
  | [] => Some x
  | st :: steps =>
      do x <- net_fprop (s_m st) (biased (s_m st) (s_X st)) x;
      do x <- net_bprop (s_gw st) (s_gwo st) (s_m st) (biased (s_m st) (s_X st)) (s_Y st) x;
      session steps x
  end.
(** a batch of at most M rows for a network with i inputs and o outputs *)
Definition step_ok (M i o : nat) (st : step) : Prop :=
  (forall id, gw_ok (s_gw st id)) /\ gw_ok (s_gwo st) /\ 0 < s_m st <= M /\ length (s_X st) = s_m st * i /\ length (s_Y st) = s_m st * o.
