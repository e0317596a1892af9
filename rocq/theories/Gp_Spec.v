(** What a gated pack of layers is meant to compute. *)
From Coq Require Import Reals.
From Coquelicot Require Import Coquelicot.
From Verif Require Import Base Act_Model Act_Spec Net_Model Net_Spec Gp_Model.
Local Open Scope nat_scope.

(** ** Forward *)

(** the gate of the i-th layer for sample r: the input itself, or whether it exceeds the
    threshold *)
Definition gate_of (bin : option R) (v : R) : R :=
  match bin with None => v | Some f => if Rlt_dec f v then 1%R else 0%R end.
Definition gate (m : nat) (B : list R) (x : gpack) (i r : nat) : R := gate_of (g_bin x) (nth (m * (g_gofs x + i) + r) B 0%R).

(** the activations of an inner layer for all samples, were there no gate *)
Definition alone (m : nat) (B : list R) (q : glay) : list R :=
  let '(o, c, l) := q in
  match fprop m (biased m (slice (m * o) (m * c) B)) l with Some l' => acts l' | None => [] end.

(** one [m x n] matrix given by its entries *)
Definition table (m n : nat) (f : nat -> nat -> R) : list R := map (fun q => f (q mod m) (q / m)) (seq 0 (m * n)).

(** The gates, their complements if asked for, and the activations of the inner layers
    multiplied by their gates *)
Definition gated (m : nat) (B : list R) (x : gpack) : list R :=
  flat_map (fun p => table m (neurons (snd (snd p))) (fun r c => (gate m B x (fst p) r * nth (m * c + r) (alone m B (snd p)) 0)%R))
    (combine (seq 0 (length (g_lay x))) (g_lay x)).
Definition pack_acts (m : nat) (B : list R) (x : gpack) : list R :=
  table m (length (g_lay x)) (fun r i => gate m B x i r) ++
  (if g_add x then table m (length (g_lay x)) (fun r i => (1 - gate m B x i r)%R) else []) ++ gated m B x.

(** gates are 0 or 1 *)
Definition binary (m : nat) (B : list R) (x : gpack) : Prop :=
  forall i r, i < length (g_lay x) -> r < m -> gate m B x i r = 0%R \/ gate m B x i r = 1%R.

(** ** Packs as they are put together: _lph_base.h 100-124 checks that every incoming
    neuron is used *)
Definition within (col ofs cnt : nat) : Prop := ofs <= col < ofs + cnt.
Definition g_wf (x : gpack) : Prop :=
  Forall (fun q => wf (snd q) /\ incoming (snd q) = snd (fst q) /\ fst (fst q) + snd (fst q) <= g_inc x) (g_lay x) /\
  g_gofs x + length (g_lay x) <= g_inc x /\ g_lay x <> [] /\
  forall col, col < g_inc x -> within col (g_gofs x) (length (g_lay x)) \/
    exists q, In q (g_lay x) /\ within col (fst (fst q)) (snd (fst q)).

(** ** Backward: derivatives of the sum of activations weighed by dL/dA *)
Definition weighed (m : nat) (D B : list R) (x : gpack) : R :=
  sumR (map (fun q => (nth q D 0 * nth q (pack_acts m B x) 0)%R) (seq 0 (m * g_neurons x))).

(** samples for which the gate of the i-th layer is open *)
Definition opened (m : nat) (B : list R) (x : gpack) (i : nat) : list nat :=
  filter (fun r => if Req_EM_T (gate m B x i r) 0 then false else true) (seq 0 m).
(** what the i-th layer sees: the open samples *)
Definition shown (m : nat) (B : list R) (x : gpack) (i : nat) (q : glay) : list R :=
  let rs := opened m B x i in
  table (length rs) (snd (fst q)) (fun j c => nth (m * (fst (fst q) + c) + nth j rs 0) B 0%R).
(** every inner layer is differentiable at the open samples *)
Definition g_smooth (m : nat) (B : list R) (x : gpack) : Prop :=
  forall i q, nth_error (g_lay x) i = Some q -> opened m B x i <> [] ->
    smooth_at (length (opened m B x i)) (biased (length (opened m B x i)) (shown m B x i q)) (snd q).

(** the fully connected layers inside, with the number of tiles that share the weights *)
Definition lfcs (ls : list glay) : list (nat * nat * list R) := flat_map (fun q => fcs 1 (snd q)) ls.

(** one weight replaced *)
Definition gset (id j : nat) (v : R) (x : gpack) : gpack :=
  mkGP (g_inc x) (g_gofs x) (g_bin x) (g_add x)
    (map (fun q => (fst q, with_w (fun i W => if Nat.eqb i id then setn j v W else W) (snd q))) (g_lay x))
    (g_A x) (g_prev x) (g_rows x) (g_max x) (g_b1 x) (g_b2 x).
