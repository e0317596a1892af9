(** The function a network computes and the function training descends, for one sample
    at a time, without batches, matrices or buffers. *)
From Coq Require Import Reals.
From Coquelicot Require Import Coquelicot.
From Verif Require Import Base Act_Model Act_Spec Smx_Model Smx_Spec TData_Model TData_Spec Train_Model Train_Spec Net_Model Net_Spec Fit_Model.
Local Open Scope nat_scope.

(** Row [r] of a column-major matrix of [m] rows and [n] columns *)
Definition row (m n r : nat) (A : list R) : list R := map (fun c => nth (r + c * m) A 0%R) (seq 0 n).

(** ** The function *)
(** net input of neuron [c] out of [n]; the weights of the bias are the last column *)
Definition zed (n inc : nat) (W v : list R) (c : nat) : R :=
  (sumR (map (fun k => nth k v 0 * nth (c + k * n) W 0) (seq 0 inc)) + nth (c + inc * n) W 0)%R.

Fixpoint out (l : layer) (v : list R) : list R :=
  match l with
  | LFC _ a inc n W _ _ => map (fun c => act_f a (zed n inc W v c)) (seq 0 n)
  | LI _ _ => v
  | LPV s => sout s v
  | LPH _ h _ _ => hout h v
  | LPT k l _ _ => flat_map (fun t => out l (Net_Model.slice (t * incoming l) (incoming l) v)) (seq 0 k)
  end
with sout (s : stack) (v : list R) : list R :=
  match s with SOne l => out l v | SCons l b => out l (sout b v) end
with hout (h : hpack) (v : list R) : list R :=
  match h with HNil => [] | HCons ofs cnt l h => out l (Net_Model.slice ofs cnt v) ++ hout h v end.

(** every activation of the hidden layers is differentiable where the sample takes it *)
Fixpoint kinkless (l : layer) (v : list R) : Prop :=
  match l with
  | LFC _ a inc n W _ _ => forall c, c < n -> ex_derive (act_f a) (zed n inc W v c)
  | LI _ _ => True
  | LPV s => skinkless s v
  | LPH _ h _ _ => hkinkless h v
  | LPT k l _ _ => forall t, t < k -> kinkless l (Net_Model.slice (t * incoming l) (incoming l) v)
  end
with skinkless (s : stack) (v : list R) : Prop :=
  match s with SOne l => kinkless l v | SCons l b => skinkless b v /\ kinkless l (sout b v) end
with hkinkless (h : hpack) (v : list R) : Prop :=
  match h with HNil => True | HCons ofs cnt l h => kinkless l (Net_Model.slice ofs cnt v) /\ hkinkless h v end.

Definition hidden (x : net) (v : list R) : list R := match n_hid x with None => v | Some s => sout s v end.
Definition net_fun (x : net) (v : list R) : list R :=
  map (fun c => act_f (outp_act (n_out x)) (zed (n_n x) (n_inc x) (n_W x) (hidden x v) c)) (seq 0 (n_n x)).
(** loss of one sample with label [y] *)
Definition sample_loss (x : net) (v y : list R) : R := loss_spec (outp_loss 0 (n_out x)) (n_n x) (net_fun x v) y.
Definition net_kinkless (x : net) (v y : list R) : Prop :=
  match n_hid x with None => True | Some s => skinkless s v end /\
  forall c, c < n_n x -> loss_domain (n_out x) (nth c y 0%R) (zed (n_n x) (n_inc x) (n_W x) (hidden x v) c).

(** ** Data *)
Section D.
Context (S : sets R R).
(** sample [i] of a matrix of samples, in either layout *)
Definition sample (m : smx R) (i : nat) : list R :=
  map (fun j => match scell m i j with Some v => v | None => 0%R end) (seq 0 (sample_size m)).
(** loss of sample [i] of data set [id] and the mean over some samples *)
Definition loss_at (x : net) (id i : nat) : R := sample_loss x (sample (set_x S id) i) (sample (set_y S id) i).
Definition risk (x : net) (ids : list nat) : R := mean_over (loss_at x 0) ids.
Definition risk_smooth (x : net) (ids : list nat) : Prop :=
  Forall (fun i => net_kinkless x (sample (x0 S) i) (sample (y0 S) i)) ids.

(** ** Learning *)
(** [G id], [Go]: the partial derivatives of the mean loss over the samples [ids]; for
    a layer repeated in [k] tiles, the [k]-th part of them (C34) *)
Definition gradient (ids : list nat) (x : net) (G : nat -> list R) (Go : list R) : Prop :=
  (forall j, j < length (n_W x) -> is_derive (fun v => risk (set_out j v x) ids) (nth j (n_W x) 0%R) (nth j Go 0%R)) /\
  (forall id k W j, In (id, k, W) (nfcs x) -> j < length W ->
    is_derive (fun v => risk (set_hid id j v x) ids) (nth j W 0%R) (INR k * nth j (G id) 0)%R).

(** the rules by which weights are changed keep the sizes *)
Definition rule_ok (r : rule) : Prop :=
  (forall id W, length (r_pre r id W) = length W) /\ (forall W, length (r_preo r W) = length W) /\
  (forall id, gw_ok (r_gw r id)) /\ gw_ok (r_gwo r).

(** what is left of a network when everything but layout and weights is forgotten *)
Fixpoint plain (l : layer) : layer :=
  match l with
  | LFC id a inc n W _ _ => LFC id a inc n W [] []
  | LI n _ => LI n []
  | LPV s => LPV (splain s)
  | LPH inc h _ _ => LPH inc (hplain h) [] []
  | LPT k l _ _ => LPT k (plain l) [] []
  end
with splain (s : stack) : stack := match s with SOne l => SOne (plain l) | SCons l b => SCons (plain l) (splain b) end
with hplain (h : hpack) : hpack := match h with HNil => HNil | HCons o c l h => HCons o c (plain l) (hplain h) end.
Definition model (x : net) : net :=
  mkN (option_map splain (n_hid x)) (n_out x) (n_inc x) (n_n x) (n_W x) [] [] ([], []).

(** one step of learning from the samples [ids] with rule [r] *)
Definition gd_step (r : rule) (ids : list nat) (x x' : net) : Prop :=
  let x1 := reweight (r_pre r) (r_preo r) x in
  exists G Go, (risk_smooth x1 ids -> gradient ids x1 G Go) /\
    length Go = length (n_W x1) /\ (forall id k W, In (id, k, W) (nfcs x1) -> length (G id) = length W) /\
    x' = reweight (fun id W => fst (r_gw r id W (G id))) (fun W => fst (r_gwo r W Go)) x1.
Inductive descends : list (rule * list nat) -> net -> net -> Prop :=
| ds_nil x : descends [] x x
| ds_cons r ids steps x x1 x2 : gd_step r ids x x1 -> descends steps x1 x2 -> descends ((r, ids) :: steps) x x2.

(** the batches of a session with batch size [tb]: full batches of the epochs' orders *)
Definition batches (tb : nat) (perms : list (list nat)) : list (list nat) :=
  flat_map (fun p => map (TData_Spec.slice p tb) (seq 0 (cnt S 0 / tb))) perms.
End D.

(** the rules applied by the back-propagations in a history, in order of time *)
Fixpoint rules (H : hooks) (h : list event) : list rule :=
  match h with
  | [] => []
  | v :: h => rules H h ++ match v with
      | VBprop _ _ _ => [mkRule (r_pre (k_rule H (tl h))) (r_preo (k_rule H (tl h))) (r_gw (k_rule H h)) (r_gwo (k_rule H h))]
      | _ => []
      end
  end.

(** ** Plain gradient descent *)
(** w' = w - lr g *)
Definition sgd (lr : R) : rule :=
  let step W G := (map (fun j => nth j W 0 - lr * nth j G 0)%R (seq 0 (length W)), G) in
  mkRule (fun _ W => W) (fun W => W) (fun _ => step) step.
(** every weight moves by -lr times the derivative of the mean loss by that weight ([k]
    times the move, when the layer is used [k] times); nothing else changes *)
Definition sgd_step (S : sets R R) (lr : R) (ids : list nat) (x x' : net) : Prop :=
  exists f g, x' = reweight f g x /\ length (g (n_W x)) = length (n_W x) /\
    (forall id k W, In (id, k, W) (nfcs x) -> length (f id W) = length W) /\
    (risk_smooth S x ids ->
      (forall j, j < length (n_W x) ->
        nth j (g (n_W x)) 0%R = (nth j (n_W x) 0 - lr * Derive (fun v => risk S (set_out j v x) ids) (nth j (n_W x) 0))%R) /\
      (forall id k W j, In (id, k, W) (nfcs x) -> j < length W ->
        (INR k * (nth j (f id W) 0 - nth j W 0))%R = (- lr * Derive (fun v => risk S (set_hid id j v x) ids) (nth j W 0))%R)).
Inductive sgd_run (S : sets R R) : list (R * list nat) -> net -> net -> Prop :=
| sr_nil x : sgd_run S [] x x
| sr_cons lr ids steps x x1 x2 : sgd_step S lr ids x x1 -> sgd_run S steps x1 x2 -> sgd_run S ((lr, ids) :: steps) x x2.
