(** Specification of the optimizers: published formulas as functions of the history of
    gradients of one weight, oldest first, without reference to the implementation's
    recurrences. *)
From Coq Require Import Reals.
From Verif Require Import Base Workers_Model Kern_Model IdxMax_Spec Act_Spec Norm_Spec Opt_Model.
Local Open Scope R_scope.

(** exponential moving average started at zero: sum over s of (1-b) b^(n-1-s) l_s *)
Definition ema (b : R) (l : list R) : R :=
  let n := length l in sumR (map (fun s => (1 - b) * b ^ (n - 1 - s) * nth s l 0) (seq 0 n)).
(** the one started at the first value: b^(n-1) l_0 + sum over s>0 of (1-b) b^(n-1-s) l_s *)
Definition ema1 (b : R) (l : list R) : R :=
  let n := length l in
  b ^ (n - 1) * nth 0 l 0 + sumR (map (fun s => (1 - b) * b ^ (n - 1 - s) * nth s l 0) (seq 1 (n - 1))).
(** maximum over s of b^(n-1-s) |l_s| *)
Definition maxdisc (b : R) (l : list R) : R :=
  let n := length l in fold_right Rmax 0 (map (fun s => b ^ (n - 1 - s) * Rabs (nth s l 0)) (seq 0 n)).

Definition sqs (l : list R) : list R := map (fun x => x ^ 2) l.
Definition abss (l : list R) : list R := map Rabs l.
Definition sign_of (x : R) : R := if Rlt_dec 0 x then 1 else if Rlt_dec x 0 then -1 else 0.

(** algorithms of the literature *)
Inductive algo :=
| SGD | RMSprop (d eps : R) | RMSpropCentred (d eps : R) | SignSGD | MeanAbs (d eps : R)
| ADAM (b1 b2 eps : R) | ADAMAX (b1 b2 eps : R) | NADAM (mu eta eps : R) | RADAM (mu eta gamma eps : R).

(** the update subtracted from the weight given the history [l] ending with the
    current gradient *)
Definition update (a : algo) (lr : R) (l : list R) : R :=
  let n := length l in
  let g := last l 0 in
  match a with
  | SGD => lr * g
  | RMSprop d eps => if Nat.eqb n 1 then lr * g else lr * g / (sqrt (ema1 d (sqs l)) + eps)
  | RMSpropCentred d eps => if Nat.eqb n 1 then lr * g else lr * g / sqrt (ema1 d (sqs l) - (ema1 d l) ^ 2 + eps)
  | SignSGD => lr * sign_of g
  | MeanAbs d eps => if Nat.eqb n 1 then lr * g else lr * g / (ema1 d (abss l) + eps)
  | ADAM b1 b2 eps => lr * (sqrt (1 - b2 ^ n) / (1 - b1 ^ n)) * ema b1 l / (sqrt (ema b2 (sqs l)) + eps)
  | ADAMAX b1 b2 eps => lr / (1 - b1 ^ n) * ema b1 l / (maxdisc b2 l + eps)
  | NADAM mu eta eps =>
      lr * (mu * ema mu l / (1 - mu ^ (n + 1)) + (1 - mu) * g / (1 - mu ^ n)) / (sqrt (ema eta (sqs l) / (1 - eta ^ n)) + eps)
  | RADAM mu eta gamma eps =>
      lr * ((1 - gamma) * (ema mu l / (1 - mu ^ n)) + gamma * g) / (sqrt (ema eta (sqs l) / (1 - eta ^ n)) + eps)
  end.

(** parameters for which the algorithms make sense *)
Definition algo_ok (a : algo) : Prop :=
  let u x := 0 < x < 1 in
  match a with
  | SGD | SignSGD => True
  | RMSprop d eps | RMSpropCentred d eps | MeanAbs d eps => u d /\ 0 < eps
  | ADAM b1 b2 eps | ADAMAX b1 b2 eps | NADAM b1 b2 eps => u b1 /\ u b2 /\ 0 < eps
  | RADAM b1 b2 gamma eps => u b1 /\ u b2 /\ u gamma /\ 0 < eps
  end.

(** the two accumulators after history [l] *)
Definition accA (a : algo) (l : list R) : R :=
  match a with
  | SGD | SignSGD => 0
  | RMSprop d _ | RMSpropCentred d _ => ema1 d (sqs l)
  | MeanAbs d _ => ema1 d (abss l)
  | ADAM b1 _ _ | ADAMAX b1 _ _ => ema b1 l
  | NADAM mu _ _ | RADAM mu _ _ _ => ema mu l / (1 - mu ^ length l)
  end.
Definition accB (a : algo) (l : list R) : R :=
  match a with
  | RMSpropCentred d _ => ema1 d l
  | ADAM _ b2 _ => ema b2 (sqs l)
  | ADAMAX _ b2 _ => maxdisc b2 l
  | NADAM _ eta _ | RADAM _ eta _ _ => ema eta (sqs l) / (1 - eta ^ length l)
  | _ => 0
  end.
Definition hasA (a : algo) : bool := match a with SGD | SignSGD => false | _ => true end.
Definition hasB (a : algo) : bool :=
  match a with RMSpropCentred _ _ | ADAM _ _ _ | ADAMAX _ _ _ | NADAM _ _ _ | RADAM _ _ _ _ => true | _ => false end.
(** the powers of the decay rates after n steps, for those which keep them *)
Definition pow1 (a : algo) (n : nat) : option R :=
  match a with ADAM b _ _ | ADAMAX b _ _ | NADAM b _ _ | RADAM b _ _ _ => Some (b ^ n) | _ => None end.
Definition pow2 (a : algo) (n : nat) : option R :=
  match a with ADAM _ b _ | NADAM _ b _ | RADAM _ b _ _ => Some (b ^ n) | _ => None end.

(** the history of weight [i] *)
Definition hist (i : nat) (gs : list (list R)) : list R := map (fun g => nth i g 0) gs.

(** ** Whole weight vectors; [gs]: gradients so far *)
Definition vadd (a b : list R) : list R := map (fun p => fst p + snd p) (combine a b).
Definition vscale (k : R) (a : list R) : list R := map (Rmult k) a.
Definition updates (a : algo) (lr : R) (gs : list (list R)) (n : nat) : list R :=
  map (fun i => update a lr (hist i gs)) (seq 0 n).
Record traj := mkJ { j_w : list R; j_v : list R; j_gs : list (list R) }.

(** no momentum: w' = w - u *)
Definition plain_step (a : algo) (x : traj) (t : tstep) : traj :=
  let gs := j_gs x ++ [t_grad t (j_w x)] in
  mkJ (vadd (j_w x) (vscale (-1) (updates a (t_lr t) gs (length (j_w x))))) (j_v x) gs.
(** Polyak: v' = mu v - u(w); w' = w + v' *)
Definition polyak_step (a : algo) (x : traj) (t : tstep) : traj :=
  let gs := j_gs x ++ [t_grad t (j_w x)] in
  let v := vadd (vscale (t_mu t) (j_v x)) (vscale (-1) (updates a (t_lr t) gs (length (j_w x)))) in
  mkJ (vadd (j_w x) v) v gs.
(** Sutskever et al. 2013: the same with the gradient taken at w + mu v *)
Definition nesterov_step (a : algo) (x : traj) (t : tstep) : traj :=
  let gs := j_gs x ++ [t_grad t (vadd (j_w x) (vscale (t_mu t) (j_v x)))] in
  let v := vadd (vscale (t_mu t) (j_v x)) (vscale (-1) (updates a (t_lr t) gs (length (j_w x)))) in
  mkJ (vadd (j_w x) v) v gs.

(** ** Configurations *)
(** the algorithm a configuration selects; [gamma] as set by the user *)
Definition algo_of (o : cfg) (gamma : R) : algo :=
  match o_type o with
  | ClassicalConstant => SGD
  | RMSProp_Hinton => RMSprop (o_b1 o) (o_eps o)
  | RMSProp_Graves => RMSpropCentred (o_b1 o) (o_eps o)
  | RProp => SignSGD
  | ModProp => MeanAbs (o_b1 o) (o_eps o)
  | Adam => ADAM (o_b1 o) (o_b2 o) (o_eps o)
  | AdaMax => ADAMAX (o_b1 o) (o_b2 o) (o_eps o)
  | Nadam => NADAM (o_b1 o) (o_b2 o) (o_eps o)
  | Radam => RADAM (o_b1 o) (o_b2 o) gamma (o_eps o)
  end.
(** what the debug assertions demand *)
Definition cfg_ok (e : env) (o : cfg) (gamma : R) : Prop :=
  algo_ok (algo_of o gamma) /\ (0 < o_rows o * o_cols o)%nat /\ pool_ok (e_pool e) /\
  (forall mx incl, o_maxn o = Some (mx, incl) -> forall w, length w = (o_rows o * o_cols o)%nat ->
     norm_ready (e_norm e) (e_pool e) (mkM (o_rows o) (o_cols o) false false w) mx incl (e_tmp e)).
Definition step_ok (o : cfg) (t : tstep) : Prop :=
  let n := (o_rows o * o_cols o)%nat in
  length (t_mask1 t) = n /\ length (t_mask2 t) = n /\ (forall w, length w = n -> length (t_grad t w) = n).
(** steps with gradients [gs] *)
Definition with_grads (ts : list tstep) (gs : list (list R)) : Prop :=
  Forall2 (fun t g => t_blocked t = false /\ forall w, t_grad t w = g) ts gs.

(** nothing but the optimizer [and momentum] acts *)
Definition simple (o : cfg) : Prop := o_ilr o = None /\ o_maxn o = None /\ o_lrd o = 1.
(** as gw_init leaves it *)
Definition started (o : cfg) (gamma : R) (s : st) : Prop :=
  length (s_cells s) = (o_rows o * o_cols o)%nat /\ s_first s = true /\ s_gamma s = gamma.
Definition velocities (s : st) : list R := map cV (s_cells s).

(** ** Individual learning rates *)
(** ILR_props::set, ILR_Props.h:66 *)
Definition ilr_ok_ (k : ilr) : Prop := 0 < i_decr k < 1 /\ 1 < i_incr k /\ 0 < i_lo k /\ i_lo k < i_hi k.
(** the gain [g] when the last two updates have the product [x] *)
Definition regain (k : ilr) (x g : R) : R :=
  if Rlt_dec 0 x then if Rlt_dec g (i_hi k) then g * i_incr k else g
  else if Rlt_dec x 0 then if Rlt_dec (i_lo k) g then g * i_decr k else g
  else g.
(** the gain after the optimizer has made the updates [us] *)
Definition gain_of (k : ilr) (us : list R) : R := fold_left (fun g p => regain k (fst p * snd p) g) (combine us (tl us)) 1.
(** updates of weight [i] made by the optimizer *)
Definition upd_seq (a : algo) (lrs : list R) (gs : list (list R)) (i : nat) : list R :=
  map (fun k => update a (nth k lrs 0) (hist i (firstn (k + 1) gs))) (seq 0 (length gs)).
