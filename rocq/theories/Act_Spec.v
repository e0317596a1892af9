(** Specifications for activations and losses: derivatives are those of Coquelicot
    ([is_derive]), limits of difference quotients. *)
From Coq Require Import Reals ZArith NArith.
From Coquelicot Require Import Coquelicot.
From Verif Require Import Base Act_Model.
Local Open Scope R_scope.

(** Parameters the kernels' debug assertions accept (alpha > 0, log bases > 1,
    a > 0, leak > 0; mathn.h 3221, 3275, 3386-3387, 3621-3622, 3872, 3983, 4011,
    4101, 4248; SELU's alpha and lambda moreover not negative). *)
Definition admissible (t : act) : Prop :=
  match t with
  | Sigm | Identity | Relu | Step => True
  | LeakyRelu k => (0 < k)%N
  | Elu a => (0 < a)%N
  | Elogu a b => (0 < a)%N /\ (1000 < b)%N
  | Loglogu bn bp => (1000 < bn)%N /\ (1000 < bp)%N
  | Logu b => (1000 < b)%N
  | Softsign a _ => (0 < a)%N
  | Softsigm a => (0 < a)%N
  | Selu a l => (0 <= a)%Z /\ (0 <= l)%Z
  end.

(** One-sided derivative: the limit of difference quotients with h < 0 or h > 0. *)
Definition side_derivative (right : bool) (f : R -> R) (x l : R) : Prop :=
  forall eps, 0 < eps -> exists d, 0 < d /\ forall h,
    (if right then 0 < h < d else - d < h < 0) -> Rabs ((f (x + h) - f x) / h - l) < eps.

(** Activations without a kink. *)
Definition smooth (t : act) : Prop :=
  match t with
  | Sigm | Identity | Softsign _ _ | Softsigm _ => True
  | Elu a => a = 1000%N
  | Elogu a b => a = 1000%N /\ b = 2718%N
  | Loglogu bn bp => bn = bp
  | LeakyRelu k => k = 100%N
  | Selu a _ => a = 1000000000%Z
  | _ => False
  end.

(** The label is 0 or 1. *)
Definition binary (y : R) : Prop := y = 0 \/ y = 1.

(** Probability an activation value gives to the binary label. *)
Definition prob (a y : R) : R := if Rlt_dec 0 y then a else 1 - a.

Definition sumR (l : list R) : R := fold_right Rplus 0 l.

(** Sum over all elements of the losses. *)
Definition loss_spec (l : R -> R -> R) (n : nat) (A Y : list R) : R :=
  sumR (map (fun i => l (nth i A 0) (nth i Y 0)) (seq 0 n)).

(** Conditions under which an output class is meant to be used: binary labels for
    cross-entropy; for the "linear" classes, whose net input is the activation
    itself, that it lies in (0,1); for the residual-weighted loss, a point where
    the loss does not jump. *)
Definition loss_domain (o : outp) (y z : R) : Prop :=
  match o with
  | SigmXent | SoftsigmXent _ => binary y
  | SigmXentLinear | SoftsigmXentLinear _ => binary y /\ 0 < z < 1
  | IdCustom (QuadWRes f b) => z <> y \/ micro b <= y \/ micro f = 1
  | _ => True
  end.

(** The cross-entropy code adds the smallest normal number [tiny] under the
    logarithm, which scales the derivative by p/(p+tiny). *)
Definition eps_factor (tiny : R) (o : outp) (y a : R) : R :=
  match o with
  | SigmXent | SoftsigmXent _ | SigmXentLinear | SoftsigmXentLinear _ => prob a y / (prob a y + tiny)
  | _ => 1
  end.

(** The loss of a batch as a function of the net inputs. *)
Definition batch_loss (tiny : R) (o : outp) (Y Z : list R) : R :=
  loss_spec (fun z y => outp_loss tiny o (act_f (outp_act o) z) y) (length Z) Z Y.

Definition setn (k : nat) (x : R) (l : list R) : list R := firstn k l ++ x :: skipn (S k) l.
