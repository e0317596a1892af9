(** What training with dropout minimises. *)
From Coq Require Import Reals.
From Verif Require Import Base Act_Model Act_Spec Net_Model Net_Spec La_Model La_Spec Drop_Model Drop_Spec Pen_Spec Do_Model.
Local Open Scope nat_scope.

(** The network without dropout and penalties *)
Definition dstrip (x : dnet) : net :=
  mkN (plain (map (fun h => (h_l h, h_las h)) (d_hid x))) (d_out x) (d_inc x) (d_n x) (d_W x) (d_G x) (d_A x) (d_buf x).

(** One activation [x] for the random number [v].  Alpha dropout keeps mean [mu] and
    variance [nu]. *)
Definition alpha_a (al mu nu p : R) : R := sqrt (nu / (p * ((1 - p) * ((al - mu) * (al - mu)) + nu))).
Definition alpha_b (al mu nu p : R) : R := (mu - alpha_a al mu nu p * (p * mu + (1 - p) * al))%R.
Definition thin1 (k : dkind) (p v x : R) : R :=
  match k with
  | Classic => dropped p x v
  | Alpha al mu nu => alpha_dropped al (alpha_a al mu nu p) (alpha_b al mu nu p) p x v
  end.
(** ... all of them; dropout is on if less than everything is kept *)
Definition thin (d : option dst) (A : list R) : list R :=
  match d with
  | Some e => if Rlt_dec (d_p e) 1 then map (fun q => thin1 (d_kind e) (d_p e) (nth q (d_rnd e) 0%R) (nth q A 0%R)) (seq 0 (length A)) else A
  | None => A
  end.

(** The activations of the hidden layers before dropout, from the topmost down: every
    layer sees the thinned activations of the one below. *)
Definition seen (m : nat) (X : list R) (s : dstack) (L : list (list R)) : list R :=
  match s, L with h :: _, A :: _ => biased m (thin (h_do h) A) | _, _ => X end.
Fixpoint levels (m : nat) (X : list R) (s : dstack) : option (list (list R)) :=
  match s with
  | [] => Some []
  | h :: b => do L <- levels m X b; do l <- fprop m (seen m X b L) (h_l h); Some (acts l :: L)
  end.

(** The mean loss of the thinned network, for fixed random numbers: the loss of the
    output layer on what it sees. *)
Definition out_only (x : dnet) : net := mkN None (d_out x) (d_inc x) (d_n x) (d_W x) (d_G x) (d_A x) (d_buf x).
Definition thinned_loss (m : nat) (X Y : list R) (x : dnet) : R :=
  match levels m X (d_hid x) with Some L => mean_loss m (seen m X (d_hid x) L) Y (out_only x) | None => 0%R end.
(** The penalties are those of the activations before dropout. *)
Definition dpenalties (m : nat) (X : list R) (x : dnet) : R :=
  match levels m X (d_hid x) with
  | Some L => sumR (map (fun q => pen_value (h_las (fst q)) m (neurons (h_l (fst q))) (snd q)) (combine (d_hid x) L))
  | None => 0%R
  end.
Definition dobjective (m : nat) (X Y : list R) (x : dnet) : R := (thinned_loss m X Y x + / INR m * dpenalties m X x)%R.

(** Points of differentiability *)
Fixpoint levels_smooth (m : nat) (X : list R) (s : dstack) : Prop :=
  match s with
  | [] => True
  | h :: b => levels_smooth m X b /\ exists L, levels m X b = Some L /\ smooth_at m (seen m X b L) (h_l h)
  end.
Definition dnet_smooth (m : nat) (X Y : list R) (x : dnet) : Prop :=
  levels_smooth m X (d_hid x) /\ exists L, levels m X (d_hid x) = Some L /\ net_smooth m (seen m X (d_hid x) L) Y (out_only x).

(** Penalties that can be computed, add to every entry, and have a derivative *)
Definition dwell_penalised (t : tmem) (m : nat) (X : list R) (x : dnet) : Prop :=
  exists L, levels m X (d_hid x) = Some L /\
  forall h A a, In (h, A) (combine (d_hid x) L) -> In a (h_las h) -> a_scale a <> 0%R ->
    usable a m (neurons (h_l h)) t /\ a_nz a = false /\ (a_fp a = true -> m * neurons (h_l h) <= length (a_mtx a)) /\
    forall q, q < m * neurons (h_l h) -> regular a (nth q A 0%R).

(** Dropout as _dropout_init leaves it for batches of at most [M] rows and
    dropoutPercentActive() admits it (dropout.h 79-101, 170-173) *)
Definition drop_ready (M : nat) (h : hid) : Prop :=
  match h_do h with
  | None => True
  | Some e => (0 < d_p e <= 1)%R /\ (forall al mu nu, d_kind e = Alpha al mu nu -> (0 < nu)%R) /\
      length (d_mask e) = M * neurons (h_l h) /\ length (d_orig e) = M * neurons (h_l h)
  end.

(** one weight replaced *)
Definition dset_hid (id j : nat) (v : R) (x : dnet) : dnet :=
  mkDN (map (fun h => mkH (with_w (fun i W => if Nat.eqb i id then setn j v W else W) (h_l h)) (h_las h) (h_do h)) (d_hid x))
    (d_out x) (d_inc x) (d_n x) (d_W x) (d_G x) (d_A x) (d_buf x).
Definition dset_out (j : nat) (v : R) (x : dnet) : dnet :=
  mkDN (d_hid x) (d_out x) (d_inc x) (d_n x) (setn j v (d_W x)) (d_G x) (d_A x) (d_buf x).
