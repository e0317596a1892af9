(** C35: dropout. *)
From Coq Require Import Reals Lra Lia.
From Coquelicot Require Import Coquelicot.
From Verif Require Import Base BaseLemmas Workers_Model Kern_Model Kern_Spec Act_Spec Norm_Model Drop_Model Drop_Spec Drop_Proofs.
Local Open Scope R_scope.

(** For every pool of threads, threshold and interleaving: every activation becomes x/p
    or 0, the bias column is untouched. *)
Theorem C35_dropout : forall pool thr n p rnd d, (0 < n <= length d)%nat -> 0 < p < 1 ->
  dropout_apply Classic pool thr n p rnd d (fun d' => length d' = length d /\
    (forall i c, (n <= i)%nat -> bget d i = Some c -> bget d' i = Some c) /\
    forall i c, (i < n)%nat -> bget d i = Some c -> exists c', bget d' i = Some c' /\
      let v := nth i rnd 0 in
      x_act c' = (if Rlt_dec v p then x_act c / p else 0) /\ x_mask c' = (if Rlt_dec v p then / p else 0)).
Proof.
  intros pool thr n p rnd d [Hn Hd] Hp. apply apply_correct; try assumption; [discriminate|].
  intros d' (L & H1 & H2). split; [exact L|]. split; [exact H1|]. intros i c Hi Hc. destruct (H2 i c Hi Hc) as (c' & Hc' & _ & _ & HM & HA).
  exists c'. split; [exact Hc'|]. split; assumption.
Qed.
Print Assumptions C35_dropout.

(** ... and a*x + b or a*alpha' + b. *)
Theorem C35_alpha : forall al mu nu pool thr n p rnd d, (0 < n <= length d)%nat -> 0 < p < 1 -> 0 < nu ->
  dropout_apply (Alpha al mu nu) pool thr n p rnd d (fun d' => length d' = length d /\
    (forall i c, (n <= i)%nat -> bget d i = Some c -> bget d' i = Some c) /\
    exists a b m, calc_coeffs al mu nu p = Some (a, b, m) /\
    forall i c, (i < n)%nat -> bget d i = Some c -> exists c', bget d' i = Some c' /\
      let v := nth i rnd 0 in
      x_act c' = a * (if Rlt_dec v p then x_act c else al) + b /\ x_mask c' = (if Rlt_dec v p then a else 0)).
Proof.
  intros al mu nu pool thr n p rnd d [Hn Hd] Hp Hv. apply apply_correct; try assumption.
  { intros al' mu' nu' E. inversion E; subst. exact Hv. }
  intros d' (L & H1 & H2). split; [exact L|]. split; [exact H1|].
  destruct (coeffs_ok al mu nu p Hp Hv) as (_ & _ & E). eexists _, _, _. split; [exact E|].
  intros i c Hi Hc. destruct (H2 i c Hi Hc) as (c' & Hc' & _ & _ & a & b & m & E' & HM & HA).
  rewrite E in E'. inversion E'; subst. exists c'. split; [exact Hc'|]. split; assumption.
Qed.
Print Assumptions C35_alpha.

(* 2 x 2 activations with a bias column *)
Definition ex_x : list xcell := map (fun x => mkX x 9 9 7) [3; -1; 4; 2; 1; 1].
Example C35_ex : (0 < 4 <= length ex_x)%nat /\ 0 < 3/4 < 1.
Proof. split; [cbn; lia|lra]. Qed.

(** One activation [x] with random number [v] becomes [out x v]. *)
Definition one_out (k : dkind) (p : R) (out : R -> R -> R) : Prop :=
  forall x v pool thr, dropout_apply k pool thr 1 p [v] [mkX x 0 0 0] (fun r => exists y, bget r 0 = Some y /\ x_act y = out x v).

(** Expectation over the random number, uniform on [0,1]. *)
Theorem C35_mean : forall p, 0 < p < 1 -> exists out, one_out Classic p out /\ forall x, is_RInt (out x) 0 1 x.
Proof.
  intros p Hp. exists (fun x v => dropped p x v). split.
  - intros x v pool thr. apply apply_correct; [lia|cbn; lia|exact Hp|discriminate|].
    intros r (_ & _ & Hr). destruct (Hr 0%nat _ ltac:(lia) eq_refl) as (y & Hy & _ & _ & _ & HA). exists y. split; [exact Hy|exact HA].
  - intros x. apply dropped_mean, Hp.
Qed.
Print Assumptions C35_mean.

(** Mean and variance over the random number and any finite distribution of
    activations with the fixed point's mean and variance. *)
Theorem C35_alpha_moments : forall al mu nu p, 0 < p < 1 -> 0 < nu -> exists out, one_out (Alpha al mu nu) p out /\
  forall l, dist l -> mean l (fun x => x) = mu -> mean l (fun x => (x - mu) ^ 2) = nu ->
  is_RInt (fun v => mean l (fun x => out x v)) 0 1 mu /\
  is_RInt (fun v => mean l (fun x => (out x v - mu) ^ 2)) 0 1 nu.
Proof.
  intros al mu nu p Hp Hv. destruct (coeffs_ok al mu nu p Hp Hv) as (_ & _ & E).
  match type of E with _ = Some (?a, ?b, ?m) => exists (fun x v => alpha_dropped al a b p x v) end. split.
  - intros x v pool thr. apply apply_correct; [lia|cbn; lia|exact Hp|intros al' mu' nu' H; inversion H; subst; exact Hv|].
    intros r (_ & _ & Hr). destruct (Hr 0%nat _ ltac:(lia) eq_refl) as (y & Hy & _ & _ & a' & b' & m' & E' & _ & HA). rewrite E in E'. inversion E'; subst. exists y. split; [exact Hy|exact HA].
  - intros l. exact (alpha_mean al mu nu p _ _ _ l Hp Hv E).
Qed.
Print Assumptions C35_alpha_moments.

Example C35_alpha_moments_ex : dist [(1/2, 1); (1/2, -1)] /\ mean [(1/2, 1); (1/2, -1)] (fun x => x) = 0 /\
  mean [(1/2, 1); (1/2, -1)] (fun x => (x - 0) ^ 2) = 1 /\ exists a b m, calc_coeffs (-1758/1000) 0 1 (9/10) = Some (a, b, m).
Proof.
  split; [split; [repeat constructor; cbn; lra|unfold sumR; cbn; lra]|]. split; [unfold mean, sumR; cbn; lra|]. split; [unfold mean, sumR; cbn; lra|].
  destruct (coeffs_ok (-1758/1000) 0 1 (9/10) ltac:(lra) ltac:(lra)) as (_ & _ & E). rewrite E. eauto.
Qed.

(** Forward, then backward: the activations are the original ones again and dL/dA is
    multiplied by the derivative of the dropped activation w.r.t. the original one
    (for the same random number). *)
Theorem C35_backward : forall k pool thr pool2 thr2 n p rnd d, (0 < n <= length d)%nat -> 0 < p < 1 ->
  (forall al mu nu, k = Alpha al mu nu -> 0 < nu) ->
  dropout_apply k pool thr n p rnd d (fun d1 => dropout_restore pool2 thr2 n d1 (fun d2 => length d2 = length d /\
    (forall i c, (n <= i)%nat -> bget d i = Some c -> bget d2 i = Some c) /\
    forall i c, (i < n)%nat -> bget d i = Some c -> exists c2, bget d2 i = Some c2 /\ x_act c2 = x_act c /\
      exists out D, (forall x pool thr, dropout_apply k pool thr 1 p [nth i rnd 0] [mkX x 0 0 0] (fun r => exists y, bget r 0 = Some y /\ x_act y = out x)) /\
        (forall x, is_derive out x D) /\ x_dl c2 = x_dl c * D)).
Proof.
  intros k pool thr pool2 thr2 n p rnd d [Hn Hd] Hp Hk. apply apply_correct; try assumption.
  intros d1 (L1 & H1 & H2). apply restore_correct; [exact Hn|lia|].
  intros d2 L2 G1 G2. split; [lia|]. split; [intros i c Hi Hc; apply G1, H1; assumption|].
  intros i c Hi Hc. destruct (H2 i c Hi Hc) as (c1 & Hc1 & Ho & Hdl & HM). exists (mkX (x_orig c1) (x_mask c1) (x_orig c1) (x_dl c1 * x_mask c1)).
  split; [apply G2; assumption|]. split; [exact Ho|]. cbn [x_dl]. rewrite Hdl.
  destruct k as [|al mu nu].
  - destruct HM as [HM _]. exists (fun x => dropped p x (nth i rnd 0)), (x_mask c1). split; [|split; [|reflexivity]].
    + intros x pool' thr'. apply apply_correct; [lia|cbn; lia|exact Hp|discriminate|].
      intros r (_ & _ & Hr). destruct (Hr 0%nat _ ltac:(lia) eq_refl) as (y & Hy & _ & _ & _ & HA). exists y. split; [exact Hy|exact HA].
    + intros x. rewrite HM. unfold dropped. destruct (Rlt_dec (nth i rnd 0) p); auto_derive; try tauto; try field; lra.
  - destruct HM as (a & b & m & E & HM & _). exists (fun x => alpha_dropped al a b p x (nth i rnd 0)), (x_mask c1). split; [|split; [|reflexivity]].
    + intros x pool' thr'. apply apply_correct; [lia|cbn; lia|exact Hp|exact Hk|].
      intros r (_ & _ & Hr). destruct (Hr 0%nat _ ltac:(lia) eq_refl) as (y & Hy & _ & _ & a' & b' & m' & E' & _ & HA). rewrite E in E'. inversion E'; subst. exists y. split; [exact Hy|exact HA].
    + intros x. rewrite HM. unfold alpha_dropped. destruct (Rlt_dec (nth i rnd 0) p); auto_derive; try tauto; ring.
Qed.
Print Assumptions C35_backward.

Example C35_backward_ex : (0 < 4 <= length ex_x)%nat /\ 0 < 3/4 < 1 /\ forall al mu nu, Alpha (-2) 0 1 = Alpha al mu nu -> 0 < nu.
Proof. split; [cbn; lia|]. split; [lra|]. intros al mu nu E. inversion E; subst. lra. Qed.
