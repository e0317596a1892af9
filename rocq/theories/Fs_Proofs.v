(** One step and a series of steps of the compensated sum, for any rounding with a relative
    error of at most [u] in additions. *)
From Coq Require Import Reals Lra Lia.
From Verif Require Import Base Act_Spec Fs_Model.
Local Open Scope R_scope.

Lemma abs_mul a b c d : Rabs a <= b -> Rabs c <= d -> Rabs (a * c) <= b * d.
Proof. intros H1 H2. rewrite Rabs_mult. apply Rmult_le_compat; auto using Rabs_pos. Qed.
Lemma abs_add a b c d : Rabs a <= b -> Rabs c <= d -> Rabs (a + c) <= b + d.
Proof. intros H1 H2. eapply Rle_trans; [apply Rabs_triang|]. lra. Qed.
Lemma abs_sub a b c d : Rabs a <= b -> Rabs c <= d -> Rabs (a - c) <= b + d.
Proof. intros H1 H2. unfold Rminus. apply abs_add; [exact H1|]. rewrite Rabs_Ropp. exact H2. Qed.
Lemma abs_1p e u : Rabs e <= u -> Rabs (1 + e) <= 1 + u.
Proof. intros H. apply abs_add; [|exact H]. rewrite Rabs_R1. lra. Qed.

Section U.
Context (u : R) (Hu : 0 <= u <= / 64).
Lemma small z : 0 <= z -> 0 <= u * z <= / 64 * z.
Proof. intros H. split; [apply Rmult_le_pos; lra|]. apply Rmult_le_compat_r; lra. Qed.

Lemma step_bounds s c x A eta sig gam del :
  0 <= A -> Rabs c <= 21 / 10 * u * A -> Rabs s <= 3 / 2 * A ->
  Rabs eta <= u -> Rabs sig <= u -> Rabs gam <= u -> Rabs del <= u ->
  let y := (x - c) * (1 + eta) in let s' := (s + y) * (1 + sig) in
  let c' := ((s' - s) * (1 + gam) - y) * (1 + del) in
  Rabs c' <= 21 / 10 * u * (A + Rabs x) /\
  Rabs ((s' - c') - (s - c) - x) <= 2 * u * Rabs x + 8 * u * u * (A + Rabs x) /\
  Rabs ((s + y) - (s - c) - x) <= u * (Rabs x + 21 / 10 * u * A).
Proof.
  intros HA Hc Hs He Hsg Hg Hd y s' c'. set (al := Rabs x).
  assert (Hal : 0 <= al) by apply Rabs_pos.
  pose proof (small A HA) as A1. pose proof (small _ (proj1 A1)) as A2. pose proof (small _ (proj1 A2)) as A3. pose proof (small _ (proj1 A3)) as A4. pose proof (small _ (proj1 A4)) as A5.
  pose proof (small al Hal) as B1. pose proof (small _ (proj1 B1)) as B2. pose proof (small _ (proj1 B2)) as B3. pose proof (small _ (proj1 B3)) as B4. pose proof (small _ (proj1 B4)) as B5.
  assert (Hxc : Rabs (x - c) <= al + 21 / 10 * u * A) by (apply abs_sub; [apply Rle_refl|exact Hc]).
  assert (Hy : Rabs y <= (al + 21 / 10 * u * A) * (1 + u)) by (apply abs_mul; [exact Hxc|apply abs_1p, He]).
  assert (Hw : Rabs (s + y) <= 3 / 2 * A + (al + 21 / 10 * u * A) * (1 + u)) by (apply abs_add; assumption).
  assert (Ew : s' - s = y + sig * (s + y)) by (unfold s'; ring).
  assert (HD : Rabs (s' - s) <= (al + 21 / 10 * u * A) * (1 + u) + u * (3 / 2 * A + (al + 21 / 10 * u * A) * (1 + u))).
  { rewrite Ew. apply abs_add; [exact Hy|]. apply abs_mul; assumption. }
  assert (Ec : c' = (sig * (s + y) + gam * (s' - s)) * (1 + del)) by (unfold c'; rewrite Ew; ring).
  assert (ED : (s' - c') - (s - c) - x = eta * (x - c) - del * (sig * (s + y)) - gam * (1 + del) * (s' - s)).
  { rewrite Ec. unfold s', y. ring. }
  assert (Ey : (s + y) - (s - c) - x = eta * (x - c)) by (unfold y; ring).
  split; [|split].
  - rewrite Ec. eapply Rle_trans; [apply abs_mul; [apply abs_add; apply abs_mul; eassumption|apply abs_1p; eassumption]|]. lra.
  - rewrite ED. eapply Rle_trans.
    + apply abs_sub; [apply abs_sub; [apply abs_mul; eassumption|apply abs_mul; [eassumption|apply abs_mul; eassumption]]|].
      apply abs_mul; [apply abs_mul; [eassumption|apply abs_1p; eassumption]|eassumption].
    + lra.
  - rewrite Ey. apply abs_mul; assumption.
Qed.

(** ** A rounding *)
Context (rnd : R -> R) (fmt : R -> Prop).
Context (F0 : fmt 0) (Fr : forall x, fmt (rnd x)) (Fn : forall x, fmt x -> fmt (- x))
  (Fa : forall x y, fmt x -> fmt y -> exists e, Rabs e <= u /\ rnd (x + y) = (x + y) * (1 + e)).
Lemma Fs x y : fmt x -> fmt y -> exists e, Rabs e <= u /\ rnd (x - y) = (x - y) * (1 + e).
Proof. intros H1 H2. exact (Fa x (- y) H1 (Fn y H2)). Qed.

Definition absum (l : list R) : R := sumR (map Rabs l).
Lemma sumR_cons x l : sumR (x :: l) = x + sumR l.
Proof. reflexivity. Qed.
Lemma absum_nonneg l : 0 <= absum l.
Proof. unfold absum. induction l as [|x l IH]; [unfold sumR; cbn; lra|]. cbn [map]. rewrite sumR_cons. pose proof (Rabs_pos x). lra. Qed.
Lemma sum_absum l : Rabs (sumR l) <= absum l.
Proof.
  unfold absum. induction l as [|x l IH]; [unfold sumR; cbn; rewrite Rabs_R0; lra|]. cbn [map]. rewrite !sumR_cons. apply abs_add; [apply Rle_refl|exact IH].
Qed.
Lemma sumR_snoc l x : sumR (l ++ [x]) = sumR l + x.
Proof. induction l as [|y l IH]; [unfold sumR; cbn; ring|]. cbn [app]. rewrite !sumR_cons, IH. ring. Qed.
Lemma absum_snoc l x : absum (l ++ [x]) = absum l + Rabs x.
Proof. unfold absum. rewrite map_app. apply sumR_snoc. Qed.

Definition kinv (l : list R) (st : R * R) : Prop :=
  fmt (fst st) /\ fmt (snd st) /\ Rabs (snd st) <= 21 / 10 * u * absum l /\
  Rabs (fst st - snd st - sumR l) <= (2 * u + 8 * INR (length l) * u * u) * absum l.

Lemma kinv_size l st : INR (length l) * u <= 1 -> kinv l st -> Rabs (fst st) <= 3 / 2 * absum l.
Proof.
  intros Hn (_ & _ & Hc & He). set (A := absum l) in *. assert (HA : 0 <= A) by apply absum_nonneg.
  replace (fst st) with ((fst st - snd st - sumR l) + sumR l + snd st) by ring.
  eapply Rle_trans; [apply abs_add; [apply abs_add; [exact He|apply sum_absum]|exact Hc]|]. fold A.
  pose proof (small A HA) as A1. assert (H2 : INR (length l) * u * (u * A) <= 1 * (u * A)) by (apply Rmult_le_compat_r; [apply A1|exact Hn]). lra.
Qed.
Lemma kstep l x st : INR (length l) * u <= 1 -> fmt x -> kinv l st ->
  kinv (l ++ [x]) (fkahan_op rnd st x) /\
  Rabs (fst (fkahan_op rnd st x) - sumR (l ++ [x])) <=
    u * Rabs (sumR (l ++ [x])) + (2 * u + 10 * INR (length (l ++ [x])) * u * u) * absum (l ++ [x]).
Proof.
  intros Hn Fx HI. pose proof (kinv_size l st Hn HI) as Hs. destruct HI as (Fs1 & Fc1 & Hc & He). destruct st as [s c]. cbn [fst snd] in *.
  destruct (Fs x c Fx Fc1) as (eta & Heta & Ey). destruct (Fa s (rnd (x - c)) Fs1 (Fr _)) as (sig & Hsig & Es).
  destruct (Fs (rnd (s + rnd (x - c))) s (Fr _) Fs1) as (gam & Hgam & Eg).
  destruct (Fs (rnd (rnd (s + rnd (x - c)) - s)) (rnd (x - c)) (Fr _) (Fr _)) as (del & Hdel & Ed).
  set (A := absum l) in *. assert (HA : 0 <= A) by apply absum_nonneg.
  destruct (step_bounds s c x A eta sig gam del HA Hc Hs Heta Hsig Hgam Hdel) as (B1 & B2 & B3).
  unfold kinv, fkahan_op. cbn [fst snd].
  rewrite <- Ey in B1, B2, B3. rewrite <- Es in B1, B2. rewrite <- Eg in B1, B2. rewrite <- Ed in B1, B2.
  rewrite absum_snoc, sumR_snoc. fold A. set (al := Rabs x) in *. assert (Hal : 0 <= al) by apply Rabs_pos.
  set (y := rnd (x - c)) in *. set (s1 := rnd (s + y)) in *. set (c1 := rnd (rnd (s1 - s) - y)) in *.
  rewrite app_length, plus_INR. cbn [length INR]. set (k := INR (length l)) in *. assert (Hk : 0 <= k) by apply pos_INR.
  assert (Uk : 0 <= u * (u * al) * k) by (repeat apply Rmult_le_pos; lra).
  assert (UkA : 0 <= u * (u * A) * k) by (repeat apply Rmult_le_pos; lra).
  assert (Uk3 : u * (u * (u * A) * k) <= / 64 * (u * (u * A) * k)) by (apply Rmult_le_compat_r; [exact UkA|lra]).
  pose proof (small A HA) as A1. pose proof (small _ (proj1 A1)) as A2. pose proof (small _ (proj1 A2)) as A3.
  pose proof (small al Hal) as Q1. pose proof (small _ (proj1 Q1)) as Q2.
  split; [split; [apply Fr|split; [apply Fr|split; [exact B1|]]]|]; cbn [fst snd].
  - replace (s1 - c1 - (sumR l + x)) with ((s1 - c1 - (s - c) - x) + (s - c - sumR l)) by ring.
    eapply Rle_trans; [apply abs_add; [exact B2|exact He]|]. lra.
  - set (S1 := sumR l + x). assert (Hw : Rabs (s + y - S1) <= u * (al + 21 / 10 * u * A) + (2 * u + 8 * k * u * u) * A).
    { replace (s + y - S1) with ((s + y - (s - c) - x) + (s - c - sumR l)) by (unfold S1; ring). apply abs_add; [exact B3|exact He]. }
    replace (s1 - S1) with ((s + y - S1) * (1 + sig) + sig * S1) by (rewrite Es; ring).
    eapply Rle_trans; [apply abs_add; [apply abs_mul; [exact Hw|apply abs_1p; exact Hsig]|apply abs_mul; [exact Hsig|apply Rle_refl]]|]. lra.
Qed.
(** The whole sum. *)
Lemma kahan_fold l : forall a st, INR (length (a ++ l)) * u <= 1 -> Forall fmt l -> kinv a st ->
  (l = [] -> Rabs (fst st - sumR a) <= u * Rabs (sumR a) + (2 * u + 10 * INR (length a) * u * u) * absum a) ->
  let s := fst (fold_left (fkahan_op rnd) l st) in
  fmt s /\ Rabs (s - sumR (a ++ l)) <= u * Rabs (sumR (a ++ l)) + (2 * u + 10 * INR (length (a ++ l)) * u * u) * absum (a ++ l).
Proof.
  induction l as [|x l IH]; intros a st Hn Fl HI H0.
  - cbn. rewrite app_nil_r in *. split; [apply HI|auto].
  - inversion Fl as [|? ? Fx Fl']; subst. cbn [fold_left]. replace (a ++ x :: l) with ((a ++ [x]) ++ l) in * by (rewrite <- app_assoc; reflexivity).
    assert (Ha : INR (length a) * u <= 1).
    { eapply Rle_trans; [|exact Hn]. apply Rmult_le_compat_r; [lra|]. apply le_INR. rewrite !app_length. lia. }
    destruct (kstep a x st Ha Fx HI) as [K1 K2]. apply IH; auto.
Qed.
Theorem kahan_bound l : INR (length l) * u <= 1 -> Forall fmt l ->
  let s := fst (fold_left (fkahan_op rnd) l (0, 0)) in
  fmt s /\ Rabs (s - sumR l) <= u * Rabs (sumR l) + (2 * u + 10 * INR (length l) * u * u) * absum l.
Proof.
  intros Hn Fl. apply (kahan_fold l [] (0, 0)); auto.
  - unfold kinv, absum, sumR. cbn. rewrite !Rminus_0_r, Rabs_R0. repeat split; auto; lra.
  - intros _. unfold absum, sumR. cbn. rewrite Rminus_0_r, Rabs_R0. lra.
Qed.
Corollary kahan_bound3 l : INR (length l) * u <= 1 -> Forall fmt l ->
  let s := fst (fold_left (fkahan_op rnd) l (0, 0)) in
  fmt s /\ Rabs (s - sumR l) <= (3 * u + 10 * INR (length l) * u * u) * absum l.
Proof.
  intros Hn Fl. destruct (kahan_bound l Hn Fl) as [H1 H2]. split; [exact H1|]. eapply Rle_trans; [exact H2|].
  assert (u * Rabs (sumR l) <= u * absum l) by (apply Rmult_le_compat_l; [lra|apply sum_absum]). lra.
Qed.
(** The plain sum. *)
Lemma plain_bound l : Forall fmt l -> let s := fold_left (fsum_op rnd) l 0 in
  fmt s /\ Rabs (s - sumR l) <= ((1 + u) ^ length l - 1) * absum l.
Proof.
  induction l as [|x l IH] using rev_ind; intros Fl.
  - cbn. unfold absum, sumR. cbn. rewrite Rminus_0_r, Rabs_R0. split; [exact F0|lra].
  - apply Forall_app in Fl. destruct Fl as [Fl Fx]. inversion Fx; subst. destruct (IH Fl) as [Fs1 He]. cbn zeta. rewrite fold_left_app. cbn [fold_left].
    split; [apply Fr|]. unfold fsum_op at 1. set (s := fold_left (fsum_op rnd) l 0) in *. destruct (Fa s x Fs1 ltac:(assumption)) as (e & Hb & ->).
    rewrite sumR_snoc, absum_snoc, app_length. cbn [length]. rewrite Nat.add_1_r. cbn [pow]. set (q := (1 + u) ^ length l) in *. set (A := absum l) in *.
    assert (Hq : 1 <= q) by (apply pow_R1_Rle; lra). assert (HA : 0 <= A) by apply absum_nonneg.
    replace ((s + x) * (1 + e) - (sumR l + x)) with ((s - sumR l) * (1 + e) + e * (sumR l + x)) by ring.
    eapply Rle_trans; [apply abs_add; [apply abs_mul; [exact He|apply abs_1p; exact Hb]|apply abs_mul; [exact Hb|apply abs_add; [apply sum_absum|apply Rle_refl]]]|].
    fold A. pose proof (Rabs_pos x) as Hx. assert (0 <= (1 + u) * (q - 1) * Rabs x) by (repeat apply Rmult_le_pos; lra). lra.
Qed.
End U.
