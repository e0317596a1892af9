From Coq Require Import ZArith Reals Lra Psatz.
From Flocq Require Import Core.
From Verif Require Import Base BaseLemmas Tri_Model Tri_Spec Tri_Proofs.

Notation fmt := (generic_format radix2 (FLT_exp (-1074) 53)).
#[local] Instance prec53 : Prec_gt_0 53. Proof. reflexivity. Qed.

(** m * 2^(-e) is a double *)
Lemma fmt_scaled m e : (Z.abs m < 2 ^ 53)%Z -> (0 <= e <= 1074)%Z -> fmt (IZR m * bpow radix2 (- e))%R.
Proof.
  intros Hm He. apply generic_format_FLT. exists (Float radix2 m (- e)); [reflexivity| |cbn; lia].
  cbn [Fnum]. change (Z.pow_pos 2 53) with (2 ^ 53)%Z. exact Hm.
Qed.
Lemma fmt_int m : (Z.abs m < 2 ^ 53)%Z -> fmt (IZR m).
Proof. intros H. replace (IZR m) with (IZR m * bpow radix2 (- 0))%R. - apply fmt_scaled; lia. - cbn. lra. Qed.

Lemma dbl_le x y : fmt y -> (x <= y)%R -> (dbl x <= y)%R.
Proof. intros Hy H. unfold dbl. apply round_le_generic; [apply FLT_exp_valid; reflexivity|apply valid_rnd_N|exact Hy|exact H]. Qed.
Lemma dbl_ge x y : fmt y -> (y <= x)%R -> (y <= dbl x)%R.
Proof. intros Hy H. unfold dbl. apply round_ge_generic; [apply FLT_exp_valid; reflexivity|apply valid_rnd_N|exact Hy|exact H]. Qed.
Lemma dbl_id x : fmt x -> dbl x = x.
Proof. intros H. apply round_generic; [apply valid_rnd_N|exact H]. Qed.

Definition delta : R := bpow radix2 (- 26).
Lemma delta_val : delta = (/ 67108864)%R. Proof. unfold delta. cbn. f_equal; lra. Qed.

(** the column found for X = 8k+9 *)
Lemma col_root (X c : Z) : (1 <= c)%Z -> (X < 2 ^ 53)%Z -> ((2 * c - 1) * (2 * c - 1) + 8 <= X <= (2 * c + 1) * (2 * c + 1))%Z ->
  Zceil (dbl (dbl (dbl (sqrt (dbl (IZR X))) - 1) / 2)) = c.
Proof.
  intros Hc HX [HX1 HX2].
  assert (Hc2 : (2 * c - 1 < 2 ^ 27)%Z) by nia.
  rewrite (dbl_id (IZR X)) by (apply fmt_int; lia).
  set (d := (IZR (2 * c - 1) + delta)%R).
  pose proof delta_val as DV.
  assert (Fd : forall m e, (0 <= m < 2 ^ 27)%Z -> (e = 26 \/ e = 27)%Z -> (e = 27 -> m < 2 ^ 26)%Z -> fmt (IZR m + bpow radix2 (- e))%R).
  { intros m e Hm He Hm'. replace (IZR m + bpow radix2 (- e))%R with (IZR (m * 2 ^ e + 1) * bpow radix2 (- e))%R.
    - apply fmt_scaled; [|lia]. destruct He as [-> | ->]; [|specialize (Hm' eq_refl)]; lia.
    - rewrite plus_IZR, mult_IZR, Rmult_plus_distr_r, Rmult_1_l. f_equal. rewrite Rmult_assoc.
      replace (IZR (2 ^ e)) with (bpow radix2 e). + rewrite <- bpow_plus. replace (e + - e)%Z with 0%Z by lia. cbn. lra.
      + destruct He as [-> | ->]; reflexivity. }
  assert (S1 : (d <= sqrt (IZR X))%R).
  { apply IZR_le in HX1. rewrite plus_IZR, mult_IZR in HX1. apply IZR_lt in Hc2. assert (Hp : (1 <= IZR (2 * c - 1))%R) by (apply IZR_le; lia).
    set (a := IZR (2 * c - 1)) in *. assert (Hd : (0 <= d)%R) by (unfold d; fold a; lra).
    rewrite <- (sqrt_square d Hd). apply sqrt_le_1_alt. unfold d. fold a.
    change (2 ^ 27)%Z with 134217728%Z in Hc2. nra. }
  assert (S2 : (sqrt (IZR X) <= IZR (2 * c + 1))%R).
  { assert (Hp : (0 <= IZR (2 * c + 1))%R) by (apply IZR_le; lia).
    rewrite <- (sqrt_square _ Hp), <- mult_IZR. apply sqrt_le_1_alt, IZR_le, HX2. }
  apply dbl_ge in S1; [|apply (Fd (2 * c - 1)%Z 26%Z); lia].
  apply dbl_le in S2; [|apply fmt_int; lia].
  set (r := dbl (sqrt (IZR X))) in *.
  assert (Q1 : (IZR (2 * c - 2) + delta <= dbl (r - 1))%R).
  { apply dbl_ge; [apply (Fd (2 * c - 2)%Z 26%Z); lia|]. unfold d in S1. rewrite !minus_IZR, !mult_IZR in *. lra. }
  assert (Q2 : (dbl (r - 1) <= IZR (2 * c))%R).
  { apply dbl_le; [apply fmt_int; lia|]. rewrite !plus_IZR, !mult_IZR in *. lra. }
  set (q := dbl (r - 1)) in *.
  assert (D27 : bpow radix2 (- 27) = (/ 134217728)%R) by (cbn; f_equal; lra).
  assert (W1 : (IZR (c - 1) + bpow radix2 (- 27) <= dbl (q / 2))%R).
  { apply dbl_ge; [apply (Fd (c - 1)%Z 27%Z); lia|]. rewrite !minus_IZR, !mult_IZR in *. lra. }
  assert (W2 : (dbl (q / 2) <= IZR c)%R).
  { apply dbl_le; [apply fmt_int; lia|]. rewrite !mult_IZR in *. lra. }
  apply Zceil_imp. split; [|exact W2]. lra.
Qed.

Lemma T_ex k : exists c, 1 <= c /\ T c <= k < T (c + 1).
Proof.
  induction k as [|k (c & H1 & H2)]; [exists 1; cbn; lia|]. destruct (Nat.lt_ge_cases (S k) (T (c + 1))) as [H|H].
  - exists c. lia.
  - exists (c + 1). rewrite (T_S (c + 1)). lia.
Qed.
Lemma T_double c : 2 * T c = c * (c - 1).
Proof. induction c as [|c IH]; [reflexivity|]. replace (S c) with (c + 1) by lia. rewrite T_S. nia. Qed.

Lemma col_dbl_ok K : (8 * Z.of_nat K + 9 < 2 ^ 53)%Z -> root_ok col_dbl K.
Proof.
  intros HK k Hk. destruct (T_ex k) as (c & H1 & H2). pose proof (T_double c) as D1. pose proof (T_double (c + 1)) as D2.
  assert (E : col_dbl k = c).
  { unfold col_dbl. rewrite (col_root _ (Z.of_nat c)); [apply Nat2Z.id|lia|lia|].
    split; nia. }
  rewrite E. split; [exact H1|exact H2].
Qed.

(** ** Beyond 2^53 the column can be wrong *)
Lemma dbl_val x e n : (-1074 <= e)%Z -> (bpow radix2 (e + 52) <= x < bpow radix2 (e + 53))%R ->
  (Rabs (x * bpow radix2 (- e) - IZR n) < / 2)%R -> dbl x = (IZR n * bpow radix2 e)%R.
Proof.
  intros He Hx HN. assert (Hp : (0 < bpow radix2 (e + 52))%R) by apply bpow_gt_0.
  assert (HC : cexp radix2 (FLT_exp (-1074) 53) x = e).
  { unfold cexp. rewrite (mag_unique_pos radix2 x (e + 53)); [unfold FLT_exp; lia|]. replace (e + 53 - 1)%Z with (e + 52)%Z by lia. exact Hx. }
  unfold dbl, round, scaled_mantissa. rewrite HC. unfold F2R. cbn [Fnum Fexp]. f_equal. f_equal. apply Znearest_imp. exact HN.
Qed.

Lemma col_dbl_wrong k c : Z.of_nat k = (2 ^ 57 + 2 ^ 28)%Z -> Z.of_nat c = (2 ^ 29)%Z -> col_dbl k = c.
Proof.
  intros Hk Hc. rewrite <- (Nat2Z.id c), Hc. unfold col_dbl. rewrite Hk. f_equal. replace (8 * (2 ^ 57 + 2 ^ 28) + 9)%Z with 1152921506754330633%Z by reflexivity.
  rewrite (dbl_val (IZR 1152921506754330633) 8 4503599635759104); cycle 1.
  { lia. } { cbn. split; lra. } { change (bpow radix2 (Z.opp 8)) with (/ IZR 256)%R. apply Rabs_def1; lra. }
  set (y := (IZR 4503599635759104 * bpow radix2 8)%R). assert (Ey : y = IZR 1152921506754330624) by (unfold y; cbn; lra).
  assert (B1 : (IZR 1073741825 - / 1000000000 <= sqrt y)%R).
  { rewrite <- (sqrt_square (IZR 1073741825 - / 1000000000)) by lra. apply sqrt_le_1_alt. rewrite Ey. lra. }
  assert (B2 : (sqrt y <= IZR 1073741825)%R).
  { rewrite <- (sqrt_square (IZR 1073741825)) by lra. apply sqrt_le_1_alt. rewrite Ey. lra. }
  rewrite (dbl_val (sqrt y) (- 22) 4503599631564800); cycle 1.
  { lia. } { cbn. split; lra. } { change (bpow radix2 (Z.opp (-22))) with (IZR 4194304)%R. apply Rabs_def1; lra. }
  replace (IZR 4503599631564800 * bpow radix2 (- 22))%R with (IZR 1073741825).
  2: { change (bpow radix2 (- 22)) with (/ IZR 4194304)%R. lra. }
  rewrite <- minus_IZR. rewrite (dbl_id (IZR (1073741825 - 1))) by (apply fmt_int; reflexivity).
  change (1073741825 - 1)%Z with 1073741824%Z. replace (1073741824 / 2)%R with (IZR 536870912) by lra.
  rewrite dbl_id by (apply fmt_int; reflexivity). apply Zceil_IZR.
Qed.
