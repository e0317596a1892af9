(** Proofs about the confusion matrix and the training options. *)
From Verif Require Import Base BaseLemmas Util_Model Util_Spec Util_Proofs.
From Coq Require Import Reals Lra.
Local Open Scope Z_scope.

Definition cm_of (tn fn fp tp : Z) : cmtx := [Some tn; Some fn; Some fp; Some tp].

Lemma shows_of : forall m tp fn fp tn, shows m tp fn fp tn <-> m = cm_of tn fn fp tp.
Proof.
  intros m tp fn fp tn; unfold shows, cm_of; split.
  - intros [H1 [H2 [H3 [H4 H5]]]].
    destruct m as [|a [|b [|c [|d [|? ?]]]]]; try discriminate H5.
    unfold cm_TP, cm_FN, cm_FP, cm_TN, cm_cell in *. cbn in *. congruence.
  - intros ->. repeat split.
Qed.

Lemma counts_of : forall m l, counts m l <->
  m = cm_of (occurrences false false l) (occurrences true false l)
            (occurrences false true l) (occurrences true true l).
Proof. intros m l. rewrite <- shows_of. reflexivity. Qed.

Lemma occ_nonneg : forall t p l, 0 <= occurrences t p l.
Proof.
  intros t p l; induction l as [|[a b] l IH]; cbn [occurrences]; [lia|].
  destruct t, a, p, b; lia.
Qed.

Lemma occ_total : forall l,
  occurrences true true l + occurrences true false l +
  occurrences false true l + occurrences false false l = Z.of_nat (length l).
Proof.
  induction l as [|[a b] l IH]; [reflexivity|].
  cbn [occurrences length]. destruct a, b; lia.
Qed.

Lemma occ_app : forall t p l l', occurrences t p (l ++ l') = occurrences t p l + occurrences t p l'.
Proof.
  intros t p l l'; induction l as [|[a b] l IH]; [reflexivity|].
  cbn [occurrences app]. rewrite IH. lia.
Qed.

Lemma i32_ok : forall x, - 2 ^ 31 <= x < 2 ^ 31 -> i32 x = Some x.
Proof.
  intros x H. unfold i32. destruct (Z.leb_spec (- 2 ^ 31) x); [|lia].
  destruct (Z.ltb_spec x (2 ^ 31)); [reflexivity|lia].
Qed.

Lemma i32_none : forall x, 2 ^ 31 <= x -> i32 x = None.
Proof.
  intros x H. unfold i32. destruct (Z.ltb_spec x (2 ^ 31)); [lia|].
  rewrite andb_false_r. reflexivity.
Qed.

Lemma cm_updates_ok : forall l a b c d,
  0 <= a -> 0 <= b -> 0 <= c -> 0 <= d ->
  a + b + c + d + Z.of_nat (length l) < 2 ^ 31 ->
  cm_updates l (cm_of a b c d) =
    Some (cm_of (a + occurrences false false l) (b + occurrences true false l)
                (c + occurrences false true l) (d + occurrences true true l)).
Proof.
  induction l as [|[t p] l IH]; intros a b c d Ha Hb Hc Hd H.
  - cbn. rewrite !Z.add_0_r. reflexivity.
  - cbn [length] in H.
    cbn [cm_updates occurrences]. unfold cm_update.
    change (cm_of a b c d) with [Some a; Some b; Some c; Some d].
    destruct t, p; cbn [b2n Nat.mul Nat.add bget nth_error obind];
      rewrite i32_ok by lia; cbn [obind bset];
      match goal with |- context [cm_updates l ?m] =>
        match m with [Some ?x; Some ?y; Some ?z; Some ?w] => change m with (cm_of x y z w) end
      end;
      rewrite IH by lia; do 2 f_equal; lia.
Qed.

Lemma cm_clear_of : forall m, length m = 4%nat -> cm_clear m = cm_of 0 0 0 0.
Proof.
  intros m H. destruct m as [|a [|b [|c [|d [|? ?]]]]]; try discriminate H. reflexivity.
Qed.

Lemma cm_session_ok : forall m l, length m = 4%nat -> Z.of_nat (length l) < 2 ^ 31 ->
  exists m', cm_updates l (cm_clear m) = Some m' /\ counts m' l.
Proof.
  intros m l Hm Hl. rewrite (cm_clear_of m Hm).
  rewrite cm_updates_ok by lia. eexists; split; [reflexivity|]. apply counts_of. f_equal; lia.
Qed.

Lemma cm_All_of : forall a b c d, 0 <= a -> 0 <= b -> 0 <= c -> 0 <= d ->
  a + b + c + d < 2 ^ 31 -> cm_All (cm_of a b c d) = Some (a + b + c + d).
Proof.
  intros a b c d Ha Hb Hc Hd H. unfold cm_All, cm_of. cbn [fold_left].
  unfold i32_add; cbn [obind].
  rewrite (i32_ok (0 + a)) by lia; cbn [obind].
  rewrite (i32_ok (0 + a + b)) by lia; cbn [obind].
  rewrite (i32_ok (0 + a + b + c)) by lia; cbn [obind].
  rewrite (i32_ok (0 + a + b + c + d)) by lia. f_equal; lia.
Qed.

Lemma cm_plus_of : forall a b c d a' b' c' d',
  0 <= a -> 0 <= b -> 0 <= c -> 0 <= d -> 0 <= a' -> 0 <= b' -> 0 <= c' -> 0 <= d' ->
  a + b + c + d + (a' + b' + c' + d') < 2 ^ 31 ->
  cm_plus (cm_of a b c d) (cm_of a' b' c' d') = Some (cm_of (a + a') (b + b') (c + c') (d + d')).
Proof.
  intros. unfold cm_plus, cm_of. cbn [length for_loop bget nth_error obind].
  unfold i32_add; cbn [obind].
  rewrite (i32_ok (a + a')) by lia; cbn [obind bset bget nth_error].
  rewrite (i32_ok (b + b')) by lia; cbn [obind bset bget nth_error].
  rewrite (i32_ok (c + c')) by lia; cbn [obind bset bget nth_error].
  rewrite (i32_ok (d + d')) by lia; cbn [obind bset bget nth_error].
  reflexivity.
Qed.

Lemma cm_pluses_ok : forall ms ls m l, Forall2 counts ms ls -> counts m l ->
  Z.of_nat (length l + length (concat ls)) < 2 ^ 31 ->
  exists m', cm_pluses m ms = Some m' /\ counts m' (l ++ concat ls).
Proof.
  intros ms ls m l F; revert m l. induction F as [|m1 l1 ms ls C F IH]; intros m l Hm HL.
  - exists m; split; [reflexivity|]. cbn. rewrite app_nil_r. exact Hm.
  - cbn [cm_pluses concat]. cbn [concat] in HL. rewrite app_length in HL.
    assert (cm_plus m m1 = Some (cm_of
       (occurrences false false (l ++ l1)) (occurrences true false (l ++ l1))
       (occurrences false true (l ++ l1)) (occurrences true true (l ++ l1)))) as P.
    { apply counts_of in Hm, C. subst m m1. rewrite !occ_app.
      pose proof (occ_total l); pose proof (occ_total l1).
      apply cm_plus_of; try apply occ_nonneg. lia. }
    rewrite P. cbn [obind].
    rewrite app_assoc. apply IH; [apply counts_of; reflexivity|].
    rewrite app_length. lia.
Qed.

Lemma cm_reduce_ok : forall ms ls, Forall2 counts ms ls -> ms <> [] ->
  Z.of_nat (length (concat ls)) < 2 ^ 31 ->
  exists m, cm_reduce ms = Some m /\ counts m (concat ls).
Proof.
  intros ms ls F N HL. destruct F as [|m l ms ls C F]; [contradiction|].
  cbn [cm_reduce concat] in *. rewrite app_length in HL.
  apply cm_pluses_ok; assumption.
Qed.

(** ** Scores *)
Lemma mul_ge : forall x y, 0 < x -> 0 < y -> 0 < x * y /\ x <= x * y /\ y <= x * y.
Proof. intros; nia. Qed.

Lemma four_products : forall A B C D, 0 < A -> 0 < B -> 0 < C -> 0 < D ->
  0 < A * B <= A * B * C * D /\ 0 < A * B * C <= A * B * C * D /\ 0 < A * B * C * D /\
  A * C <= A * B * C * D.
Proof.
  intros A B C D HA HB HC HD.
  destruct (mul_ge A B HA HB) as [P1 [P2 P3]].
  destruct (mul_ge (A * B) C P1 HC) as [P4 [P5 P6]].
  destruct (mul_ge (A * B * C) D P4 HD) as [P7 [P8 P9]].
  destruct (mul_ge A C HA HC) as [P10 _].
  destruct (mul_ge B D HB HD) as [P11 _].
  destruct (mul_ge (A * C) (B * D) P10 P11) as [P12 [P13 _]].
  replace (A * C * (B * D)) with (A * B * C * D) in P13 by ring.
  repeat split; lia.
Qed.

Section scores.
Context (tp fn fp tn : Z) (m : cmtx).
Context (S : shows m tp fn fp tn).
Context (H1 : 0 <= tp) (H2 : 0 <= fn) (H3 : 0 <= fp) (H4 : 0 <= tn).
Context (HT : tp + fn + fp + tn < 2 ^ 31).

Lemma ratio01 : forall a b, 0 <= a <= b -> 0 < b -> (0 <= IZR a / IZR b <= 1)%R.
Proof.
  intros a b Ha Hb. apply IZR_lt in Hb. destruct Ha as [Ha1 Ha2]. apply IZR_le in Ha1, Ha2.
  split.
  - apply Rmult_le_pos; [exact Ha1|]. left. apply Rinv_0_lt_compat. exact Hb.
  - apply (Rmult_le_reg_r (IZR b)); [exact Hb|]. unfold Rdiv.
    rewrite Rmult_assoc, Rinv_l by lra. lra.
Qed.

Lemma rdiv_some : forall a b, b <> 0 -> rdiv (Some a) (Some b) = Some (IZR a / IZR b)%R.
Proof.
  intros a b Hb. unfold rdiv; cbn [obind]. destruct (Z.eqb_spec b 0); [contradiction|reflexivity].
Qed.

Lemma add_some : forall a b, 0 <= a -> 0 <= b -> a + b < 2 ^ 31 ->
  i32_add (Some a) (Some b) = Some (a + b).
Proof. intros a b Ha Hb H. unfold i32_add; cbn [obind]. apply i32_ok; lia. Qed.

Lemma sens_ok : 0 < tp + fn ->
  cm_Sensitivity m = Some (IZR tp / IZR (tp + fn))%R.
Proof.
  intros P. destruct S as [S1 [S2 [S3 [S4 _]]]]. unfold cm_Sensitivity, cm_DataPos.
  rewrite S1, S2, add_some by lia. apply rdiv_some; lia.
Qed.
Lemma spec_ok : 0 < tn + fp ->
  cm_Specificity m = Some (IZR tn / IZR (tn + fp))%R.
Proof.
  intros P. destruct S as [S1 [S2 [S3 [S4 _]]]]. unfold cm_Specificity, cm_DataNeg.
  rewrite S3, S4, add_some by lia. apply rdiv_some; lia.
Qed.
Lemma prec_ok : 0 < tp + fp ->
  cm_Precision m = Some (IZR tp / IZR (tp + fp))%R.
Proof.
  intros P. destruct S as [S1 [S2 [S3 [S4 _]]]]. unfold cm_Precision, cm_TotalPos.
  rewrite S1, S3, add_some by lia. apply rdiv_some; lia.
Qed.
Lemma npv_ok : 0 < tn + fn ->
  cm_NPV m = Some (IZR tn / IZR (tn + fn))%R.
Proof.
  intros P. destruct S as [S1 [S2 [S3 [S4 _]]]]. unfold cm_NPV, cm_TotalNeg.
  rewrite S2, S4, add_some by lia. apply rdiv_some; lia.
Qed.
Lemma acc_ok : 0 < tp + fn + fp + tn ->
  cm_Accuracy m = Some (IZR (tp + tn) / IZR (tp + fn + fp + tn))%R.
Proof.
  intros P. pose proof S as [S1 [S2 [S3 [S4 _]]]]. unfold cm_Accuracy.
  rewrite S1, S4, add_some by lia. apply shows_of in S. rewrite S.
  rewrite cm_All_of by lia. rewrite rdiv_some by lia. do 2 f_equal. f_equal. lia.
Qed.
Lemma jac_ok : 0 < tp + fn + fp ->
  cm_Jaccard m = Some (IZR tp / IZR (tp + fn + fp))%R.
Proof.
  intros P. destruct S as [S1 [S2 [S3 [S4 _]]]]. unfold cm_Jaccard.
  rewrite S1, S2, S3, !add_some by lia. rewrite rdiv_some by lia. do 3 f_equal. lia.
Qed.

(** F1 is the harmonic mean of precision and recall. *)
Lemma f1_ok : 0 < tp -> 2 * tp + fp + fn < 2 ^ 31 ->
  exists p r f, cm_Precision m = Some p /\ cm_Sensitivity m = Some r /\ cm_F1 m = Some f /\
    f = (2 / (1 / p + 1 / r))%R.
Proof.
  intros P O. exists (IZR tp / IZR (tp + fp))%R, (IZR tp / IZR (tp + fn))%R,
    (IZR (2 * tp) / IZR (2 * tp + fp + fn))%R.
  split; [apply prec_ok; lia|]. split; [apply sens_ok; lia|].
  destruct S as [S1 [S2 [S3 [S4 _]]]]. unfold cm_F1. rewrite S1, S2, S3.
  unfold i32_mul; cbn [obind]. rewrite (i32_ok (2 * tp)) by lia.
  rewrite (add_some (2 * tp) fp) by lia. rewrite (add_some (2 * tp + fp) fn) by lia.
  split; [apply rdiv_some; lia|].
  assert (0 < IZR tp)%R by (apply IZR_lt; lia).
  assert (0 < IZR (tp + fp))%R by (apply IZR_lt; lia).
  assert (0 < IZR (tp + fn))%R by (apply IZR_lt; lia).
  assert (0 < IZR (2 * tp + fp + fn))%R by (apply IZR_lt; lia).
  rewrite !plus_IZR, !mult_IZR in *. field. repeat split; lra.
Qed.

Definition mcc_den : Z := (tp + fp) * (tp + fn) * (tn + fp) * (tn + fn).

Lemma mcc_sq : (tp * tn - fp * fn) * (tp * tn - fp * fn) <= mcc_den.
Proof.
  unfold mcc_den.
  assert (A : tp * tn + fp * fn <= (tp + fp) * (tn + fn)) by nia.
  assert (B : tp * tn + fp * fn <= (tp + fn) * (tn + fp)) by nia.
  assert (C : 0 <= tp * tn + fp * fn) by nia.
  assert (D : (tp * tn + fp * fn) * (tp * tn + fp * fn) <=
              ((tp + fp) * (tn + fn)) * ((tp + fn) * (tn + fp))).
  { apply Z.mul_le_mono_nonneg; lia. }
  assert (E : (tp * tn - fp * fn) * (tp * tn - fp * fn) <=
              (tp * tn + fp * fn) * (tp * tn + fp * fn)).
  { assert (0 <= (tp * tn) * (fp * fn)) by (apply Z.mul_nonneg_nonneg; nia). nia. }
  replace ((tp + fp) * (tp + fn) * (tn + fp) * (tn + fn))
    with (((tp + fp) * (tn + fn)) * ((tp + fn) * (tn + fp))) by ring.
  lia.
Qed.

Lemma mul_some : forall a b, 0 <= a * b < 2 ^ 31 -> i32_mul (Some a) (Some b) = Some (a * b).
Proof. intros a b H. unfold i32_mul; cbn [obind]. apply i32_ok; lia. Qed.

Lemma mcc_ok : mcc_den < 2 ^ 31 ->
  cm_MCC m = Some (if mcc_den =? 0 then 0%R
                   else (IZR (tp * tn - fp * fn) / sqrt (IZR mcc_den))%R)
  \/ (mcc_den = 0 /\ cm_MCC m = None).
Proof.
  intros HD. pose proof S as [S1 [S2 [S3 [S4 _]]]]. unfold cm_MCC.
  rewrite S1, S2, S3, S4.
  rewrite (add_some tp fp), (add_some tp fn), (add_some tn fp), (add_some tn fn) by lia.
  destruct (Z.eq_dec mcc_den 0) as [Z0|NZ].
  - (* a zero factor: the partial products may still overflow before it *)
    destruct (i32_mul (i32_mul (i32_mul (Some (tp + fp)) (Some (tp + fn))) (Some (tn + fp)))
                (Some (tn + fn))) as [den|] eqn:E.
    + left. assert (den = mcc_den) as ->.
      { unfold mcc_den, i32_mul, i32 in *. cbn [obind] in E.
        repeat match type of E with context [if ?c then _ else _] =>
          destruct c; cbn [obind] in E; [|discriminate E] end.
        injection E as <-. reflexivity. }
      cbn [obind]. rewrite Z0. reflexivity.
    + right. split; [exact Z0|reflexivity].
  - left. unfold mcc_den in *.
    assert (0 < tp + fp) by (apply Z.le_neq; split; [lia|intros Q; rewrite <- Q in NZ; lia]).
    assert (0 < tp + fn) by (apply Z.le_neq; split; [lia|intros Q; rewrite <- Q in NZ; lia]).
    assert (0 < tn + fp) by (apply Z.le_neq; split; [lia|intros Q; rewrite <- Q in NZ; lia]).
    assert (0 < tn + fn) by (apply Z.le_neq; split; [lia|intros Q; rewrite <- Q in NZ; lia]).
    assert (M1 : 0 <= tp * tn) by (apply Z.mul_nonneg_nonneg; lia).
    assert (M2 : 0 <= fp * fn) by (apply Z.mul_nonneg_nonneg; lia).
    assert (M3 : tp * tn <= (tp + fp) * (tn + fp)) by (apply Z.mul_le_mono_nonneg; lia).
    assert (M4 : fp * fn <= (tp + fp) * (tp + fn)) by (apply Z.mul_le_mono_nonneg; lia).
    destruct (four_products (tp + fp) (tp + fn) (tn + fp) (tn + fn)) as [K1 [K2 [K3 K4]]];
      try assumption.
    set (A := tp + fp) in *. set (B := tp + fn) in *. set (C := tn + fp) in *. set (D := tn + fn) in *.
    rewrite (mul_some A B) by (clearbody A B C D; lia).
    rewrite (mul_some (A * B) C) by (clearbody A B C D; lia).
    rewrite (mul_some (A * B * C) D) by (clearbody A B C D; lia). cbn [obind].
    destruct (Z.eqb_spec (A * B * C * D) 0); [contradiction|].
    clearbody A B C D.
    rewrite (mul_some tp tn) by lia. rewrite (mul_some fp fn) by lia.
    unfold i32_sub; cbn [obind]. rewrite i32_ok by lia. cbn [obind].
    reflexivity.
Qed.

Lemma mcc_overflow : 2 ^ 31 <= mcc_den -> cm_MCC m = None.
Proof.
  intros HD. pose proof S as [S1 [S2 [S3 [S4 _]]]]. unfold cm_MCC.
  rewrite S1, S2, S3, S4.
  rewrite (add_some tp fp), (add_some tp fn), (add_some tn fp), (add_some tn fn) by lia.
  destruct (i32_mul (i32_mul (i32_mul (Some (tp + fp)) (Some (tp + fn))) (Some (tn + fp)))
              (Some (tn + fn))) as [den|] eqn:E; [|reflexivity].
  exfalso. unfold i32_mul, i32 in E. cbn [obind] in E. unfold mcc_den in HD.
  repeat match type of E with context [if ?c then _ else _] =>
    let Q := fresh in destruct c eqn:Q; cbn [obind] in E; [|discriminate E] end.
  lia.
Qed.

Lemma mcc_zero : mcc_den = 0 -> tp + fn + fp + tn <= 1290 -> cm_MCC m = Some 0%R.
Proof.
  intros Z0 HN. pose proof S as [S1 [S2 [S3 [S4 _]]]]. unfold cm_MCC.
  rewrite S1, S2, S3, S4.
  rewrite (add_some tp fp), (add_some tp fn), (add_some tn fp), (add_some tn fn) by lia.
  unfold mcc_den in Z0.
  assert (A1 : 0 <= tp + fp <= 1290) by lia. assert (A2 : 0 <= tp + fn <= 1290) by lia.
  assert (A3 : 0 <= tn + fp <= 1290) by lia.
  set (A := tp + fp) in *. set (B := tp + fn) in *. set (C := tn + fp) in *. set (D := tn + fn) in *.
  assert (B1 : 0 <= A * B <= 1290 * 1290).
  { split; [apply Z.mul_nonneg_nonneg; lia|apply Z.mul_le_mono_nonneg; lia]. }
  assert (B2 : 0 <= A * B * C <= 1290 * 1290 * 1290).
  { split; [apply Z.mul_nonneg_nonneg; lia|apply Z.mul_le_mono_nonneg; lia]. }
  rewrite (mul_some A B) by lia. rewrite (mul_some (A * B) C) by lia.
  rewrite (mul_some (A * B * C) D) by lia. cbn [obind]. rewrite Z0. reflexivity.
Qed.

Lemma mcc_marginals : 216 <= tp + fp -> 216 <= tp + fn -> 216 <= tn + fp -> 216 <= tn + fn ->
  cm_MCC m = None.
Proof.
  intros A1 A2 A3 A4. apply mcc_overflow. unfold mcc_den.
  assert (B1 : 216 * 216 <= (tp + fp) * (tp + fn)) by (apply Z.mul_le_mono_nonneg; lia).
  assert (B2 : 216 * 216 * 216 <= (tp + fp) * (tp + fn) * (tn + fp))
    by (apply Z.mul_le_mono_nonneg; lia).
  assert (B3 : 216 * 216 * 216 * 216 <= (tp + fp) * (tp + fn) * (tn + fp) * (tn + fn))
    by (apply Z.mul_le_mono_nonneg; lia).
  lia.
Qed.

Lemma mcc_range : 0 < mcc_den ->
  (-1 <= IZR (tp * tn - fp * fn) / sqrt (IZR mcc_den) <= 1)%R.
Proof.
  intros HD. apply IZR_lt in HD.
  pose proof (sqrt_lt_R0 _ HD) as SP.
  pose proof mcc_sq as Q. apply IZR_le in Q. rewrite mult_IZR in Q.
  set (x := IZR (tp * tn - fp * fn)) in *. set (d := IZR mcc_den) in *.
  assert (Rabs x <= sqrt d)%R as AB.
  { rewrite <- sqrt_Rsqr_abs. apply sqrt_le_1_alt. exact Q. }
  assert (- sqrt d <= x <= sqrt d)%R as [B1 B2].
  { unfold Rabs in AB. destruct (Rcase_abs x); lra. }
  split; apply (Rmult_le_reg_r (sqrt d)); try exact SP; unfold Rdiv;
    rewrite Rmult_assoc, Rinv_l by lra; lra.
Qed.
End scores.

(** ** Training options *)
Lemma to_run_inv : forall ps o o', to_run ps o = Some o' ->
  0 <= to_batch o -> 0 <= to_fprop o -> (to_fprop o = 0 \/ to_batch o <= to_fprop o) ->
  0 <= to_batch o' /\ 0 <= to_fprop o' /\ (to_fprop o' = 0 \/ to_batch o' <= to_fprop o').
Proof.
  induction ps as [|p t IH]; intros o o' H A B C; cbn in H.
  - injection H as <-. auto.
  - destruct (to_do p o) as [o1|] eqn:E; [|discriminate H]. cbn in H.
    apply (IH o1 o' H); clear IH H; destruct p as [v|v]; cbn in E;
      unfold to_setBatch, to_setFprop in E;
      match type of E with (if ?c then _ else _) = _ => destruct c eqn:Q end;
      try discriminate E; injection E as <-; cbn; lia.
Qed.
