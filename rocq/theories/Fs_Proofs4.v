(** The plain functors: the sum of the elements other than a value, and a sum that loses many
    elements. *)
From Coq Require Import Reals Lra Lia.
From Flocq Require Import Core Plus_error Relative.
From Verif Require Import Base BaseLemmas Act_Spec Loss_Proofs Sum_Model Sum_Spec Sum_Proofs Fs_Model Fs_Spec Fs_Proofs Fs_Proofs3.
Local Open Scope R_scope.

Section F.
Context (prec emin : Z) (choice : Z -> bool) (Hp : (6 <= prec)%Z).
Local Notation rnd := (nearest prec emin choice).
Local Notation fmt := (float prec emin).
Lemma sumnz_fold cv l : forall r c, fmt r ->
  fold_left (fsumnz_op rnd cv) l (r, c) =
  (fold_left (fsum_op rnd) (filter (differs cv) l) r, (c + length (filter (differs cv) l))%nat).
Proof.
  induction l as [|v l IH]; intros r c Fr; cbn [fold_left filter]; [cbn; rewrite Nat.add_0_r; reflexivity|].
  assert (D : differs cv v = if Req_EM_T v cv then false else true) by reflexivity.
  unfold fsumnz_op at 2. rewrite D. destruct (Req_EM_T v cv).
  - rewrite Rmult_0_l, Rplus_0_r, (f_id _ _ _ r Fr), IH by exact Fr. f_equal. lia.
  - rewrite Rmult_1_l, IH by (apply f_rnd; exact Hp). cbn [fold_left length]. f_equal. lia.
Qed.
Theorem sumnz_main data ofs n cv : (ofs + n <= length data)%nat -> let l := firstn n (skipn ofs data) in Forall fmt l ->
  exists s, vec_apply_func data ofs n (fsumnz_op rnd cv) (0, 0%nat) = Some (s, length (filter (differs cv) l)) /\
    fmt s /\ plain_sum (unit_roundoff prec) (filter (differs cv) l) s.
Proof.
  intros H l Fl. rewrite vec_fold by exact H. fold l. rewrite sumnz_fold by apply generic_format_0. cbn [Nat.add]. eexists. split; [reflexivity|].
  apply (plain_bound (unit_roundoff prec) (u_range prec emin choice Hp) rnd fmt (f_0 _ _) (f_rnd _ _ choice Hp) (f_add _ _ choice Hp)).
  apply Forall_forall. intros v Hv. apply filter_In in Hv. rewrite Forall_forall in Fl. apply Fl, Hv.
Qed.
End F.

(** ** A sum that loses all of its elements but one *)
Definition to_even (z : Z) : bool := negb (Z.even z).
Lemma tie prec emin : (6 <= prec)%Z -> (emin <= - prec)%Z -> nearest prec emin to_even (1 + unit_roundoff prec) = 1.
Proof.
  intros Hp He. unfold nearest, round, scaled_mantissa. set (x := 1 + unit_roundoff prec).
  assert (Hu : 0 < unit_roundoff prec < 1). { unfold unit_roundoff. split; [apply bpow_gt_0|]. change 1 with (bpow radix2 0). apply bpow_lt. lia. }
  assert (Hm : cexp radix2 (FLT_exp emin prec) x = (1 - prec)%Z).
  { unfold cexp. rewrite (mag_unique radix2 x 1). - unfold FLT_exp. lia. - change (bpow radix2 (1 - 1)) with 1. change (bpow radix2 1) with 2. unfold x. rewrite Rabs_pos_eq by lra. lra. }
  rewrite Hm. set (m := (2 ^ (prec - 1))%Z).
  assert (Em : IZR m = bpow radix2 (prec - 1)) by (unfold m; apply (IZR_Zpower radix2); lia).
  assert (Ex : x * bpow radix2 (- (1 - prec)) = IZR m + / 2).
  { replace (- (1 - prec))%Z with (prec - 1)%Z by lia. unfold x, unit_roundoff. rewrite Rmult_plus_distr_r, Rmult_1_l, <- bpow_plus, Em. replace (- prec + (prec - 1))%Z with (- (1))%Z by lia. reflexivity. }
  rewrite Ex. assert (Ef : Zfloor (IZR m + / 2) = m) by (apply Zfloor_imp; rewrite plus_IZR; lra).
  assert (Er : Znearest to_even (IZR m + / 2) = m).
  { unfold Znearest. rewrite Ef. replace (IZR m + / 2 - IZR m) with (/ 2) by ring. rewrite Rcompare_Eq by reflexivity.
    unfold to_even, m. replace (prec - 1)%Z with (Z.succ (prec - 2)) by lia. rewrite Z.pow_succ_r by lia. rewrite Z.even_mul. reflexivity. }
  rewrite Er. unfold F2R. cbn [Fnum Fexp]. rewrite Em, <- bpow_plus. replace (prec - 1 + (1 - prec))%Z with 0%Z by lia. reflexivity.
Qed.
Lemma f_pow prec emin e : (emin <= e)%Z -> (0 < prec)%Z -> float prec emin (bpow radix2 e).
Proof. intros H1 H2. apply generic_format_FLT_bpow; [exact H2|exact H1]. Qed.
Lemma lost prec emin k : (6 <= prec)%Z -> (emin <= - prec)%Z ->
  fold_left (fsum_op (nearest prec emin to_even)) (repeat (unit_roundoff prec) k) 1 = 1.
Proof. intros Hp He. induction k as [|k IH]; [reflexivity|]. cbn [repeat fold_left]. unfold fsum_op at 2. rewrite tie by assumption. exact IH. Qed.
Lemma sum_repeat x k : sumR (repeat x k) = INR k * x.
Proof. induction k as [|k IH]; [cbn; unfold sumR; cbn; ring|]. cbn [repeat]. rewrite sumR_cons, IH, S_INR. ring. Qed.
Lemma map_repeat' {A B} (f : A -> B) x k : map f (repeat x k) = repeat (f x) k.
Proof. induction k as [|k IH]; cbn; [reflexivity|]. rewrite IH. reflexivity. Qed.
Theorem plain_loses (K : nat) : exists prec emin data, (6 <= prec)%Z /\ Forall (float prec emin) data /\ INR (length data) * unit_roundoff prec <= 1 /\
  exists s, fvec_sum (nearest prec emin to_even) false data 0 (length data) = Some s /\
    Rabs (s - sumR data) > INR K * unit_roundoff prec * abs_total data.
Proof.
  set (k := (2 * K + 1)%nat). set (prec := (6 + Z.of_nat (k + 1))%Z). set (u := unit_roundoff prec).
  exists prec, (- prec)%Z, (1 :: repeat u k). assert (Hp : (6 <= prec)%Z) by (unfold prec; lia).
  assert (Hk : INR (k + 1) * u <= 1).
  { unfold u, unit_roundoff. rewrite bpow_opp. apply (Rmult_le_reg_r (bpow radix2 prec)); [apply bpow_gt_0|]. rewrite Rmult_assoc, Rinv_l by (apply Rgt_not_eq, bpow_gt_0). rewrite Rmult_1_r, Rmult_1_l, INR_IZR_INZ.
    rewrite <- (IZR_Zpower radix2) by lia. apply IZR_le. change (radix_val radix2) with 2%Z. apply Z.lt_le_incl, Z.lt_le_trans with (2 ^ Z.of_nat (k + 1))%Z; [apply Z.pow_gt_lin_r; lia|apply Z.pow_le_mono_r; lia]. }
  assert (Hu : 0 < u) by (apply bpow_gt_0).
  split; [exact Hp|]. split; [constructor; [change 1 with (bpow radix2 0); apply f_pow; lia|apply Forall_forall; intros x Hx; apply repeat_spec in Hx; subst x; apply f_pow; lia]|].
  cbn [length]. rewrite repeat_length. rewrite <- (Nat.add_1_r k). split; [exact Hk|].
  exists 1. split.
  - unfold fvec_sum. rewrite vec_fold by (cbn [length]; rewrite repeat_length; lia). cbn [skipn]. rewrite firstn_all2 by (cbn [length]; rewrite repeat_length; lia).
    cbn [fold_left]. unfold fsum_op at 2. rewrite Rplus_0_l, f_id by (change 1 with (bpow radix2 0); apply f_pow; lia). unfold u. rewrite lost by lia. reflexivity.
  - unfold abs_total. cbn [map]. rewrite !sumR_cons, map_repeat'. rewrite Rabs_R1, (Rabs_pos_eq u) by lra. rewrite sum_repeat.
    replace (1 - (1 + INR k * u)) with (- (INR k * u)) by ring. rewrite Rabs_Ropp.
    assert (0 <= INR k) by apply pos_INR. assert (0 <= INR K) by apply pos_INR.
    rewrite Rabs_pos_eq by (apply Rmult_le_pos; lra).
    rewrite plus_INR in Hk. change (INR 1) with 1 in Hk.
    assert (Ek : INR k = 2 * INR K + 1) by (unfold k; rewrite plus_INR, mult_INR; reflexivity).
    assert (INR K * u * (INR k * u) <= INR K * u * 1) by (apply Rmult_le_compat_l; [apply Rmult_le_pos; lra|lra]). assert (Eu : INR k * u = 2 * (INR K * u) + u) by (rewrite Ek; ring). fold u. lra.
Qed.

(** ** Without rounding, the functors are those of Sum_Model *)
Definition exact (x : R) : R := x.
Lemma same_functors : fsum_op exact = sum_op /\ fkahan_op exact = kahan_op /\ fsumnz_op exact = sumnz_op /\ fkahannz_op exact = kahannz_op /\
  fewSumSquares exact = ewSumSquares /\ floss_quadratic exact = loss_quadratic.
Proof. repeat split. Qed.
