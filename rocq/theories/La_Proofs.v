(** Derivatives of the penalties. *)
From Coq Require Import Reals Lra Bool.
From Coquelicot Require Import Coquelicot.
From Verif Require Import Base BaseLemmas Act_Spec Act_Proofs Loss_Proofs Sum_Spec Net_Proofs Net_Proofs3 La_Model La_Spec.
Local Open Scope R_scope.

Lemma total_bs n f : total n f = bs n f.
Proof. apply bs_sumR. Qed.

Lemma cov_bs rows V i j : cov rows V i j =
  / INR rows * bs rows (fun r => (nth (r + rows * i) V 0 - mean_of rows V i) * (nth (r + rows * j) V 0 - mean_of rows V j)).
Proof. unfold cov. rewrite total_bs. reflexivity. Qed.

Lemma cov_sym rows V i j : cov rows V i j = cov rows V j i.
Proof. rewrite !cov_bs. f_equal. apply bs_ext. intros. ring. Qed.

(** deviations from the mean add up to zero *)
Lemma bs_minus n f g : bs n (fun i => f i - g i) = bs n f - bs n g.
Proof. induction n as [|n IH]; cbn [bs]; [ring|]. rewrite IH. ring. Qed.
Lemma bs_const n k : bs n (fun _ => k) = INR n * k.
Proof. induction n as [|n IH]; [cbn; ring|]. cbn [bs]. rewrite IH, S_INR. ring. Qed.
Lemma INR_pos n : (0 < n)%nat -> INR n <> 0.
Proof. intros H. apply not_0_INR. lia. Qed.
Lemma deviations rows V j : (0 < rows)%nat -> bs rows (fun r => nth (r + rows * j) V 0 - mean_of rows V j) = 0.
Proof.
  intros H. rewrite bs_minus, bs_const. unfold mean_of. rewrite total_bs. field. apply INR_pos, H.
Qed.

Section D.
Context (rows cols : nat) (V : list R) (m c : nat).
Context (Hm : (m < rows)%nat) (Hc : (c < cols)%nat) (HV : (rows * cols <= length V)%nat).
Let x0 := nth (m + rows * c) V 0.
Let dm r j := nth (r + rows * j) V 0 - mean_of rows V j.

Lemma pos_lt r j : (r < rows)%nat -> (j < cols)%nat -> (r + rows * j < rows * cols)%nat.
Proof. intros. nia. Qed.

Lemma set_at t r j : (r < rows)%nat -> (j < cols)%nat ->
  nth (r + rows * j) (setn (m + rows * c) t V) 0 =
  nth (r + rows * j) V 0 + (if Nat.eqb j c then if Nat.eqb r m then t - x0 else 0 else 0).
Proof.
  intros Hr Hj. assert (HL : (m + rows * c < length V)%nat) by (pose proof (pos_lt m c Hm Hc); lia).
  destruct (Nat.eqb_spec j c) as [->|Hjc]; [destruct (Nat.eqb_spec r m) as [->|Hrm]|].
  - rewrite setn_nth_eq by exact HL. unfold x0. ring.
  - rewrite setn_nth_neq by (exact HL || lia). ring.
  - rewrite setn_nth_neq; [ring|exact HL|]. intros E. apply Hjc. nia.
Qed.

Lemma mean_set t j : (j < cols)%nat ->
  mean_of rows (setn (m + rows * c) t V) j = mean_of rows V j + (if Nat.eqb j c then / INR rows * (t - x0) else 0).
Proof.
  intros Hj. unfold mean_of. rewrite !total_bs.
  rewrite (bs_ext _ _ (fun r => nth (r + rows * j) V 0 + (if Nat.eqb j c then if Nat.eqb r m then t - x0 else 0 else 0)))
    by (intros r Hr; apply set_at; assumption).
  rewrite bs_plus. destruct (Nat.eqb_spec j c) as [->|Hjc].
  - rewrite (bs_single rows m (fun _ => t - x0)) by exact Hm. ring.
  - rewrite (bs_0 _ (fun _ => 0)) by reflexivity. ring.
Qed.

Lemma cov_set t i j : (i < cols)%nat -> (j < cols)%nat -> i <> j ->
  cov rows (setn (m + rows * c) t V) i j =
  cov rows V i j + (t - x0) * (/ INR rows * ((if Nat.eqb i c then dm m j else 0) + (if Nat.eqb j c then dm m i else 0))).
Proof.
  intros Hi Hj Hij. pose proof (INR_pos rows ltac:(lia)) as HN. rewrite !cov_bs.
  destruct (Nat.eqb_spec i c) as [->|Hic]; [|destruct (Nat.eqb_spec j c) as [->|Hjc]].
  - destruct (Nat.eqb_spec j c) as [->|Hjc]; [congruence|].
    rewrite (bs_ext _ _ (fun r => ((nth (r + rows * c) V 0 - mean_of rows V c) * dm r j
       + (if Nat.eqb r m then (t - x0) * dm r j else 0)) + - (/ INR rows * (t - x0)) * dm r j)).
    2: { intros r Hr. rewrite !set_at, !mean_set by assumption. rewrite Nat.eqb_refl.
         destruct (Nat.eqb_spec j c); [congruence|]. unfold dm. destruct (Nat.eqb r m); ring. }
    rewrite bs_plus, bs_plus, bs_scal. unfold dm at 3. rewrite deviations by lia.
    rewrite (bs_single rows m (fun r => (t - x0) * dm r j)) by exact Hm. unfold dm. ring.
  - rewrite (bs_ext _ _ (fun r => ((nth (r + rows * i) V 0 - mean_of rows V i) * dm r c
       + (if Nat.eqb r m then (t - x0) * dm r i else 0)) + - (/ INR rows * (t - x0)) * dm r i)).
    2: { intros r Hr. rewrite !set_at, !mean_set by assumption. rewrite Nat.eqb_refl.
         destruct (Nat.eqb_spec i c); [congruence|]. unfold dm. destruct (Nat.eqb r m); ring. }
    rewrite bs_plus, bs_plus, bs_scal. unfold dm at 3. rewrite deviations by lia.
    rewrite (bs_single rows m (fun r => (t - x0) * dm r i)) by exact Hm. unfold dm. ring.
  - rewrite (bs_ext _ _ (fun r => (nth (r + rows * i) V 0 - mean_of rows V i) * (nth (r + rows * j) V 0 - mean_of rows V j))).
    2: { intros r Hr. rewrite !set_at, !mean_set by assumption.
         destruct (Nat.eqb_spec i c); [congruence|]. destruct (Nat.eqb_spec j c); [congruence|]. ring. }
    ring.
Qed.

Lemma decov_derive l n : (1 < cols)%nat ->
  is_derive (fun t => penalty (KDeCov l n) rows cols (setn (m + rows * c) t V)) x0
    (2 / INR (rows * cols - rows) * bs cols (fun k => if Nat.eqb k c then 0 else dm m k * cov rows V k c)).
Proof.
  intros H1. pose proof (INR_pos rows ltac:(lia)) as HN. pose proof (INR_pos (cols - 1) ltac:(lia)) as HC.
  cbn [penalty].
  set (u := fun i j => / INR rows * ((if Nat.eqb i c then dm m j else 0) + (if Nat.eqb j c then dm m i else 0))).
  apply (d_ext (fun t => / INR (cols - 1) * (/ 2 * bs cols (fun i => bs cols (fun j =>
     if Nat.eqb i j then 0 else (cov rows V i j + (t - x0) * u i j) ^ 2))))).
  { intros t. rewrite total_bs. do 2 f_equal. apply bs_ext. intros i Hi. rewrite total_bs. apply bs_ext. intros j Hj.
    destruct (Nat.eqb_spec i j) as [E|E]; [reflexivity|]. rewrite cov_set by assumption. reflexivity. }
  eapply d_eq.
  { apply d_mult; [apply d_const|]. apply d_mult; [apply d_const|].
    apply (d_bs cols _ (fun i => bs cols (fun j => if Nat.eqb i j then 0 else 2 * cov rows V i j * u i j))).
    intros i Hi. apply (d_bs cols _ (fun j => if Nat.eqb i j then 0 else 2 * cov rows V i j * u i j)). intros j Hj.
    destruct (Nat.eqb_spec i j) as [E|E]; [apply d_const|]. auto_derive; [trivial|]. ring. }
  cbv beta.
  assert (E : bs cols (fun i => bs cols (fun j => if Nat.eqb i j then 0 else 2 * cov rows V i j * u i j)) =
    4 * / INR rows * bs cols (fun k => if Nat.eqb k c then 0 else dm m k * cov rows V k c)).
  { rewrite (bs_ext _ _ (fun i => 
      bs cols (fun j => if Nat.eqb i c then (if Nat.eqb i j then 0 else 2 * cov rows V i j * / INR rows * dm m j) else 0) +
      bs cols (fun j => if Nat.eqb j c then (if Nat.eqb i j then 0 else 2 * cov rows V i j * / INR rows * dm m i) else 0))).
    2: { intros i Hi. rewrite <- bs_plus. apply bs_ext. intros j Hj. unfold u.
         destruct (Nat.eqb i j), (Nat.eqb i c), (Nat.eqb j c); ring. }
    rewrite bs_plus.
    rewrite (bs_swap cols cols (fun i j => if Nat.eqb i c then (if Nat.eqb i j then 0 else 2 * cov rows V i j * / INR rows * dm m j) else 0)).
    assert (E1 : forall k, (if Nat.eqb c k then 0 else 2 * cov rows V c k * / INR rows * dm m k) =
        2 * / INR rows * (if Nat.eqb k c then 0 else dm m k * cov rows V k c)).
    { intros k. rewrite (Nat.eqb_sym c k), (cov_sym rows V c k). destruct (Nat.eqb k c); ring. }
    rewrite (bs_ext cols (fun j => bs cols (fun i => if Nat.eqb i c then _ else 0))
      (fun k => 2 * / INR rows * (if Nat.eqb k c then 0 else dm m k * cov rows V k c))).
    2: { intros k Hk. rewrite (bs_single cols c (fun i => if Nat.eqb i k then 0 else 2 * cov rows V i k * / INR rows * dm m k)) by exact Hc.
         apply E1. }
    rewrite (bs_ext cols (fun i => bs cols (fun j => if Nat.eqb j c then _ else 0))
      (fun k => 2 * / INR rows * (if Nat.eqb k c then 0 else dm m k * cov rows V k c))).
    2: { intros k Hk. rewrite (bs_single cols c (fun j => if Nat.eqb k j then 0 else 2 * cov rows V k j * / INR rows * dm m k)) by exact Hc.
         destruct (Nat.eqb k c); ring. }
    rewrite !bs_scal. ring. }
  rewrite E. replace (rows * cols - rows)%nat with (rows * (cols - 1))%nat by nia. rewrite mult_INR.
  field. auto.
Qed.
End D.

(** ** The other penalties *)
Lemma one_term n (F : R -> R) (dF : R) (V : list R) i : (i < n)%nat -> (n <= length V)%nat ->
  is_derive F (nth i V 0) dF -> is_derive (fun t => bs n (fun k => F (nth k (setn i t V) 0))) (nth i V 0) dF.
Proof.
  intros Hi HV HF.
  eapply d_eq; [apply (d_bs n _ (fun k => if Nat.eqb k i then dF else 0))|apply (bs_single n i (fun _ => dF)), Hi].
  intros k Hk. destruct (Nat.eqb_spec k i) as [->|E].
  - apply (d_ext F); [|exact HF]. intros t. rewrite setn_nth_eq by lia. reflexivity.
  - apply (d_ext (fun _ => F (nth k V 0))); [|apply d_const]. intros t. rewrite setn_nth_neq by lia. reflexivity.
Qed.

Lemma l2_derive rows cols V i : (i < rows * cols)%nat -> (rows * cols <= length V)%nat ->
  is_derive (fun t => penalty KL2 rows cols (setn i t V)) (nth i V 0) (nth i V 0).
Proof.
  intros Hi HV. cbn [penalty].
  apply (d_ext (fun t => / 2 * bs (rows * cols) (fun k => (fun y => y ^ 2) (nth k (setn i t V) 0)))).
  { intros t. rewrite total_bs. reflexivity. }
  eapply d_eq.
  - apply d_mult; [apply d_const|]. apply (one_term (rows * cols) (fun y => y ^ 2) (2 * nth i V 0) V i); [exact Hi|exact HV|].
    auto_derive; [trivial|ring].
  - cbv beta. field.
Qed.

Lemma abs_derive x : x <> 0 -> is_derive Rabs x (Opt_Model.sgn x).
Proof.
  intros H. unfold Opt_Model.sgn, Opt_Model.gtb, Opt_Model.bR.
  destruct (Rlt_dec 0 x) as [H0|H0].
  - destruct (Rlt_dec x 0); [lra|]. eapply d_eq; [apply is_derive_Reals, Rabs_derive_1, H0|lra].
  - destruct (Rlt_dec x 0) as [H1|H1]; [|lra]. eapply d_eq; [apply is_derive_Reals, Rabs_derive_2, H1|lra].
Qed.

Lemma l1_derive rows cols V i : (i < rows * cols)%nat -> (rows * cols <= length V)%nat -> nth i V 0 <> 0 ->
  is_derive (fun t => penalty KL1 rows cols (setn i t V)) (nth i V 0) (Opt_Model.sgn (nth i V 0)).
Proof.
  intros Hi HV H0. cbn [penalty].
  apply (d_ext (fun t => bs (rows * cols) (fun k => Rabs (nth k (setn i t V) 0)))).
  { intros t. rewrite total_bs. reflexivity. }
  apply (one_term (rows * cols) Rabs _ V i); [exact Hi|exact HV|apply abs_derive, H0].
Qed.

(** What does not belong to the values does not matter. *)
Lemma penalty_ext k rows cols V V' : (forall i, (i < rows * cols)%nat -> nth i V 0 = nth i V' 0) ->
  penalty k rows cols V = penalty k rows cols V'.
Proof.
  intros H.
  assert (HM : forall j, (j < cols)%nat -> mean_of rows V j = mean_of rows V' j).
  { intros j Hj. unfold mean_of. rewrite !total_bs. f_equal. apply bs_ext. intros r Hr. apply H. nia. }
  destruct k as [| |l n]; cbn [penalty].
  - rewrite !total_bs. apply bs_ext. intros i Hi. rewrite H by exact Hi. reflexivity.
  - rewrite !total_bs. f_equal. apply bs_ext. intros i Hi. rewrite H by exact Hi. reflexivity.
  - rewrite !total_bs. do 2 f_equal. apply bs_ext. intros i Hi. rewrite !total_bs. apply bs_ext. intros j Hj.
    destruct (Nat.eqb i j); [reflexivity|]. f_equal. rewrite !cov_bs. f_equal. apply bs_ext. intros r Hr.
    rewrite !HM, !H by (assumption || nia). reflexivity.
Qed.

Lemma penalty_out k rows cols V i x : (i < length V)%nat -> (rows * cols <= i)%nat ->
  is_derive (fun t => penalty k rows cols (setn i t V)) x 0.
Proof.
  intros Hi HV. apply (d_ext (fun _ => penalty k rows cols V)); [|apply d_const].
  intros t. apply penalty_ext. intros j Hj. rewrite setn_nth_neq; [reflexivity|exact Hi|lia].
Qed.
