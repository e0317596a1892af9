From Coq Require Import Reals Lra Lia Permutation.
From Coquelicot Require Import Coquelicot.
From Verif Require Import Base BaseLemmas Workers_Model Workers_Spec Kern_Model Kern_Spec Kern_Proofs
  IdxMax_Model IdxMax_Spec IdxMax_Proofs Priv_Model Priv_Proofs Ew_Model Ew_Spec Ew_Proofs Act_Model Act_Spec Act_Proofs Loss_Proofs
  MKern_Proofs2 Sfm_Model Sfm_Spec Sfm_Proofs.
Local Open Scope nat_scope.

Lemma sumR_scal (f : nat -> R) k l : sumR (map (fun j => f j * k)%R l) = (sumR (map f l) * k)%R.
Proof. induction l as [|x l IH]; unfold sumR in *; cbn; [ring|]. rewrite IH. ring. Qed.

Lemma sumR_le (f g : nat -> R) l : (forall j, In j l -> (f j <= g j)%R) -> (sumR (map f l) <= sumR (map g l))%R.
Proof.
  induction l as [|x l IH]; intros H; unfold sumR in *; cbn; [lra|].
  apply Rplus_le_compat; [apply H; left; reflexivity|apply IH; intros; apply H; right; assumption].
Qed.

Lemma sumR_ext (f g : nat -> R) l : (forall j, In j l -> f j = g j) -> sumR (map f l) = sumR (map g l).
Proof. intros H. f_equal. apply map_ext_in. exact H. Qed.

Lemma sumR_pos (f : nat -> R) n : 0 < n -> (forall j, (0 < f j)%R) -> (0 < sumR (map f (seq 0 n)))%R.
Proof.
  intros Hn H. destruct n as [|n]; [lia|]. cbn [seq map]. unfold sumR. cbn [fold_right].
  assert (Hz : forall l, (0 <= fold_right Rplus 0 (map f l))%R).
  { induction l as [|x l IH]; cbn; [lra|]. specialize (H x). lra. }
  specialize (H 0). specialize (Hz (seq 1 n)). lra.
Qed.

Lemma sumR_const k l : sumR (map (fun _ : nat => k) l) = (INR (length l) * k)%R.
Proof. induction l as [|x l IH]; unfold sumR in *; [cbn; ring|]. cbn [map fold_right length]. rewrite IH, S_INR. ring. Qed.

Lemma ex_softmax rows cols d M r c : 0 < cols ->
  (exp (elt rows d r c - M r) / sumR (map (fun j => exp (elt rows d r j - M r)) (seq 0 cols)))%R = softmax_of rows cols d r c.
Proof.
  intros Hc. unfold softmax_of.
  assert (E : forall j, exp (elt rows d r j - M r)%R = (exp (elt rows d r j) * exp (- M r))%R).
  { intros j. unfold Rminus. apply exp_plus. }
  rewrite E. rewrite (sumR_ext _ (fun j => exp (elt rows d r j) * exp (- M r))%R) by (intros; apply E).
  rewrite (sumR_scal (fun j => exp (elt rows d r j))).
  assert (HS := sumR_pos (fun j => exp (elt rows d r j)) cols Hc (fun j => exp_pos _)).
  assert (HM := exp_pos (- M r)). field. split; lra.
Qed.

Section T.
Context (t : sthr) (pool : list prange) (A : mtx R) (m : list R) (HR : sfm_ready t pool A m).
Let rows := m_rows A.
Let cols := cols_nb A.
Let D := m_data A.

Lemma mem_len : rows * cols + rows + rows * (length pool + 1) <= length m.
Proof. destruct HR as (_ & _ & _ & _ & _ & E). rewrite E. unfold softmax_mem. fold rows cols. nia. Qed.

(** after the maxima *)
Lemma max_phase mt (post : list R -> Prop) :
  (forall m1 M, length m1 = length m -> (forall r, r < rows -> bget m1 (rows * cols + r) = Some (M r) /\ row_max_is rows cols D r (M r)) -> post m1) ->
  computes (mrwMax (t_max t) pool mt (hidden A) (0 + numel (hidden A)) m) m post.
Proof.
  intros Hp. pose proof mem_len as Hm. destruct HR as (H1 & H2 & H3 & H4 & H5 & H6).
  eapply computes_weaken; [apply (mrwMax_ok (hidden A)); cbn; auto|].
  { unfold numel. cbn. fold rows cols. nia. }
  cbv beta. intros m1 Hl H. cbn [m_rows m_cols m_data hidden] in H. unfold numel in H. cbn [m_rows m_cols hidden Nat.add] in H.
  fold rows cols D in H. apply (Hp m1 (fun r => nth (rows * cols + r) m1 0%R) Hl).
  intros r Hr. destruct (H r Hr) as (v & E & Hv).
  assert (En : nth (rows * cols + r) m1 0%R = v) by (apply nth_error_nth; exact E).
  rewrite En. split; assumption.
Qed.

Lemma parts_phase mt M m1 (post : list R -> Prop) : length m1 = length m ->
  (forall r, r < rows -> bget m1 (rows * cols + r) = Some (M r)) ->
  (forall m2, length m2 = length m ->
    (forall r, r < rows -> bget m2 (rows * cols + rows + r) = Some (sumR (map (fun j => exp (elt rows D r j - M r)) (seq 0 cols)))) ->
    (forall r c, r < rows -> c < cols -> bget m2 (rows * c + r) = Some (exp (elt rows D r c - M r))) -> post m2) ->
  softmax_parts t pool mt (hidden A) (0 + numel (hidden A)) (0 + numel (hidden A) + m_rows (hidden A)) 0 m1 post.
Proof.
  intros Hl HM Hp. pose proof mem_len as Hm. destruct HR as (H1 & H2 & H3 & H4 & H5 & H6).
  apply (parts_ok (hidden A)) with (M := M); auto.
  - cbn. fold rows cols. lia.
  - intros m2 Hl2 [K1 K2]. apply Hp; [congruence|exact K1|exact K2].
Qed.

Lemma softmax_computes : softmax t pool A m (fun d' =>
  (forall r c, r < rows -> c < cols -> bget d' (rows * c + r) = Some (softmax_of rows cols D r c)) /\
  (forall a, rows * cols <= a -> bget d' a = bget D a)).
Proof.
  unfold softmax. cbv zeta. apply max_phase. intros m1 M Hl1 HM. apply parts_phase with (M := M); [exact Hl1|intros; apply HM; assumption|].
  intros m2 Hl2 HD HN. pose proof mem_len as Hm. destruct HR as (H1 & H2 & H3 & H4 & H5 & H6).
  fold rows cols D in H1, H2, H3.
  unfold numel. cbn [m_rows m_cols m_data hidden]. fold rows cols D.
  rewrite memcpy_closed by lia. cbn [obind].
  eapply computes_weaken; [apply (computes_single _ D (rows * cols) (rows * cols) 1 (fun i _ => bget m2 i)); [lia| |]|].
  - intros i j Hi Hj. split; [nia|]. destruct (bget_lt m2 i ltac:(lia)) as [v ->]. discriminate.
  - intros a v. rewrite in_mc. split.
    + intros (i & Hi & -> & E). exists i, 0. repeat split; try lia. exact E.
    + intros (i & j & Hi & Hj & -> & E). exists i. repeat split; try lia. exact E.
  - intros d1 Hd1 [HB1 HB2].
    eapply computes_weaken; [apply (divide_ok (hidden A)) with (v := fun r => sumR (map (fun j => exp (elt rows D r j - M r)) (seq 0 cols)))
      (x := fun r c => exp (elt rows D r c - M r))|].
    + exact H3.
    + exact H1.
    + exact H2.
    + cbn [m_rows m_cols hidden]. fold rows cols. lia.
    + exact HD.
    + cbn [m_rows m_cols hidden]. fold rows cols. intros r c Hr Hc. assert (rows * c + r < rows * cols) by nia.
      destruct (HB1 (rows * c + r) 0) as [E _]; [lia|lia|].
      rewrite Nat.mul_0_r, Nat.add_0_r in E. rewrite E. apply HN; assumption.
    + cbv beta. cbn [m_rows m_cols hidden]. fold rows cols. intros d' Hd' [K1 K2]. split.
      * intros r c Hr Hc. rewrite (K1 r c Hr Hc). f_equal. apply ex_softmax. lia.
      * intros a Ha. rewrite (K2 a Ha). apply HB2. intros i j Hi Hj. nia.
Qed.

(** no exponential is taken of a positive number *)
Lemma softmax_bounded mt :
  computes (mrwMax (t_max t) pool mt (hidden A) (rows * cols) m) m (fun m1 =>
    softmax_parts t pool mt (hidden A) (rows * cols) (rows * cols + rows) 0 m1 (fun m2 =>
      (forall r, r < rows -> exists v, bget m2 (rows * cols + rows + r) = Some v /\ (1 <= v <= INR cols)%R) /\
      (forall r c, r < rows -> c < cols -> exists v, bget m2 (rows * c + r) = Some v /\ (0 < v <= 1)%R))).
Proof.
  apply max_phase. intros m1 M Hl1 HM. apply parts_phase with (M := M); [exact Hl1|intros; apply HM; assumption|].
  intros m2 Hl2 HD HN.
  assert (Hle : forall r c, r < rows -> c < cols -> (exp (elt rows D r c - M r) <= 1)%R).
  { intros r c Hr Hc. destruct (HM r Hr) as [_ [_ H]]. specialize (H c Hc). rewrite <- exp_0.
    destruct (Rle_lt_or_eq_dec _ _ H) as [L|E].
    - left. apply exp_increasing. lra.
    - right. f_equal. lra. }
  split.
  - intros r Hr. rewrite (HD r Hr). eexists. split; [reflexivity|]. split.
    + destruct (HM r Hr) as [_ [(c & Hc & E) _]].
      apply Rle_trans with (sumR (map (fun i => if Nat.eqb i c then 1 else 0) (seq 0 cols)))%R.
      * rewrite sumR_single by exact Hc. lra.
      * apply sumR_le. intros j _. destruct (Nat.eqb_spec j c) as [->|]; [|left; apply exp_pos].
        rewrite E, Rminus_eq_0, exp_0. lra.
    + apply Rle_trans with (sumR (map (fun _ => 1) (seq 0 cols)))%R.
      * apply sumR_le. intros j Hj. apply in_seq in Hj. apply Hle; [exact Hr|lia].
      * rewrite sumR_const, seq_length. lra.
  - intros r c Hr Hc. rewrite (HN r c Hr Hc). eexists. split; [reflexivity|]. split; [apply exp_pos|apply Hle; assumption].
Qed.
End T.

(** ** Properties of the softmax function *)
Lemma softmax_pos rows cols d r c : 0 < cols -> (0 < softmax_of rows cols d r c)%R.
Proof.
  intros H. unfold softmax_of. apply Rdiv_lt_0_compat; [apply exp_pos|]. apply sumR_pos; [exact H|]. intros; apply exp_pos.
Qed.

Lemma softmax_sums rows cols d r : 0 < cols -> sumR (map (softmax_of rows cols d r) (seq 0 cols)) = 1%R.
Proof.
  intros H. unfold softmax_of, Rdiv. rewrite (sumR_scal (fun c => exp (elt rows d r c))).
  apply Rinv_r. apply Rgt_not_eq. apply sumR_pos; [exact H|]. intros; apply exp_pos.
Qed.

(** ** Loss *)
Lemma sumR_plus (f g : nat -> R) l : sumR (map (fun j => f j + g j)%R l) = (sumR (map f l) + sumR (map g l))%R.
Proof. induction l as [|x l IH]; unfold sumR in *; cbn; [ring|]. rewrite IH. ring. Qed.

Lemma sum_swap (f : nat -> nat -> R) l l' :
  sumR (map (fun i => sumR (map (f i) l')) l) = sumR (map (fun j => sumR (map (fun i => f i j) l)) l').
Proof.
  induction l as [|x l IH].
  - symmetry. rewrite (sumR_ext _ (fun _ => 0%R)) by reflexivity. rewrite (sumR_const 0). unfold sumR. cbn. ring.
  - cbn [map]. change (sumR (sumR (map (f x) l') :: map (fun i => sumR (map (f i) l')) l)) with (sumR (map (f x) l') + sumR (map (fun i => sumR (map (f i) l')) l))%R. rewrite IH, <- sumR_plus. apply sumR_ext. reflexivity.
Qed.

Lemma seq_shift_map a n : seq a n = map (fun r => a + r) (seq 0 n).
Proof.
  induction n as [|n IH]; [reflexivity|]. rewrite !seq_S, map_app, IH. reflexivity.
Qed.

Lemma sum_cm (g : nat -> R) rows cols :
  sumR (map g (seq 0 (rows * cols))) = sumR (map (fun r => sumR (map (fun c => g (rows * c + r)) (seq 0 cols))) (seq 0 rows)).
Proof.
  rewrite sum_swap. induction cols as [|n IH]; [rewrite Nat.mul_0_r; reflexivity|].
  rewrite Nat.mul_succ_r, seq_app, map_app, sumR_app, IH. rewrite sumR_snoc. f_equal.
  rewrite (seq_shift_map (0 + rows * n)), map_map. reflexivity.
Qed.

Lemma smx_loss_ok laz parts acts data_y rows cols Z : tiles parts (rows * cols) -> 0 < cols ->
  rows * cols <= length (m_data data_y) ->
  (forall r c, r < rows -> c < cols -> bget (m_data acts) (rows * c + r) = Some (softmax_of rows cols Z r c)) ->
  smx_loss laz parts acts data_y = Some (smx_batch_loss rows cols (m_data data_y) Z).
Proof.
  intros HT Hc HY HA. unfold smx_loss.
  destruct (Nat.eq_dec rows 0) as [E0|E0].
  { subst rows. destruct HT as [HP H0]. destruct parts as [|p parts].
    - reflexivity.
    - exfalso. cbn in HP. apply Permutation_sym, Permutation_nil in HP. specialize (H0 p (or_introl eq_refl)).
      unfold idxs in HP. destruct (r_cnt p); [lia|discriminate]. }
  assert (HAl : rows * cols <= length (m_data acts)).
  { pose proof (HA (rows - 1) (cols - 1) ltac:(lia) ltac:(lia)) as Hb. apply bget_some_lt in Hb. nia. }
  set (g := fun i => l_smx laz (nth i (m_data acts) 0%R) (nth i (m_data data_y) 0%R)).
  rewrite (omap_ok _ (fun er => sumR (map g (idxs er)))).
  - cbn [obind]. f_equal. rewrite reduce_sum_ok, sum_parts.
    rewrite (sumR_perm _ (map g (seq 0 (rows * cols)))) by (apply Permutation_map; destruct HT as [H _]; exact H).
    rewrite sum_cm. unfold smx_batch_loss. apply sumR_ext. intros r Hr. apply in_seq in Hr.
    apply sumR_ext. intros c Hc'. apply in_seq in Hc'. unfold g.
    assert (En : nth (rows * c + r) (m_data acts) 0%R = softmax_of rows cols Z r c).
    { apply nth_error_nth. apply HA; lia. }
    rewrite En. unfold l_smx, elt. destruct (Rlt_dec 0 (softmax_of rows cols Z r c)) as [L|L].
    + ring.
    + exfalso. apply L. apply softmax_pos. exact Hc.
  - intros p Hp. pose proof (tiles_within _ _ _ HT Hp). unfold range_sum. rewrite range_sum_ok by lia. f_equal. unfold g. ring.
Qed.

(** ** Gradient *)
Lemma elt_setn rows cols Z r c r' c' x : r < rows -> c < cols -> r' < rows -> rows * cols <= length Z ->
  elt rows (setn (rows * c + r) x Z) r' c' = if ((r' =? r) && (c' =? c))%bool then x else elt rows Z r' c'.
Proof.
  intros Hr Hc Hr' HZ. assert (rows * c + r < length Z) by nia. unfold elt.
  destruct (Nat.eq_dec (rows * c' + r') (rows * c + r)) as [E|E].
  - destruct (addr_inj rows r' c' r c) as [-> ->]; try lia. rewrite !Nat.eqb_refl. apply setn_nth_eq. exact H.
  - rewrite setn_nth_neq by assumption. destruct (Nat.eqb_spec r' r) as [->|]; [|reflexivity].
    destruct (Nat.eqb_spec c' c) as [->|]; [exfalso; apply E; reflexivity|reflexivity].
Qed.

Lemma row_loss rows cols Y Z r : 0 < cols ->
  sumR (map (fun c => - (elt rows Y r c * ln (softmax_of rows cols Z r c)))%R (seq 0 cols)) =
  (sumR (map (fun c => - (elt rows Y r c * elt rows Z r c)) (seq 0 cols)) +
   label_sum rows cols Y r * ln (sumR (map (fun j => exp (elt rows Z r j)) (seq 0 cols))))%R.
Proof.
  intros Hc. unfold label_sum. set (S := sumR (map (fun j => exp (elt rows Z r j)) (seq 0 cols))).
  assert (HS : (0 < S)%R) by (apply sumR_pos; [exact Hc|intros; apply exp_pos]).
  rewrite (sumR_ext _ (fun c => - (elt rows Y r c * elt rows Z r c) + elt rows Y r c * ln S)%R).
  - generalize (seq 0 cols). induction l as [|x l IH]; unfold sumR in *; cbn; [ring|]. rewrite IH. ring.
  - intros c _. unfold softmax_of. fold S. unfold Rdiv. rewrite ln_mult, ln_exp, ln_Rinv; [ring|exact HS|apply exp_pos|apply Rinv_0_lt_compat; exact HS].
Qed.

Lemma smx_gradient rows cols Y Z r c : r < rows -> c < cols -> rows * cols <= length Z ->
  is_derive (fun x : R => smx_batch_loss rows cols Y (setn (rows * c + r) x Z)) (elt rows Z r c)
    (label_sum rows cols Y r * softmax_of rows cols Z r c - elt rows Y r c)%R.
Proof.
  intros Hr Hc HZ. unfold smx_batch_loss.
  set (D := (label_sum rows cols Y r * softmax_of rows cols Z r c - elt rows Y r c)%R).
  replace D with (sumR (map (fun r' => if r' =? r then D else 0%R) (seq 0 rows))) by (apply sumR_single; exact Hr).
  apply d_sum_seq. intros r' Hr'. apply in_seq in Hr'.
  assert (Hother : forall x c', elt rows (setn (rows * c + r) x Z) r' c' = if ((r' =? r) && (c' =? c))%bool then x else elt rows Z r' c')
    by (intros; apply elt_setn with (cols := cols); auto; lia).
  destruct (Nat.eqb_spec r' r) as [->|Hn].
  - set (E0 := sumR (map (fun j => if j =? c then 0%R else exp (elt rows Z r j)) (seq 0 cols))).
    set (Y0 := sumR (map (fun j => if j =? c then 0%R else (- (elt rows Y r j * elt rows Z r j))%R) (seq 0 cols))).
    assert (Hsum : forall (f : nat -> R) v, sumR (map (fun j => if j =? c then v else f j) (seq 0 cols)) =
       (v + sumR (map (fun j => if j =? c then 0%R else f j) (seq 0 cols)))%R).
    { intros f v. transitivity (sumR (map (fun i => if Nat.eqb i c then v else 0%R) (seq 0 cols)) + sumR (map (fun j => if j =? c then 0%R else f j) (seq 0 cols)))%R.
      - rewrite <- sumR_plus. apply sumR_ext. intros j _. destruct (j =? c); ring.
      - rewrite sumR_single by exact Hc. reflexivity. }
    assert (HE : forall x, sumR (map (fun j => exp (elt rows (setn (rows * c + r) x Z) r j)) (seq 0 cols)) = (exp x + E0)%R).
    { intros x. unfold E0. rewrite <- (Hsum (fun j => exp (elt rows Z r j))). apply sumR_ext. intros j _. rewrite Hother. cbn [andb].
      destruct (j =? c); reflexivity. }
    assert (HE0 : (0 <= E0)%R).
    { unfold E0. generalize (seq 0 cols). induction l as [|y l IH]; unfold sumR in *; cbn; [lra|].
      destruct (y =? c); [lra|]. pose proof (exp_pos (elt rows Z r y)). lra. }
    assert (HZ' : sumR (map (fun j => exp (elt rows Z r j)) (seq 0 cols)) = (exp (elt rows Z r c) + E0)%R).
    { unfold E0. rewrite <- (Hsum (fun j => exp (elt rows Z r j))). apply sumR_ext. intros j _. destruct (Nat.eqb_spec j c) as [->|]; reflexivity. }
    apply d_ext with (f := fun x => (- (elt rows Y r c * x) + Y0 + label_sum rows cols Y r * ln (exp x + E0))%R).
    + intros x. rewrite row_loss by lia. rewrite HE. f_equal.
      unfold Y0. rewrite <- (Hsum (fun j => - (elt rows Y r j * elt rows Z r j))%R). apply sumR_ext. intros j _. rewrite Hother. cbn [andb]. destruct (Nat.eqb_spec j c) as [->|]; reflexivity.
    + pose proof (exp_pos (elt rows Z r c)). unfold D, softmax_of. rewrite HZ'. clearbody E0 Y0 D. clear - HE0 H.
      evar_last; [auto_derive; [lra|reflexivity]|]. field. lra.
  - apply d_ext with (f := fun _ => sumR (map (fun c' => - (elt rows Y r' c' * ln (softmax_of rows cols Z r' c')))%R (seq 0 cols))).
    + intros x. apply sumR_ext. intros c' _. cbn [andb] in Hother. unfold softmax_of. rewrite Hother.
      rewrite (sumR_ext (fun j => exp (elt rows (setn (rows * c + r) x Z) r' j)) (fun j => exp (elt rows Z r' j))); [reflexivity|].
      intros j _. rewrite Hother. reflexivity.
    + apply d_const.
Qed.

Lemma smx_dLdZ_ok parts data_y act_dLdZ rows cols Z : tiles parts (rows * cols) ->
  rows * cols <= length (m_data data_y) -> rows * cols <= length (m_data act_dLdZ) ->
  (forall r c, r < rows -> c < cols -> bget (m_data act_dLdZ) (rows * c + r) = Some (softmax_of rows cols Z r c)) ->
  computes (smx_dLdZ parts data_y act_dLdZ) (m_data act_dLdZ) (fun d' =>
    (forall r c, r < rows -> c < cols -> bget d' (rows * c + r) = Some (softmax_of rows cols Z r c - elt rows (m_data data_y) r c)%R) /\
    (forall a, rows * cols <= a -> bget d' a = bget (m_data act_dLdZ) a)).
Proof.
  intros HT HY HA Ha. unfold smx_dLdZ. eapply computes_weaken; [apply (ew_correct parts (rows * cols)); [exact HT|exact HA|]|].
  - intros i v Hi Hv. destruct (bget_lt (m_data data_y) i ltac:(lia)) as [y ->]. discriminate.
  - cbv beta. intros d' _ [H1 H2]. split; [|exact H2]. intros r c Hr Hc. assert (rows * c + r < rows * cols) by nia.
    destruct (H1 (rows * c + r) _ H (Ha r c Hr Hc)) as [-> _]. rewrite bget_nth by lia. reflexivity.
Qed.
