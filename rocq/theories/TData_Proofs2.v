(** Sequential extraction, views and the shuffle. *)
From Coq Require Import Permutation.
From Verif Require Import Base BaseLemmas Workers_Model Kern_Model Kern_Spec Kern_Proofs MKern_Model MKern_Spec
  MKern_Proofs Smx_Model Smx_Spec Smx_Proofs Smx_Proofs2 TData_Model TData_Spec TData_Proofs.

Lemma nth_error_seq a n i : i < n -> nth_error (seq a n) i = Some (a + i).
Proof.
  revert a i. induction n as [|n IH]; intros a i Hi; [lia|]. destruct i; simpl; [f_equal; lia|].
  rewrite IH by lia. f_equal. lia.
Qed.
Lemma nth_error_seq_inv a n i k : nth_error (seq a n) i = Some k -> i < n /\ k = a + i.
Proof.
  intros H. assert (i < n) by (rewrite <- (seq_length n a); apply nth_error_Some; congruence).
  rewrite nth_error_seq in H by assumption. split; congruence.
Qed.

Lemma skipn_seq a n k : skipn k (seq a n) = seq (a + k) (n - k).
Proof.
  revert a k. induction n as [|n IH]; intros a k; [destruct k; reflexivity|].
  destruct k; [simpl; rewrite Nat.add_0_r; reflexivity|]. simpl. rewrite IH. f_equal. lia.
Qed.
Lemma firstn_seq a n k : firstn k (seq a n) = seq a (Nat.min k n).
Proof.
  revert a k. induction n as [|n IH]; intros a k; [destruct k; reflexivity|].
  destruct k; [reflexivity|]. simpl. rewrite IH. reflexivity.
Qed.
Lemma slice_seq n b k : slice (seq 0 n) b k = seq (b * k) (Nat.min b (n - b * k)).
Proof. unfold slice. rewrite skipn_seq, firstn_seq. reflexivity. Qed.

Section Buf.
Context {C : Type} (one : C).
Implicit Types (b s : smx C).

Lemma extract_seq_buf sched parts ofs src b bias W cap :
  well_alloc src -> s_bir src = false -> s_bias src = bias -> sample_size src = W -> buf one false bias W cap b ->
  (forall n, 0 < n -> tiles (parts n) n) -> (forall trs, interleaving trs (sched trs)) ->
  ofs + batch_size b <= batch_size src ->
  exists b', run_kernel sched (extract_rows_seq parts ofs) src b = Some b' /\ buf one false bias W cap b' /\
    batch_size b' = batch_size b /\ holds one b' src (seq ofs (batch_size b)).
Proof.
  intros Hsa Hsb Hsi HsW HB Hp Hs Hi. pose proof Hsa as (S1 & S2 & ls & Ds & Ns).
  pose proof HB as (H1 & H2 & H3 & H4 & H5 & H6 & H7 & H8 & H9 & (l & D & N) & HO).
  pose proof (dims_shape b W (batch_size b) bias H2 H3 H4 eq_refl) as Sb. rewrite H1 in Sb.
  pose proof (dims_shape src W (batch_size src) bias Hsi H3 HsW eq_refl) as Ss. rewrite Hsb in Ss.
  set (ms := mkM (s_rows src) (s_cols src) (s_bias src) (s_bir src) ls).
  set (md := mkM (s_rows b) (s_cols b) (s_bias b) (s_bir b) l).
  assert (Hc : cols_nb md = W).
  { unfold cols_nb, has_bias_col, md. cbn [m_cols m_bias m_bir]. rewrite H1, H2. destruct Sb as [_ ->].
    destruct bias; cbn [andb negb Nat.b2n]; lia. }
  assert (Hr : s_rows_nb b = s_rows b).
  { unfold s_rows_nb, s_bias_row. rewrite H1, andb_false_r. cbn [Nat.b2n]. lia. }
  destruct (run_kernel_computes sched (extract_rows_seq parts ofs) src b ls l
      (holds_block (s_rows b) (s_rows_nb b) (s_cols_nb b) (fun r c => mget ms (ofs + r) c) l) Ds D Hs)
      as (l' & E & L & P).
  { unfold extract_rows_seq. fold ms md. rewrite Hr.
    apply (extract_rows_seq_correct (parts (cols_nb md)) ms ofs md).
    - apply alloc_smx; assumption.
    - apply alloc_smx; [|exact D]. exact (buf_alloc _ _ _ _ _ _ HB).
    - rewrite Hc. unfold cols_nb, has_bias_col, ms. cbn [m_cols m_bias m_bir]. rewrite Hsb, Hsi.
      destruct Ss as [_ ->]. destruct bias; cbn [andb negb Nat.b2n]; lia.
    - change (m_rows md) with (s_rows b). change (m_rows ms) with (s_rows src). lia.
    - apply Hp. lia. }
  destruct (block_buf one false bias W cap b l l' _ HB D L P) as [HB' HC].
  rewrite E. eexists. split; [reflexivity|]. split; [exact HB'|]. split; [reflexivity|].
  split; [rewrite seq_length; reflexivity|]. split; [rewrite HsW; exact H4|].
  split; [rewrite Hsb; exact H1|]. split; [rewrite Hsi; exact H2|].
  split; [apply (buf_alloc _ _ _ _ _ _ HB')|]. split; [apply HB'|].
  intros i k j Hk Hj. apply nth_error_seq_inv in Hk. destruct Hk as [Hi1 ->].
  unfold scell. cbn [with_mem s_bir]. rewrite H1, Hsb. rewrite HsW in Hj.
  destruct (HC i j) as [Q1 Q2].
  - rewrite Hr. lia.
  - unfold s_cols_nb, s_bias_col. rewrite H1, H2. destruct bias; cbn [andb negb Nat.b2n]; lia.
  - rewrite Q1. split; [exact (cell_mget src ls _ _ Ds)|exact Q2].
Qed.

Lemma bget_skipn {D} (l : list D) n i : bget (skipn n l) i = bget l (n + i).
Proof.
  revert l. induction n as [|n IH]; intros l; [reflexivity|]. destruct l; [destruct i; reflexivity|].
  simpl. apply IH.
Qed.

Lemma view_holds m c n bias :
  well_alloc m -> s_bir m = true -> s_bias m = bias -> 0 < sample_size m -> biases_one one m ->
  c + n <= s_cols m -> 0 < n ->
  exists v, view m c (sample_size m + Nat.b2n bias) n bias = Some v /\ holds one v m (seq c n).
Proof.
  intros Hw Hbir Hb HW HO Hn Hp. pose proof Hw as (W1 & W2 & l & D & N).
  unfold view. rewrite D. cbn [obind]. eexists. split; [reflexivity|].
  pose proof (dims_shape m (sample_size m) (batch_size m) bias Hb HW eq_refl eq_refl) as Ss. rewrite Hbir in Ss.
  destruct Ss as [Sr Sc].
  assert (Hlen : s_rows m * (c + n) <= length l).
  { unfold s_numel in N. pose proof (Nat.mul_le_mono_l (c + n) (s_cols m) (s_rows m)). lia. }
  rewrite <- Sr. unfold use_external.
  assert (HC : forall r cc, r < s_rows m -> cc < n ->
    cell (mkS (s_rows m) n bias true false true (Some (skipn (s_rows m * c) l))) r cc = cell m r (c + cc)).
  { intros r cc Hr Hcc. unfold cell. cbn [s_data obind s_rows]. rewrite D. cbn [obind]. rewrite bget_skipn. f_equal. nia. }
  split; [unfold batch_size; cbn [s_bir s_cols]; rewrite seq_length; reflexivity|].
  split. { unfold sample_size, s_rows_nb, s_bias_row. cbn [s_bir s_rows s_bias]. rewrite Hbir, Hb. reflexivity. }
  split; [exact (eq_sym Hbir)|]. split; [exact (eq_sym Hb)|].
  split. { split; [exact W1|]. split; [exact Hp|]. eexists. split; [reflexivity|]. unfold s_numel. cbn [s_rows s_cols].
    rewrite skipn_length. nia. }
  split. { intros Q. cbn [s_bias] in Q. subst bias. specialize (HO Q). rewrite Hbir in HO. cbn [s_bir].
    destruct HO as [HO1 HO2]. split; [exact W1|]. cbn [s_cols]. intros cc Hcc. rewrite HC; [|cbn [s_rows]; lia|exact Hcc].
    apply HO2. lia. }
  intros i k j Hk Hj. apply nth_error_seq_inv in Hk. destruct Hk as [Hi ->].
  unfold scell. cbn [s_bir]. rewrite Hbir.
  assert (j < s_rows m).
  { unfold sample_size, s_rows_nb in Hj. rewrite Hbir in Hj. lia. }
  rewrite HC by assumption. split; [reflexivity|].
  unfold cell. rewrite D. cbn [obind]. destruct (bget_lt l (j + s_rows m * (c + i))) as [v Ev]; [nia|congruence].
Qed.

Lemma holds_whole m : well_alloc m -> 0 < sample_size m -> biases_one one m -> holds one m m (seq 0 (batch_size m)).
Proof.
  intros Hw HW HO. pose proof Hw as (W1 & W2 & l & D & N).
  split; [rewrite seq_length; reflexivity|]. do 3 (split; [reflexivity|]). split; [exact Hw|]. split; [exact HO|].
  intros i k j Hk Hj. apply nth_error_seq_inv in Hk. destruct Hk as [Hi ->]. split; [reflexivity|].
  pose proof (dims_shape m (sample_size m) (batch_size m) (s_bias m) eq_refl HW eq_refl eq_refl) as Ss.
  unfold scell. cbn [Nat.add]. unfold s_numel in N.
  destruct (s_bir m); destruct Ss as [Sr Sc]; unfold cell; rewrite D; cbn [obind].
  - destruct (bget_lt l (j + s_rows m * i)) as [v Ev]; [|congruence].
    apply Nat.lt_le_trans with (s_rows m * s_cols m); [apply cell_idx; lia|exact N].
  - destruct (bget_lt l (i + s_rows m * j)) as [v Ev]; [|congruence].
    apply Nat.lt_le_trans with (s_rows m * s_cols m); [apply cell_idx; lia|exact N].
Qed.
End Buf.

(** ** The shuffle *)
Lemma bset_perm2 (l : list nat) i j a b l1 l2 :
  bget l i = Some a -> bget l j = Some b -> bset l i b = Some l1 -> bset l1 j a = Some l2 -> Permutation l2 l.
Proof.
  intros Ha Hb H1 H2.
  destruct (bset_some _ _ _ _ H1) as (Q1 & L1 & G1). destruct (bset_some _ _ _ _ H2) as (Q2 & L2 & G2).
  apply Permutation_sym, Permutation_nth_error. split; [lia|].
  exists (fun k => if k =? i then j else if k =? j then i else k). split.
  - intros x y. destruct (Nat.eqb_spec x i), (Nat.eqb_spec y i), (Nat.eqb_spec x j), (Nat.eqb_spec y j); lia.
  - intros k. change (bget l2 k = bget l (if k =? i then j else if k =? j then i else k)).
    rewrite G2, G1. destruct (Nat.eqb_spec k j), (Nat.eqb_spec k i); subst; congruence.
Qed.

Lemma swap_perm (l : list nat) i j : i < length l -> j < length l -> exists l', swap l i j = Some l' /\ Permutation l' l.
Proof.
  intros Hi Hj. unfold swap. destruct (bget_lt l i Hi) as [a Ea]. destruct (bget_lt l j Hj) as [b Eb].
  rewrite Ea, Eb. cbn [obind]. destruct (bset_lt l i b Hi) as [l1 E1]. rewrite E1. cbn [obind].
  destruct (bset_some _ _ _ _ E1) as (_ & L1 & _). destruct (bset_lt l1 j a) as [l2 E2]; [lia|].
  exists l2. split; [exact E2|]. exact (bset_perm2 l i j a b l1 l2 Ea Eb E1 E2).
Qed.

Lemma shuffle_perm rv l : rng_ok rv -> exists l', random_shuffle rv l = Some l' /\ Permutation l' l.
Proof.
  intros Hr. unfold random_shuffle.
  assert (H : forall n lo l0, lo + n <= length l0 -> exists l', for_loop lo n (fun i l => swap l i (rv (i + 1))) l0 = Some l' /\ Permutation l' l0).
  { induction n as [|n IH]; intros lo l0 Hl; [exists l0; split; [reflexivity|apply Permutation_refl]|].
    cbn [for_loop]. specialize (Hr (lo + 1)). destruct (swap_perm l0 lo (rv (lo + 1))) as (l1 & E1 & P1); [lia|lia|].
    rewrite E1. cbn [obind]. pose proof (Permutation_length P1) as HL.
    destruct (IH (S lo) l1) as (l' & E & P); [lia|]. exists l'. split; [exact E|].
    eapply Permutation_trans; eassumption. }
  destruct l as [|a l]; [exists []; split; [reflexivity|apply Permutation_refl]|].
  apply H. cbn [length]. lia.
Qed.
