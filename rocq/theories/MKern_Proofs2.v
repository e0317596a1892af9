From Coq Require Import Permutation.
From Verif Require Import Base BaseLemmas Workers_Model Workers_Spec
  Kern_Model Kern_Spec Kern_Proofs MKern_Model MKern_Spec MKern_Proofs.

Section P.
Context {A : Type}.
Implicit Types src dest : mtx A.

(** ** C16, filling *)

Section Mask.
Context (nz : A -> bool) (zero : A).

Lemma place_rank mask i : i <= length mask -> place nz mask i = rank nz mask i.
Proof.
  intros H. unfold place, selected, rank. rewrite firstn_length_le by exact H.
  f_equal. apply filter_ext_in. intros k Hk. apply in_seq in Hk. unfold nzb.
  replace (nth_error (firstn i mask) k) with (nth_error mask k); [reflexivity|].
  rewrite <- (firstn_skipn i mask) at 1. apply nth_error_app1. rewrite firstn_length_le; lia.
Qed.

Lemma fill_by_mask_correct parts src mask dest :
  alloc src -> alloc dest -> cols_nb dest = cols_nb src ->
  length mask = m_rows dest -> m_rows src = length (selected nz mask) ->
  tiles parts (cols_nb dest) ->
  computes (mFillRowsByMask nz zero parts src mask dest) (m_data dest)
    (holds_block (m_rows dest) (m_rows dest) (cols_nb dest) (fill_f nz zero mask src) (m_data dest)).
Proof.
  intros Hs Hd Hc Hm Hsel HT. unfold mFillRowsByMask.
  pose proof (cols_nb_le src) as HcS. pose proof (cols_nb_le dest) as HcD.
  rewrite (selected_length nz mask) in Hsel.
  destruct (Nat.eqb_spec (m_rows dest) (m_rows src)) as [He|Hne].
  - destruct (copy_skip_correct src dest Hs Hd He Hc) as (trs & E & HR & H).
    exists trs. split; [exact E|]. split; [exact HR|]. intros ws Hws.
    destruct (H ws Hws) as (d' & E' & HL & Hin & Hout). exists d'. split; [exact E'|].
    split; [exact HL|]. split; [|exact Hout].
    intros i j Hi Hj. destruct (Hin i j Hi Hj) as [H1 H2].
    assert (fill_f nz zero mask src i j = mget src i j) as ->; [|auto].
    assert (Hall : forall n, n <= length mask -> rank nz mask n = n).
    { intros n Hn.
      assert (rank nz mask n <= n) by (unfold rank; rewrite <- (seq_length n 0) at 2; apply filter_length_le).
      assert (rank nz mask (length mask) <= rank nz mask n + (length mask - n)).
      { unfold rank. replace (length mask) with (n + (length mask - n)) at 1 by lia.
        rewrite seq_app, filter_app, app_length.
        pose proof (filter_length_le (nzb nz mask) (seq (0 + n) (length mask - n))) as Hf.
        rewrite seq_length in Hf. lia. }
      lia. }
    assert (Hnz : nzb nz mask i = true).
    { pose proof (Hall (i + 1) ltac:(lia)) as H3. rewrite rank_S, (Hall i) in H3 by lia.
      destruct (nzb nz mask i); [reflexivity|simpl in H3; lia]. }
    unfold fill_f. unfold nzb in Hnz. destruct (nth_error mask i) as [mm|]; [|discriminate].
    cbn [obind]. rewrite Hnz, place_rank, (Hall i) by lia. reflexivity.
  - apply (computes_block _ _ (cols_nb dest) _ _ _ _ _ (fun i j => j)); auto.
    + intros i j Hi Hj. split; [unfold alloc, numel in Hd; nia|]. split; [lia|].
      unfold fill_f. destruct (bget_lt mask i) as [mm Hmm]; [lia|].
      unfold bget in Hmm. rewrite Hmm. cbn [obind]. destruct (nz mm) eqn:En; [|discriminate].
      apply mget_some; auto; [|lia]. rewrite place_rank by lia. rewrite Hsel.
      apply rank_strict; [lia|]. unfold nzb. rewrite Hmm. exact En.
    + intros p _ Hp1 Hp2. unfold imFillRowsByMask.
      pose (st := fun i => (m_rows src * (r_ofs p + i), m_rows dest * (r_ofs p + i))).
      rewrite (wfor_closed' 0 (r_cnt p) _ _ st
        (fun c => flat_map (fun i => match fill_f nz zero mask src i (r_ofs p + c) with
            | Some v => [(m_rows dest * (r_ofs p + c) + i, v)] | None => [] end)
            (seq 0 (m_rows dest)))).
      * cbn [obind]. eexists. split; [reflexivity|]. intros a v. rewrite in_flat_map. split.
        -- intros (c & Hcs & Hin). apply in_seq in Hcs. apply in_flat_map in Hin.
           destruct Hin as (i & Hi & Hin). apply in_seq in Hi.
           destruct (fill_f nz zero mask src i (r_ofs p + c)) as [v'|] eqn:Ev; [|destruct Hin].
           destruct Hin as [Heq|[]]. injection Heq as <- <-.
           exists i, (r_ofs p + c). rewrite Ev. repeat split; lia.
        -- intros (i & c & Hr & Hcc & -> & Hv & Ho).
           exists (c - r_ofs p). split; [apply in_seq; lia|]. apply in_flat_map.
           exists i. split; [apply in_seq; lia|].
           replace (r_ofs p + (c - r_ofs p)) with c by lia. rewrite Hv.
           left. f_equal. lia.
      * unfold st, col_ofs, ldim. rewrite Nat.add_0_r. reflexivity.
      * intros c Hcr. unfold st.
        rewrite (wfor_closed' 0 (m_rows dest) _ _
          (fun i => m_rows src * (r_ofs p + c) + rank nz mask i)
          (fun i => match fill_f nz zero mask src i (r_ofs p + c) with
            | Some v => [(m_rows dest * (r_ofs p + c) + i, v)] | None => [] end)).
        -- cbn [obind]. rewrite Nat.add_0_l.
           assert (rank nz mask (m_rows dest) = m_rows src) as -> by (rewrite Hsel, Hm; reflexivity).
           f_equal; f_equal; f_equal; ring.
        -- unfold rank. simpl. lia.
        -- intros i Hi. unfold fill_f.
           destruct (bget_lt mask i) as [mm Hmm]; [lia|]. rewrite Hmm.
           unfold bget in Hmm. rewrite Hmm. cbn [obind]. rewrite rank_S. unfold nzb. rewrite Hmm.
           destruct (nz mm) eqn:En.
           ++ rewrite place_rank by lia. unfold mget, ldim.
              assert (rank nz mask i < m_rows src).
              { rewrite Hsel. apply rank_strict; [lia|]. unfold nzb. rewrite Hmm. exact En. }
              replace (rank nz mask i + m_rows src * (r_ofs p + c))
                with (m_rows src * (r_ofs p + c) + rank nz mask i) by lia.
              destruct (bget_lt (m_data src) (m_rows src * (r_ofs p + c) + rank nz mask i)) as [v Hv].
              { unfold alloc, numel in Hs. nia. }
              rewrite Hv. cbn [obind]. simpl Nat.b2n. rewrite Nat.add_assoc. reflexivity.
           ++ simpl Nat.b2n. rewrite Nat.add_0_r. reflexivity.
Qed.

(** Filling what was extracted reproduces the selected rows and zeroes others. *)
Lemma computes_weaken (call : option (list (list (wr A)))) d (P Q : list A -> Prop) :
  computes call d P -> (forall d', length d' = length d -> P d' -> Q d') -> computes call d Q.
Proof.
  intros (trs & E & HR & H) HPQ. exists trs. split; [exact E|]. split; [exact HR|].
  intros ws Hw. destruct (H ws Hw) as (d' & E' & HL & HP). eauto.
Qed.

Lemma holds_block_ext ld r c (f g : nat -> nat -> option A) d d' :
  (forall i j, i < r -> j < c -> f i j = g i j) -> holds_block ld r c f d d' -> holds_block ld r c g d d'.
Proof.
  intros H [H1 H2]. split; [|exact H2]. intros i j Hi Hj. rewrite <- H by assumption. auto.
Qed.

Lemma mask_roundtrip partsE partsF src mask tmp dest :
  alloc src -> alloc tmp -> alloc dest ->
  cols_nb tmp = cols_nb src -> cols_nb dest = cols_nb src -> m_rows dest = m_rows src ->
  length mask = m_rows src -> m_rows tmp = length (selected nz mask) ->
  tiles partsE (cols_nb src) -> tiles partsF (cols_nb src) ->
  computes (mExtractRowsByMask nz partsE src mask tmp) (m_data tmp) (fun t =>
    computes (mFillRowsByMask nz zero partsF (with_data tmp t) mask dest) (m_data dest)
      (holds_block (m_rows dest) (m_rows dest) (cols_nb dest)
        (fun r c => do m <- nth_error mask r; if nz m then mget src r c else Some zero) (m_data dest))).
Proof.
  intros Hs Ht Hd Hct Hcd Hrd Hm Hsel HTe HTf.
  pose proof (cols_nb_le src) as HcS. pose proof (cols_nb_le tmp) as HcT.
  eapply computes_weaken; [apply extract_by_mask_correct; auto|].
  intros t HL [Hin _]. cbv beta.
  eapply computes_weaken; [apply fill_by_mask_correct|].
  - unfold alloc, numel in *. simpl. lia.
  - exact Hd.
  - rewrite Hcd, <- Hct. reflexivity.
  - congruence.
  - exact Hsel.
  - rewrite Hcd. exact HTf.
  - intros d' _. apply holds_block_ext. intros i j Hi Hj. unfold fill_f.
    destruct (nth_error mask i) as [mm|] eqn:Emm; [|reflexivity]. cbn [obind].
    destruct (nz mm) eqn:En; [|reflexivity].
    assert (Hnz : nzb nz mask i = true) by (unfold nzb; rewrite Emm; exact En).
    rewrite place_rank by lia.
    assert (Hrk : rank nz mask i < m_rows tmp).
    { rewrite Hsel, (selected_length nz). apply rank_strict; [lia|exact Hnz]. }
    destruct (Hin (rank nz mask i) j Hrk) as [H1 _]; [lia|].
    unfold mget at 1, ldim. simpl. rewrite H1.
    rewrite (selected_rank nz mask i) by (auto; lia). reflexivity.
Qed.

(** Extracting what was filled gives the source back. *)
Lemma mask_roundtrip2 partsE partsF src mask tmp dest :
  alloc src -> alloc tmp -> alloc dest ->
  cols_nb tmp = cols_nb src -> cols_nb dest = cols_nb src -> m_rows dest = m_rows src ->
  length mask = m_rows tmp -> m_rows src = length (selected nz mask) ->
  tiles partsE (cols_nb src) -> tiles partsF (cols_nb src) ->
  computes (mFillRowsByMask nz zero partsF src mask tmp) (m_data tmp) (fun t =>
    computes (mExtractRowsByMask nz partsE (with_data tmp t) mask dest) (m_data dest)
      (holds_block (m_rows dest) (m_rows dest) (cols_nb dest) (fun r c => mget src r c) (m_data dest))).
Proof.
  intros Hs Ht Hd Hct Hcd Hrd Hm Hsel HTe HTf.
  eapply computes_weaken; [apply fill_by_mask_correct; auto; rewrite Hct; exact HTf|].
  intros t HL [Hin _]. cbv beta.
  assert (Hct' : cols_nb (with_data tmp t) = cols_nb src) by (rewrite <- Hct; reflexivity).
  eapply computes_weaken; [apply extract_by_mask_correct|].
  - unfold alloc, numel in *. simpl. lia.
  - exact Hd.
  - congruence.
  - exact Hm.
  - congruence.
  - rewrite Hct'. exact HTe.
  - intros d' _. apply holds_block_ext. intros r j Hr Hj.
    destruct (nth_error (selected nz mask) r) as [i|] eqn:E.
    2: { apply nth_error_None in E. lia. }
    destruct (selected_inv nz _ _ _ E) as (Hi & Hnz & Hrk). cbn [obind].
    destruct (Hin i j) as [H1 _]; [lia|lia|].
    unfold mget at 1, ldim. simpl. rewrite H1. unfold fill_f. unfold nzb in Hnz.
    destruct (nth_error mask i) as [mm|]; [|discriminate]. cbn [obind]. rewrite Hnz.
    rewrite place_rank, Hrk by lia. reflexivity.
Qed.
End Mask.

(** ** C17 *)

Lemma rows_ib_bias (m : mtx A) ib : 0 < m_rows m ->
  rows_ib ib m + Nat.b2n (ib && has_bias_row m) = m_rows m.
Proof. unfold rows_ib. destruct (ib && has_bias_row m); simpl; lia. Qed.

Lemma cols_ib_le (m : mtx A) ib : cols_ib ib m <= m_cols m.
Proof. unfold cols_ib. lia. Qed.

Lemma transpose_read_correct src dest ib :
  alloc src -> alloc dest -> 0 < m_rows src -> 0 < m_rows dest ->
  rows_ib ib src = cols_ib ib dest -> cols_ib ib src = rows_ib ib dest ->
  computes (mTranspose_seq_read src dest ib) (m_data dest) (transposed src dest ib).
Proof.
  intros Hs Hd Hrs Hrd HR HC. unfold mTranspose_seq_read, transposed.
  pose proof (rows_ib_bias src ib Hrs) as HbS. pose proof (rows_ib_bias dest ib Hrd) as HbD.
  pose proof (cols_ib_le src ib) as HcS. pose proof (cols_ib_le dest ib) as HcD.
  rewrite (ptr_loop_closed' (rows_ib ib dest) 0 _ 1 _ _ (fun i => i * m_rows src)
    (fun i => flat_map (fun j => match bget (m_data src) (i * m_rows src + j) with
       | Some v => [(i + j * m_rows dest, v)] | None => [] end) (seq 0 (rows_ib ib src)))).
  - cbn [obind]. apply computes_single.
    + lia.
    + intros i j Hi Hj. split; [unfold alloc, numel in Hd; nia|]. apply mget_some; auto; lia.
    + intros a v. rewrite in_flat_map. split.
      * intros (i & Hi & Hin). apply in_seq in Hi. apply in_flat_map in Hin.
        destruct Hin as (j & Hj & Hin). apply in_seq in Hj.
        destruct (bget (m_data src) (i * m_rows src + j)) as [v'|] eqn:E; [|destruct Hin].
        destruct Hin as [Heq|[]]. injection Heq as <- <-.
        exists i, j. unfold mget, ldim. replace (j + m_rows src * i) with (i * m_rows src + j) by lia.
        repeat split; try lia. exact E.
      * intros (i & j & Hi & Hj & -> & Hv). exists i. split; [apply in_seq; lia|].
        apply in_flat_map. exists j. split; [apply in_seq; lia|]. unfold mget, ldim in Hv.
        replace (i * m_rows src + j) with (j + m_rows src * i) by lia. rewrite Hv.
        left. f_equal. lia.
  - lia.
  - lia.
  - lia.
  - intros i Hi. rewrite Nat.add_0_l, Nat.mul_1_r.
    rewrite (ptr_loop_closed' (rows_ib ib src) (i * m_rows src) _ 1 _ _ (fun j => i + j * m_rows dest)
      (fun j => match bget (m_data src) (i * m_rows src + j) with
         | Some v => [(i + j * m_rows dest, v)] | None => [] end)).
    + cbn [obind]. f_equal. f_equal. lia.
    + lia.
    + lia.
    + lia.
    + intros j Hj. rewrite Nat.mul_1_r.
      destruct (bget_lt (m_data src) (i * m_rows src + j)) as [v Hv]; [unfold alloc, numel in Hs; nia|].
      rewrite Hv. cbn [obind]. unfold ldim. f_equal. f_equal. lia.
Qed.

Lemma transpose_write_correct src dest ib :
  alloc src -> alloc dest -> 0 < m_rows src -> 0 < m_rows dest ->
  rows_ib ib src = cols_ib ib dest -> cols_ib ib src = rows_ib ib dest ->
  computes (mTranspose_seq_write src dest ib) (m_data dest) (transposed src dest ib).
Proof.
  intros Hs Hd Hrs Hrd HR HC. unfold mTranspose_seq_write, transposed.
  pose proof (rows_ib_bias src ib Hrs) as HbS. pose proof (rows_ib_bias dest ib Hrd) as HbD.
  pose proof (cols_ib_le src ib) as HcS. pose proof (cols_ib_le dest ib) as HcD.
  rewrite (ptr_loop_closed' (rows_ib ib src) 0 _ 1 _ _ (fun i => i * m_rows dest)
    (fun i => flat_map (fun j => match bget (m_data src) (i + j * m_rows src) with
       | Some v => [(i * m_rows dest + j, v)] | None => [] end) (seq 0 (rows_ib ib dest)))).
  - cbn [obind]. apply computes_single.
    + lia.
    + intros i j Hi Hj. split; [unfold alloc, numel in Hd; nia|]. apply mget_some; auto; lia.
    + intros a v. rewrite in_flat_map. split.
      * intros (i & Hi & Hin). apply in_seq in Hi. apply in_flat_map in Hin.
        destruct Hin as (j & Hj & Hin). apply in_seq in Hj.
        destruct (bget (m_data src) (i + j * m_rows src)) as [v'|] eqn:E; [|destruct Hin].
        destruct Hin as [Heq|[]]. injection Heq as <- <-.
        exists j, i. unfold mget, ldim. replace (i + m_rows src * j) with (i + j * m_rows src) by lia.
        repeat split; try lia. exact E.
      * intros (j & i & Hj & Hi & -> & Hv). exists i. split; [apply in_seq; lia|].
        apply in_flat_map. exists j. split; [apply in_seq; lia|]. unfold mget, ldim in Hv.
        replace (i + j * m_rows src) with (i + m_rows src * j) by lia. rewrite Hv.
        left. f_equal. lia.
  - lia.
  - lia.
  - lia.
  - intros i Hi. rewrite Nat.add_0_l, Nat.mul_1_r.
    rewrite (ptr_loop_closed' (rows_ib ib dest) (i * m_rows dest) _ 1 _ _ (fun j => i + j * m_rows src)
      (fun j => match bget (m_data src) (i + j * m_rows src) with
         | Some v => [(i * m_rows dest + j, v)] | None => [] end)).
    + cbn [obind]. f_equal. f_equal. lia.
    + lia.
    + lia.
    + lia.
    + intros j Hj. rewrite Nat.mul_1_r.
      destruct (bget_lt (m_data src) (i + j * m_rows src)) as [v Hv]; [unfold alloc, numel in Hs; nia|].
      rewrite Hv. cbn [obind]. unfold ldim. f_equal. f_equal. lia.
Qed.

Lemma transpose_correct thr src dest ib :
  alloc src -> alloc dest -> 0 < m_rows src -> 0 < m_rows dest ->
  rows_ib ib src = cols_ib ib dest -> cols_ib ib src = rows_ib ib dest ->
  computes (mTranspose thr src dest ib) (m_data dest) (transposed src dest ib).
Proof.
  intros. unfold mTranspose. destruct (xorb _ _).
  - apply transpose_write_correct; assumption.
  - apply transpose_read_correct; assumption.
Qed.

Lemma transpose_ignore_bias_correct thr src dest :
  alloc src -> alloc dest -> 0 < m_rows src -> 0 < m_rows dest ->
  rows_nb src = cols_nb dest -> cols_nb src = rows_nb dest ->
  computes (mTranspose_ignore_bias thr src dest) (m_data dest) (transposed src dest true).
Proof.
  intros. unfold mTranspose_ignore_bias. destruct (xorb _ _).
  - apply transpose_write_correct; assumption.
  - apply transpose_read_correct; assumption.
Qed.

Lemma transpose_twice thr1 thr2 src tmp dest ib :
  alloc src -> alloc tmp -> alloc dest -> 0 < m_rows src -> 0 < m_rows tmp -> 0 < m_rows dest ->
  rows_ib ib src = cols_ib ib tmp -> cols_ib ib src = rows_ib ib tmp ->
  rows_ib ib dest = rows_ib ib src -> cols_ib ib dest = cols_ib ib src ->
  computes (mTranspose thr1 src tmp ib) (m_data tmp) (fun t =>
    computes (mTranspose thr2 (with_data tmp t) dest ib) (m_data dest)
      (holds_block (m_rows dest) (rows_ib ib dest) (cols_ib ib dest) (fun i j => mget src i j) (m_data dest))).
Proof.
  intros Hs Ht Hd Hrs Hrt Hrd H1 H2 H3 H4.
  eapply computes_weaken; [apply transpose_correct; assumption|].
  intros t HL [Hin _]. cbv beta.
  eapply computes_weaken; [apply transpose_correct|].
  - unfold alloc, numel in *. simpl. lia.
  - exact Hd.
  - exact Hrt.
  - exact Hrd.
  - change (rows_ib ib (with_data tmp t)) with (rows_ib ib tmp). congruence.
  - change (cols_ib ib (with_data tmp t)) with (cols_ib ib tmp). congruence.
  - intros d' _. apply holds_block_ext. intros i j Hi Hj.
    destruct (Hin j i) as [H5 _]; [lia|lia|]. unfold mget at 1, ldim. simpl. exact H5.
Qed.
End P.
