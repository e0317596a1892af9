From Coq Require Import Permutation.
From Verif Require Import Base BaseLemmas Workers_Model Workers_Spec
  Kern_Model Kern_Spec Kern_Proofs MKern_Model MKern_Spec.

Section P.
Context {A : Type}.
Implicit Types src dest : mtx A.

Lemma mget_some (m : mtx A) r c : alloc m -> r < m_rows m -> c < m_cols m -> mget m r c <> None.
Proof.
  unfold alloc, numel, mget, ldim. intros Ha Hr Hc H.
  destruct (bget_lt (m_data m) (r + m_rows m * c)) as [v Hv]; [nia|]. congruence.
Qed.

Lemma cols_nb_le (m : mtx A) : cols_nb m <= m_cols m.
Proof. unfold cols_nb. lia. Qed.

Lemma rows_nb_le (m : mtx A) : rows_nb m <= m_rows m.
Proof. unfold rows_nb. lia. Qed.

Lemma filter_length_le {X} (f : X -> bool) l : length (filter f l) <= length l.
Proof. induction l as [|x l IH]; simpl; [lia|]. destruct (f x); simpl; lia. Qed.

(** ** C15 *)

Lemma extract_rows_correct parts src ridx dest :
  alloc src -> alloc dest -> cols_nb dest = cols_nb src ->
  idx_ok ridx (m_rows dest) (m_rows src) ->
  tiles parts (m_rows dest) ->
  computes (mExtractRows parts src ridx dest) (m_data dest)
    (holds_block (m_rows dest) (m_rows dest) (cols_nb dest)
       (fun r c => do i <- bget ridx r; mget src i c) (m_data dest)).
Proof.
  intros Hs Hd Hc Hi HT. unfold mExtractRows.
  pose proof (cols_nb_le src) as HcS. pose proof (cols_nb_le dest) as HcD.
  apply (computes_block _ _ (m_rows dest) _ _ _ _ _ (fun i j => i)); auto.
  - intros i j H1 H2. destruct (Hi i H1) as (k & Hk & Hkb).
    split; [unfold alloc, numel in Hd; nia|]. split; [exact H1|].
    unfold bget. rewrite Hk. cbn [obind]. apply mget_some; auto. lia.
  - intros p _ Hp1 Hp2. unfold imExtractRows.
    rewrite (ptr_loop_closed (cols_nb dest) (r_ofs p) _ (m_rows dest) _ (fun i => i * m_rows src)
      (fun i => flat_map (fun j => match bget ridx (r_ofs p + j) with
          | Some idx => match bget (m_data src) (i * m_rows src + idx) with
              | Some v => [(r_ofs p + i * m_rows dest + j, v)] | None => [] end
          | None => [] end) (seq 0 (r_cnt p)))).
    + cbn [obind]. eexists. split; [reflexivity|]. intros a v. rewrite in_flat_map. split.
      * intros (c & Hcs & Hin). apply in_seq in Hcs. apply in_flat_map in Hin.
        destruct Hin as (j & Hj & Hin). apply in_seq in Hj.
        destruct (bget ridx (r_ofs p + j)) as [idx|] eqn:E1; [|destruct Hin].
        destruct (bget (m_data src) (c * m_rows src + idx)) as [v'|] eqn:E2; [|destruct Hin].
        destruct Hin as [Heq|[]]. injection Heq as <- <-.
        exists (r_ofs p + j), c. split; [lia|]. split; [lia|]. split; [nia|].
        rewrite E1. cbn [obind]. unfold mget, ldim.
        replace (idx + m_rows src * c) with (c * m_rows src + idx) by nia. split; [exact E2|lia].
      * intros (i & c & Hir & Hcc & -> & Hv & Ho). exists c. split; [apply in_seq; lia|].
        apply in_flat_map. exists (i - r_ofs p). split; [apply in_seq; lia|].
        replace (r_ofs p + (i - r_ofs p)) with i by lia.
        destruct (bget ridx i) as [idx|]; [|discriminate]. cbn [obind] in Hv.
        unfold mget, ldim in Hv.
        replace (c * m_rows src + idx) with (idx + m_rows src * c) by nia. rewrite Hv.
        left. f_equal. nia.
    + lia.
    + unfold numel_nb. lia.
    + intros i Hci.
      rewrite (ptr_loop_closed' (r_cnt p) (r_ofs p + i * m_rows dest) _ 1 _ _ (fun j => r_ofs p + j)
        (fun j => match bget ridx (r_ofs p + j) with
          | Some idx => match bget (m_data src) (i * m_rows src + idx) with
              | Some v => [(r_ofs p + i * m_rows dest + j, v)] | None => [] end
          | None => [] end)).
      * cbn [obind]. f_equal. f_equal. lia.
      * lia.
      * lia.
      * lia.
      * intros j Hj. destruct (Hi (r_ofs p + j)) as (idx & Hidx & Hb); [lia|].
        unfold bget at 1. rewrite Hidx. cbn [obind].
        destruct (bget_lt (m_data src) (i * m_rows src + idx)) as [v Hv];
          [unfold alloc, numel in Hs; nia|].
        rewrite Hv. cbn [obind]. unfold bget. rewrite Hidx. rewrite Nat.mul_1_r.
        unfold bget in Hv. rewrite Hv, <- Nat.add_assoc. reflexivity.
Qed.

Lemma extract_cols_correct parts src cidx dest :
  alloc src -> alloc dest -> rows_nb dest = rows_nb src ->
  idx_ok cidx (cols_nb dest) (m_cols src) ->
  tiles parts (cols_nb dest) ->
  computes (mExtractCols parts src cidx dest) (m_data dest)
    (holds_block (m_rows dest) (rows_nb dest) (cols_nb dest)
       (fun r c => do i <- bget cidx c; mget src r i) (m_data dest)).
Proof.
  intros Hs Hd Hr Hi HT. unfold mExtractCols.
  pose proof (rows_nb_le src) as HrS. pose proof (rows_nb_le dest) as HrD.
  pose proof (cols_nb_le dest) as HcD.
  apply (computes_block _ _ (cols_nb dest) _ _ _ _ _ (fun i j => j)); auto.
  - intros i j H1 H2. destruct (Hi j H2) as (k & Hk & Hkb).
    split; [unfold alloc, numel in Hd; nia|]. split; [exact H2|].
    unfold bget. rewrite Hk. cbn [obind]. apply mget_some; auto. lia.
  - intros p _ Hp1 Hp2. unfold imExtractCols.
    rewrite (wfor_closed (r_ofs p) (r_cnt p) _ (fun _ => tt)
      (fun ci => match bget cidx ci with
         | Some idx => mc (m_data src) (ldim src * idx) (ldim dest * ci) (rows_nb src)
         | None => [] end)).
    + cbn [obind]. eexists. split; [reflexivity|]. intros a v. rewrite in_flat_map. split.
      * intros (c & Hcs & Hin). apply in_seq in Hcs.
        destruct (bget cidx c) as [idx|] eqn:E1; [|destruct Hin].
        apply in_mc in Hin. destruct Hin as (i & Hir & -> & Hv).
        exists i, c. rewrite E1. cbn [obind]. unfold mget.
        split; [lia|]. split; [lia|]. split; [unfold ldim; lia|].
        replace (i + ldim src * idx) with (ldim src * idx + i) by lia. split; [exact Hv|lia].
      * intros (i & c & Hir & Hcc & -> & Hv & Ho). exists c. split; [apply in_seq; lia|].
        destruct (bget cidx c) as [idx|]; [|discriminate]. cbn [obind] in Hv.
        apply in_mc. exists i. unfold mget in Hv.
        split; [lia|]. split; [unfold ldim; lia|].
        replace (ldim src * idx + i) with (i + ldim src * idx) by lia. exact Hv.
    + intros c Hc. destruct (Hi c) as (idx & Hidx & Hb); [lia|].
      unfold bget. rewrite Hidx. cbn [obind]. rewrite memcpy_closed; [reflexivity|].
      unfold alloc, numel, ldim in *. nia.
Qed.

Lemma extract_rows_seq_correct parts src rowOfs dest :
  alloc src -> alloc dest -> cols_nb dest = cols_nb src ->
  m_rows dest + rowOfs <= m_rows src ->
  tiles parts (cols_nb dest) ->
  computes (mExtractRowsSeq parts src rowOfs dest) (m_data dest)
    (holds_block (m_rows dest) (m_rows dest) (cols_nb dest)
       (fun r c => mget src (rowOfs + r) c) (m_data dest)).
Proof.
  intros Hs Hd Hc Hi HT. unfold mExtractRowsSeq.
  pose proof (cols_nb_le src) as HcS. pose proof (cols_nb_le dest) as HcD.
  apply (computes_block _ _ (cols_nb dest) _ _ _ _ _ (fun i j => j)); auto.
  - intros i j H1 H2.
    split; [unfold alloc, numel in Hd; nia|]. split; [exact H2|]. apply mget_some; auto; lia.
  - intros p _ Hp1 Hp2. unfold imExtractRowsSeq.
    pose (st := fun i => (m_rows dest * (r_ofs p + i), m_rows src * (r_ofs p + i) + rowOfs)).
    replace (col_ofs dest (r_ofs p), col_ofs src (r_ofs p) + rowOfs) with (st 0)
      by (unfold st, col_ofs, ldim; rewrite Nat.add_0_r; reflexivity).
    rewrite (wfor_closed 0 (r_cnt p) _ st
      (fun i => mc (m_data src) (m_rows src * (r_ofs p + i) + rowOfs)
         (m_rows dest * (r_ofs p + i)) (m_rows dest))).
    + cbn [obind]. eexists. split; [reflexivity|]. intros a v. rewrite in_flat_map. split.
      * intros (c & Hcs & Hin). apply in_seq in Hcs.
        apply in_mc in Hin. destruct Hin as (i & Hir & -> & Hv).
        exists i, (r_ofs p + c). unfold mget, ldim.
        split; [lia|]. split; [lia|]. split; [lia|].
        replace (rowOfs + i + m_rows src * (r_ofs p + c))
          with (m_rows src * (r_ofs p + c) + rowOfs + i) by lia. split; [exact Hv|lia].
      * intros (i & c & Hir & Hcc & -> & Hv & Ho). exists (c - r_ofs p).
        split; [apply in_seq; lia|]. apply in_mc. exists i.
        replace (r_ofs p + (c - r_ofs p)) with c by lia. unfold mget, ldim in Hv.
        split; [lia|]. split; [lia|].
        replace (m_rows src * c + rowOfs + i) with (rowOfs + i + m_rows src * c) by lia. exact Hv.
    + intros i Hir. unfold st. rewrite memcpy_closed; [cbn [obind]; f_equal; f_equal; f_equal; ring|].
      unfold alloc, numel in *. nia.
Qed.

(** ** C16 *)

Lemma copy_skip_correct src dest :
  alloc src -> alloc dest -> m_rows dest = m_rows src -> cols_nb dest = cols_nb src ->
  computes (do w <- copy_data_skip_bias src dest; Some [w]) (m_data dest)
    (holds_block (m_rows dest) (m_rows dest) (cols_nb dest) (fun r c => mget src r c) (m_data dest)).
Proof.
  intros Hs Hd Hr Hc. pose proof (cols_nb_le src) as HcS. pose proof (cols_nb_le dest) as HcD.
  unfold copy_data_skip_bias. rewrite Hr, Hc, !Nat.eqb_refl. cbn [andb guard obind].
  rewrite memcpy_closed.
  2: { unfold alloc, numel, numel_nb in *. nia. }
  cbn [obind]. apply computes_single.
  - lia.
  - intros i j Hi Hj. split; [unfold alloc, numel in Hd; nia|]. apply mget_some; auto. lia.
  - intros a v. rewrite in_mc. unfold numel_nb. split.
    + intros (k & Hk & -> & Hv). destruct (Nat.eq_dec (m_rows src) 0) as [H0|H0]; [nia|].
      exists (k mod m_rows src), (k / m_rows src).
      pose proof (Nat.div_mod k (m_rows src) H0) as Hdm.
      pose proof (Nat.mod_upper_bound k (m_rows src) H0).
      assert (k / m_rows src < cols_nb src) by (apply Nat.div_lt_upper_bound; lia).
      split; [assumption|]. split; [assumption|]. split; [lia|].
      unfold mget, ldim.
      replace (k mod m_rows src + m_rows src * (k / m_rows src)) with k by lia. exact Hv.
    + intros (i & j & Hi & Hj & -> & Hv). exists (i + m_rows src * j).
      split; [nia|]. split; [lia|]. exact Hv.
Qed.


Section Mask.
Context (nz : A -> bool).

Definition nzb (mask : list A) i := match nth_error mask i with Some m => nz m | None => false end.

(** number of selected rows among the first n *)
Definition rank (mask : list A) n := length (filter (nzb mask) (seq 0 n)).

Lemma rank_S mask n : rank mask (n + 1) = rank mask n + Nat.b2n (nzb mask n).
Proof.
  unfold rank. rewrite seq_app, filter_app, app_length. simpl.
  destruct (nzb mask n); reflexivity.
Qed.

Lemma rank_mono mask n m : n <= m -> rank mask n <= rank mask m.
Proof.
  intros H. unfold rank. replace m with (n + (m - n)) by lia.
  rewrite seq_app, filter_app, app_length. lia.
Qed.

Lemma rank_strict mask n m : n < m -> nzb mask n = true -> rank mask n < rank mask m.
Proof.
  intros H Hn. pose proof (rank_mono mask (n + 1) m). rewrite rank_S, Hn in H0. simpl in H0. lia.
Qed.

Lemma selected_length mask : length (selected nz mask) = rank mask (length mask).
Proof. reflexivity. Qed.

Lemma filter_seq_nth (f : nat -> bool) n : forall i, i < n -> f i = true ->
  nth_error (filter f (seq 0 n)) (length (filter f (seq 0 i))) = Some i.
Proof.
  intros i Hi Hf. replace n with (i + (n - i)) by lia.
  rewrite seq_app, filter_app. rewrite nth_error_app2 by lia. rewrite Nat.sub_diag.
  simpl. destruct (n - i) as [|k] eqn:E; [lia|]. simpl. rewrite Hf. reflexivity.
Qed.

Lemma selected_rank mask i : i < length mask -> nzb mask i = true ->
  nth_error (selected nz mask) (rank mask i) = Some i.
Proof. intros. apply (filter_seq_nth (nzb mask)); auto. Qed.

Lemma selected_inv mask r i : nth_error (selected nz mask) r = Some i ->
  i < length mask /\ nzb mask i = true /\ rank mask i = r.
Proof.
  intros H. pose proof (nth_error_In _ _ H) as Hin. unfold selected in Hin.
  apply filter_In in Hin. destruct Hin as [Hs Hn]. apply in_seq in Hs.
  change (nzb mask i = true) in Hn. split; [lia|]. split; [exact Hn|].
  assert (H2 : nth_error (selected nz mask) (rank mask i) = Some i).
  { apply selected_rank; [lia|exact Hn]. }
  assert (HND : NoDup (selected nz mask)).
  { unfold selected. apply NoDup_filter. apply seq_NoDup. }
  rewrite NoDup_nth_error in HND. apply HND.
  - assert (nth_error (selected nz mask) (rank mask i) <> None) by congruence.
    apply nth_error_Some. exact H0.
  - congruence.
Qed.

Lemma extract_by_mask_correct parts src mask dest :
  alloc src -> alloc dest -> cols_nb dest = cols_nb src ->
  length mask = m_rows src -> m_rows dest = length (selected nz mask) ->
  tiles parts (cols_nb src) ->
  computes (mExtractRowsByMask nz parts src mask dest) (m_data dest)
    (holds_block (m_rows dest) (m_rows dest) (cols_nb dest)
       (fun r c => do i <- nth_error (selected nz mask) r; mget src i c) (m_data dest)).
Proof.
  intros Hs Hd Hc Hm Hsel HT. unfold mExtractRowsByMask.
  pose proof (cols_nb_le src) as HcS. pose proof (cols_nb_le dest) as HcD.
  destruct (Nat.eqb_spec (m_rows dest) (m_rows src)) as [He|Hne].
  - (* every row is selected *)
    destruct (copy_skip_correct src dest Hs Hd He Hc) as (trs & E & HR & H).
    exists trs. split; [exact E|]. split; [exact HR|]. intros ws Hws.
    destruct (H ws Hws) as (d' & E' & HL & Hin & Hout). exists d'. split; [exact E'|].
    split; [exact HL|]. split; [|exact Hout].
    intros i j Hi Hj. assert (nth_error (selected nz mask) i = Some i) as ->.
    { assert (Hall : forall n, n <= length mask -> rank mask n = n).
      { intros n Hn.
        assert (rank mask n <= n) by (unfold rank; rewrite <- (seq_length n 0) at 2; apply filter_length_le).
        assert (rank mask (length mask) <= rank mask n + (length mask - n)).
        { unfold rank. replace (length mask) with (n + (length mask - n)) at 1 by lia.
          rewrite seq_app, filter_app, app_length.
          pose proof (filter_length_le (nzb mask) (seq (0 + n) (length mask - n))) as Hf.
          rewrite seq_length in Hf. lia. }
        rewrite selected_length in Hsel. lia. }
      assert (Hnz : nzb mask i = true).
      { pose proof (Hall (i + 1) ltac:(lia)) as H1. rewrite rank_S, (Hall i) in H1 by lia.
        destruct (nzb mask i); [reflexivity|simpl in H1; lia]. }
      pose proof (selected_rank mask i ltac:(lia) Hnz) as H1. rewrite (Hall i) in H1 by lia. exact H1. }
    cbn [obind]. apply Hin; assumption.
  - apply (computes_block _ _ (cols_nb src) _ _ _ _ _ (fun i j => j)); auto.
    + intros i j Hi Hj. split; [unfold alloc, numel in Hd; nia|]. split; [lia|].
      destruct (nth_error (selected nz mask) i) as [k|] eqn:E.
      2: { apply nth_error_None in E. lia. }
      apply selected_inv in E. cbn [obind]. apply mget_some; auto; lia.
    + intros p _ Hp1 Hp2. unfold imExtractRowsByMask.
      pose (st := fun i => (m_rows src * (r_ofs p + i), m_rows dest * (r_ofs p + i))).
      replace (col_ofs src (r_ofs p), col_ofs dest (r_ofs p)) with (st 0)
        by (unfold st, col_ofs, ldim; rewrite Nat.add_0_r; reflexivity).
      rewrite (wfor_closed 0 (r_cnt p) _ st
        (fun c => flat_map (fun i => if nzb mask i then
            match bget (m_data src) (m_rows src * (r_ofs p + c) + i) with
            | Some v => [(m_rows dest * (r_ofs p + c) + rank mask i, v)] | None => [] end
            else []) (seq 0 (m_rows src)))).
      * cbn [obind]. eexists. split; [reflexivity|]. intros a v. rewrite in_flat_map. split.
        -- intros (c & Hcs & Hin). apply in_seq in Hcs. apply in_flat_map in Hin.
           destruct Hin as (i & Hi & Hin). apply in_seq in Hi.
           destruct (nzb mask i) eqn:En; [|destruct Hin].
           destruct (bget (m_data src) (m_rows src * (r_ofs p + c) + i)) as [v'|] eqn:Ev; [|destruct Hin].
           destruct Hin as [Heq|[]]. injection Heq as <- <-.
           pose proof (selected_rank mask i ltac:(lia) En) as Hrk.
           exists (rank mask i), (r_ofs p + c).
           split; [rewrite Hsel, selected_length; apply rank_strict; [lia|exact En]|].
           split; [lia|]. split; [lia|]. rewrite Hrk. cbn [obind]. unfold mget, ldim.
           replace (i + m_rows src * (r_ofs p + c)) with (m_rows src * (r_ofs p + c) + i) by lia.
           split; [exact Ev|lia].
        -- intros (r & c & Hr & Hcc & -> & Hv & Ho).
           destruct (nth_error (selected nz mask) r) as [i|] eqn:E; [|discriminate].
           cbn [obind] in Hv. destruct (selected_inv _ _ _ E) as (Hil & En & Hrk).
           exists (c - r_ofs p). split; [apply in_seq; lia|]. apply in_flat_map.
           exists i. split; [apply in_seq; lia|]. rewrite En.
           replace (r_ofs p + (c - r_ofs p)) with c by lia. unfold mget, ldim in Hv.
           replace (m_rows src * c + i) with (i + m_rows src * c) by lia. rewrite Hv.
           left. f_equal. lia.
      * intros c Hcr. unfold st.
        pose (st2 := fun i => m_rows dest * (r_ofs p + c) + rank mask i).
        replace (m_rows dest * (r_ofs p + c)) with (st2 0) at 1
          by (unfold st2, rank; simpl; lia).
        rewrite (wfor_closed 0 (m_rows src) _ st2
          (fun i => if nzb mask i then
            match bget (m_data src) (m_rows src * (r_ofs p + c) + i) with
            | Some v => [(m_rows dest * (r_ofs p + c) + rank mask i, v)] | None => [] end
            else [])).
        -- cbn [obind]. unfold st2. simpl plus at 1.
           replace (rank mask (0 + m_rows src)) with (m_rows dest)
             by (rewrite Hsel, selected_length, Hm; reflexivity).
           f_equal; f_equal; f_equal; ring.
        -- intros i Hi. unfold st2, nzb.
           destruct (bget_lt mask i) as [mm Hmm]; [lia|]. rewrite Hmm.
           unfold bget in Hmm. rewrite Hmm. cbn [obind]. rewrite rank_S. unfold nzb. rewrite Hmm.
           destruct (nz mm).
           ++ destruct (bget_lt (m_data src) (m_rows src * (r_ofs p + c) + i)) as [v Hv].
              { unfold alloc, numel in Hs. nia. }
              rewrite Hv. cbn [obind]. simpl Nat.b2n. rewrite Nat.add_assoc. reflexivity.
           ++ simpl Nat.b2n. rewrite Nat.add_0_r. reflexivity.
Qed.
End Mask.
End P.
