From Coq Require Import Permutation.
From Verif Require Import Base BaseLemmas Workers_Model Workers_Spec
  Kern_Model Kern_Spec Kern_Proofs MKern_Model MKern_Spec MKern_Proofs MKern_Proofs2.

Lemma step_mod n x : 0 < n -> x mod n < n - 1 -> (x + 1) / n = x / n /\ (x + 1) mod n = x mod n + 1.
Proof.
  intros Hn H. pose proof (Nat.div_mod x n ltac:(lia)) as E.
  split; [symmetry; apply (Nat.div_unique _ _ _ (x mod n + 1)); lia|].
  symmetry. apply (Nat.mod_unique _ _ (x / n)); lia.
Qed.

Lemma step_wrap n x : 0 < n -> ~ x mod n < n - 1 -> (x + 1) / n = x / n + 1 /\ (x + 1) mod n = 0.
Proof.
  intros Hn H. pose proof (Nat.div_mod x n ltac:(lia)) as E.
  pose proof (Nat.mod_upper_bound x n ltac:(lia)).
  split; [symmetry; apply (Nat.div_unique _ _ _ 0); nia|].
  symmetry. apply (Nat.mod_unique _ _ (x / n + 1)); nia.
Qed.

Lemma dm_pack n q r : r < n -> (q * n + r) / n = q /\ (q * n + r) mod n = r.
Proof.
  intros H. split.
  - symmetry. apply (Nat.div_unique _ _ _ r); lia.
  - symmetry. apply (Nat.mod_unique _ _ q); lia.
Qed.

Lemma lt_cancel a p x y : a + p * x < p * y -> x < y.
Proof.
  intros H. destruct (Nat.lt_ge_cases x y) as [L|L]; [exact L|].
  pose proof (Nat.mul_le_mono_l _ _ p L). lia.
Qed.

Lemma last_col_range f c d : 0 < c -> last_col (f + c) d = f + c.
Proof. intros H. unfold last_col. destruct (Nat.eqb_spec (f + c) 0); lia. Qed.

Section P.
Context {A : Type}.
Implicit Types src dest : mtx A.

Lemma roll_bounds m n k (wide tall : mtx A) : tiling_shapes m n k wide tall ->
  forall i j, i < k * m -> j < n ->
  i + m_rows tall * j < length (m_data tall) /\ i / m * n + j < k * n /\ roll_f m n wide i j <> None.
Proof.
  intros [] i j Hi Hj.
  pose proof (cols_nb_le tall). pose proof (cols_nb_le wide).
  assert (i / m < k) by (apply Nat.div_lt_upper_bound; lia).
  pose proof (Nat.mod_upper_bound i m ltac:(lia)).
  split; [unfold alloc, numel in *; nia|]. split; [nia|].
  unfold roll_f. apply mget_some; auto; [lia|nia].
Qed.

Lemma unroll_bounds m n k (wide tall : mtx A) : tiling_shapes m n k wide tall ->
  forall i c, i < m -> c < k * n ->
  i + m_rows wide * c < length (m_data wide) /\ c mod n < n /\ unroll_f m n tall i c <> None.
Proof.
  intros [] i c Hi Hc.
  pose proof (cols_nb_le tall). pose proof (cols_nb_le wide).
  assert (c / n < k) by (apply Nat.div_lt_upper_bound; lia).
  pose proof (Nat.mod_upper_bound c n ltac:(lia)).
  split; [unfold alloc, numel in *; nia|]. split; [lia|].
  unfold unroll_f. apply mget_some; auto; [nia|nia].
Qed.

Lemma roll_seqread_correct m n k parts src dest :
  tiling_shapes m n k src dest -> tiles parts (k * n) ->
  computes (mTilingRoll_seqread_mt parts src dest) (m_data dest)
    (holds_block (m_rows dest) (k * m) n (roll_f m n src) (m_data dest)).
Proof.
  intros HS HT. pose proof (roll_bounds _ _ _ _ _ HS) as HB. destruct HS.
  pose proof (cols_nb_le src) as HcS. pose proof (cols_nb_le dest) as HcD.
  unfold mTilingRoll_seqread_mt.
  apply (computes_block _ _ (k * n) _ _ _ _ _ (fun i j => (i / m) * n + j)); [exact HT|lia|exact HB|].
  intros p _ Hp1 Hp2. unfold on_range, mTilingRoll_seqread_st.
  rewrite last_col_range by exact Hp1. rewrite ts_wr, ts_tc, ts_tr.
  unfold col_ofs, ldim. rewrite ts_wr, ts_tr.
  pose (st := fun i => let c := r_ofs p + i in (m * (c / n) + k * m * (c mod n), m * (c / n))).
  rewrite (ptr_loop_closed' (r_cnt p) (m * r_ofs p) _ m _ _ st
    (fun i => let c := r_ofs p + i in
       mc (m_data src) (m * c) (m * (c / n) + k * m * (c mod n)) m)).
  - cbn [obind]. eexists. split; [reflexivity|]. intros a v. rewrite in_flat_map. split.
    + intros (i & Hi & Hin). apply in_seq in Hi. cbv zeta in Hin.
      remember (r_ofs p + i) as c eqn:Ec.
      apply in_mc in Hin. destruct Hin as (t & Ht & -> & Hv).
      assert (Hck : c / n < k) by (apply Nat.div_lt_upper_bound; lia).
      pose proof (Nat.mod_upper_bound c n ltac:(lia)) as Hcm.
      pose proof (Nat.div_mod c n ltac:(lia)) as Hcdm.
      exists (c / n * m + t), (c mod n).
      destruct (dm_pack m (c / n) t Ht) as [Hd Hm].
      split; [nia|]. split; [lia|]. split; [lia|].
      unfold roll_f, mget, ldim. rewrite Hd, Hm, ts_wr.
      replace (c / n * n + c mod n) with c by lia.
      replace (t + m * c) with (m * c + t) by lia. split; [exact Hv|lia].
    + intros (i & j & Hi & Hj & -> & Hv & Ho).
      pose proof (Nat.div_mod i m ltac:(lia)) as Hidm.
      pose proof (Nat.mod_upper_bound i m ltac:(lia)) as Him.
      exists (i / m * n + j - r_ofs p). split; [apply in_seq; lia|]. cbv zeta.
      replace (r_ofs p + (i / m * n + j - r_ofs p)) with (i / m * n + j) by lia.
      destruct (dm_pack n (i / m) j Hj) as [-> ->].
      apply in_mc. exists (i mod m). split; [exact Him|]. split; [nia|].
      unfold roll_f, mget, ldim in Hv. rewrite ts_wr in Hv.
      replace (m * (i / m * n + j) + i mod m) with (i mod m + m * (i / m * n + j)) by lia. exact Hv.
  - unfold st. cbv zeta. rewrite Nat.add_0_r. f_equal. f_equal. f_equal.
    pose proof (Nat.div_mod (r_ofs p) n ltac:(lia)). lia.
  - exact ts_m.
  - replace (r_ofs p + r_cnt p - r_ofs p) with (r_cnt p) by lia. ring.
  - intros i Hi. unfold st. cbv zeta. remember (r_ofs p + i) as c eqn:Ec.
    assert (Hck : c / n < k) by (apply Nat.div_lt_upper_bound; lia).
    pose proof (Nat.mod_upper_bound c n ltac:(lia)) as Hcm.
    replace (m * r_ofs p + i * m) with (m * c) by (subst; ring).
    rewrite memcpy_closed by (unfold alloc, numel in *; rewrite ts_wr in *; nia).
    cbn [obind]. f_equal. f_equal.
    replace (r_ofs p + (i + 1)) with (c + 1) by lia.
    destruct (Nat.ltb_spec (m * (c / n) + k * m * (c mod n)) (k * m * (n - 1))) as [Hl|Hl].
    + pose proof (lt_cancel _ _ _ _ Hl) as Hlt.
      destruct (step_mod n c ltac:(lia) Hlt) as [-> ->]. f_equal. ring.
    + assert (Hlt : ~ c mod n < n - 1).
      { intros Hlt. assert (k * m * (c mod n + 1) <= k * m * (n - 1)) by (apply Nat.mul_le_mono_l; lia).
        assert (m * (c / n) + m <= k * m) by nia. nia. }
      destruct (step_wrap n c ltac:(lia) Hlt) as [-> ->]. f_equal; ring.
Qed.

Lemma roll_seqwrite_range m n k src dest p :
  tiling_shapes m n k src dest -> 0 < r_cnt p -> r_ofs p + r_cnt p <= n ->
  exists t, on_range (mTilingRoll_seqwrite_st src dest) p = Some t /\
  (forall a v, In (a, v) t <-> exists i j, i < k * m /\ j < n /\ a = i + m_rows dest * j /\
      roll_f m n src i j = Some v /\ r_ofs p <= j < r_ofs p + r_cnt p).
Proof.
  intros HS Hp1 Hp2. destruct HS.
  pose proof (cols_nb_le src) as HcS. pose proof (cols_nb_le dest) as HcD.
  unfold on_range, mTilingRoll_seqwrite_st.
  rewrite last_col_range by exact Hp1. rewrite ts_wr, ts_tc, ts_tr, ts_wc.
  unfold col_ofs, ldim. rewrite ts_wr, ts_tr.
  pose (st := fun i => let c := r_ofs p + i / k in (m * c + (i mod k) * (m * n), m * c)).
  rewrite (ptr_loop_closed' (r_cnt p * k) (k * m * r_ofs p) _ m _ _ st
    (fun i => let c := r_ofs p + i / k in
       mc (m_data src) (m * c + (i mod k) * (m * n)) (k * m * r_ofs p + i * m) m)).
  - cbn [obind]. eexists. split; [reflexivity|]. intros a v. rewrite in_flat_map. split.
    + intros (i & Hi & Hin). apply in_seq in Hi. cbv zeta in Hin.
      apply in_mc in Hin. destruct Hin as (t & Ht & -> & Hv).
      assert (Hck : i / k < r_cnt p) by (apply Nat.div_lt_upper_bound; rewrite ?(Nat.mul_comm k (r_cnt p)); lia).
      pose proof (Nat.mod_upper_bound i k ltac:(lia)) as Hcm.
      pose proof (Nat.div_mod i k ltac:(lia)) as Hcdm.
      exists (i mod k * m + t), (r_ofs p + i / k).
      destruct (dm_pack m (i mod k) t Ht) as [Hd Hm].
      split; [nia|]. split; [lia|].
      split; [rewrite Hcdm at 1; ring|].
      unfold roll_f, mget, ldim. rewrite Hd, Hm, ts_wr.
      replace (t + m * (i mod k * n + (r_ofs p + i / k)))
        with (m * (r_ofs p + i / k) + i mod k * (m * n) + t) by ring. split; [exact Hv|]. split; [apply Nat.le_add_r|apply Nat.add_lt_mono_l; exact Hck].
    + intros (i & j & Hi & Hj & -> & Hv & Ho).
      pose proof (Nat.div_mod i m ltac:(lia)) as Hidm.
      pose proof (Nat.mod_upper_bound i m ltac:(lia)) as Him.
      assert (Hik : i / m < k) by (apply Nat.div_lt_upper_bound; lia).
      destruct (dm_pack k (j - r_ofs p) (i / m) Hik) as [Hq Hr].
      exists ((j - r_ofs p) * k + i / m). split; [apply in_seq; nia|]. cbv zeta.
      rewrite Hq, Hr. replace (r_ofs p + (j - r_ofs p)) with j by lia.
      apply in_mc. exists (i mod m). split; [exact Him|]. split.
      * replace j with (r_ofs p + (j - r_ofs p)) at 1 by lia. rewrite Hidm at 1. ring.
      * unfold roll_f, mget, ldim in Hv. rewrite ts_wr in Hv.
        replace (m * j + i / m * (m * n) + i mod m) with (i mod m + m * (i / m * n + j)) by ring.
        exact Hv.
  - unfold st. cbv zeta. rewrite Nat.div_0_l, Nat.mod_0_l by lia. f_equal; ring.
  - exact ts_m.
  - replace (r_ofs p + r_cnt p - r_ofs p) with (r_cnt p) by lia. ring.
  - intros i Hi. unfold st. cbv zeta.
    assert (Hck : i / k < r_cnt p) by (apply Nat.div_lt_upper_bound; rewrite ?(Nat.mul_comm k (r_cnt p)); lia).
    pose proof (Nat.mod_upper_bound i k ltac:(lia)) as Hcm.
    assert (Hnb : i mod k * n + (r_ofs p + i / k) < k * n) by nia.
    rewrite memcpy_closed.
    2: { unfold alloc, numel in *. rewrite ts_wr in *.
         replace (m * (r_ofs p + i / k) + i mod k * (m * n) + m)
           with (m * (i mod k * n + (r_ofs p + i / k) + 1)) by ring.
         etransitivity; [|exact ts_wa]. apply Nat.mul_le_mono_l. lia. }
    cbn [obind]. f_equal. f_equal.
    destruct (Nat.ltb_spec (m * (r_ofs p + i / k) + i mod k * (m * n)) (m * (k * n - n))) as [Hl|Hl].
    + assert (Hlt : i mod k < k - 1).
      { replace (m * (k * n - n)) with (m * n * (k - 1)) in Hl by nia.
        rewrite (Nat.mul_comm (i mod k)) in Hl. exact (lt_cancel _ _ _ _ Hl). }
      destruct (step_mod k i ltac:(lia) Hlt) as [-> ->]. f_equal. ring.
    + assert (Hlt : ~ i mod k < k - 1).
      { intros Hlt. replace (m * (k * n - n)) with ((k - 1) * (m * n)) in Hl by nia.
        assert ((i mod k + 1) * (m * n) <= (k - 1) * (m * n)) by (apply Nat.mul_le_mono_r; lia).
        assert (m * (r_ofs p + i / k) + m <= m * n) by nia. lia. }
      destruct (step_wrap k i ltac:(lia) Hlt) as [-> ->]. f_equal; ring.
Qed.

Lemma roll_seqwrite_correct m n k parts src dest :
  tiling_shapes m n k src dest -> tiles parts n ->
  computes (mTilingRoll_seqwrite_mt parts src dest) (m_data dest)
    (holds_block (m_rows dest) (k * m) n (roll_f m n src) (m_data dest)).
Proof.
  intros HS HT. pose proof (roll_bounds _ _ _ _ _ HS) as HB.
  unfold mTilingRoll_seqwrite_mt.
  apply (computes_block _ _ n _ _ _ _ _ (fun i j => j)); [exact HT| | |].
  - rewrite (ts_tr _ _ _ _ _ HS). lia.
  - intros i j Hi Hj. destruct (HB i j Hi Hj) as (H1 & _ & H2). auto.
  - intros p _ Hp1 Hp2. apply roll_seqwrite_range; assumption.
Qed.

Lemma roll_correct t1 t2 m n k partsS partsD src dest :
  tiling_shapes m n k src dest -> tiles partsS (k * n) -> tiles partsD n ->
  computes (mTilingRoll t1 t2 partsS partsD src dest) (m_data dest)
    (holds_block (m_rows dest) (k * m) n (roll_f m n src) (m_data dest)).
Proof.
  intros HS HT1 HT2. unfold mTilingRoll.
  destruct (_ <? t1); [|destruct (_ <? t2)].
  - assert (E : mTilingRoll_st src dest = mTilingRoll_seqwrite_mt (whole n) src dest).
    { unfold mTilingRoll_st, mTilingRoll_seqwrite_mt, whole, par, on_range. simpl r_ofs. simpl r_cnt.
      simpl plus. unfold mTilingRoll_seqwrite_st. rewrite (ts_tc _ _ _ _ _ HS).
      replace (last_col n n) with (last_col 0 n)
        by (unfold last_col; destruct (Nat.eqb_spec n 0); simpl; auto).
      destruct (obind _ _); reflexivity. }
    rewrite E. apply roll_seqwrite_correct; [exact HS|]. apply whole_tiles. apply (ts_n _ _ _ _ _ HS).
  - apply roll_seqread_correct; assumption.
  - apply roll_seqwrite_correct; assumption.
Qed.

Lemma unroll_seqwrite_correct m n k parts src dest :
  tiling_shapes m n k dest src -> tiles parts (k * n) ->
  computes (mTilingUnroll_seqwrite_mt parts src dest) (m_data dest)
    (holds_block (m_rows dest) m (k * n) (unroll_f m n src) (m_data dest)).
Proof.
  intros HS HT. pose proof (unroll_bounds _ _ _ _ _ HS) as HB. destruct HS.
  pose proof (cols_nb_le src) as HcS. pose proof (cols_nb_le dest) as HcD.
  unfold mTilingUnroll_seqwrite_mt.
  apply (computes_block _ _ (k * n) _ _ _ _ _ (fun i j => j)); [exact HT|lia| |].
  { intros i j Hi Hj. destruct (HB i j Hi Hj) as (H1 & _ & H2). auto. }
  intros p _ Hp1 Hp2. unfold on_range, mTilingUnroll_seqwrite_st.
  rewrite last_col_range by exact Hp1. rewrite ts_wr, ts_tc, ts_tr.
  unfold col_ofs, ldim. rewrite ts_wr, ts_tr.
  pose (st := fun i => let c := r_ofs p + i in (m * (c / n) + k * m * (c mod n), m * (c / n))).
  rewrite (ptr_loop_closed' (r_cnt p) (m * r_ofs p) _ m _ _ st
    (fun i => let c := r_ofs p + i in
       mc (m_data src) (m * (c / n) + k * m * (c mod n)) (m * c) m)).
  - cbn [obind]. eexists. split; [reflexivity|]. intros a v. rewrite in_flat_map. split.
    + intros (i & Hi & Hin). apply in_seq in Hi. cbv zeta in Hin.
      remember (r_ofs p + i) as c eqn:Ec.
      apply in_mc in Hin. destruct Hin as (t & Ht & -> & Hv).
      exists t, c. split; [lia|]. split; [lia|]. split; [lia|].
      unfold unroll_f, mget, ldim. rewrite ts_tr.
      replace (c / n * m + t + k * m * (c mod n)) with (m * (c / n) + k * m * (c mod n) + t) by ring.
      split; [exact Hv|lia].
    + intros (i & c & Hi & Hj & -> & Hv & Ho).
      exists (c - r_ofs p). split; [apply in_seq; lia|]. cbv zeta.
      replace (r_ofs p + (c - r_ofs p)) with c by lia.
      apply in_mc. exists i. split; [exact Hi|]. split; [ring|].
      unfold unroll_f, mget, ldim in Hv. rewrite ts_tr in Hv.
      replace (m * (c / n) + k * m * (c mod n) + i) with (c / n * m + i + k * m * (c mod n)) by ring.
      exact Hv.
  - unfold st. cbv zeta. rewrite Nat.add_0_r. f_equal. f_equal. f_equal.
    pose proof (Nat.div_mod (r_ofs p) n ltac:(lia)). lia.
  - exact ts_m.
  - replace (r_ofs p + r_cnt p - r_ofs p) with (r_cnt p) by lia. ring.
  - intros i Hi. unfold st. cbv zeta. remember (r_ofs p + i) as c eqn:Ec.
    assert (Hck : c / n < k) by (apply Nat.div_lt_upper_bound; lia).
    pose proof (Nat.mod_upper_bound c n ltac:(lia)) as Hcm.
    replace (m * r_ofs p + i * m) with (m * c) by (subst; ring).
    assert (m * (c / n) + m <= k * m) by nia.
    rewrite memcpy_closed.
    2: { unfold alloc, numel in *. rewrite ts_tr in *.
         assert (k * m * (c mod n + 1) <= k * m * m_cols src) by (apply Nat.mul_le_mono_l; lia). lia. }
    cbn [obind]. f_equal. f_equal.
    replace (r_ofs p + (i + 1)) with (c + 1) by lia.
    destruct (Nat.ltb_spec (m * (c / n) + k * m * (c mod n)) (k * m * (n - 1))) as [Hl|Hl].
    + pose proof (lt_cancel _ _ _ _ Hl) as Hlt.
      destruct (step_mod n c ltac:(lia) Hlt) as [-> ->]. f_equal. ring.
    + assert (Hlt : ~ c mod n < n - 1).
      { intros Hlt. assert (k * m * (c mod n + 1) <= k * m * (n - 1)) by (apply Nat.mul_le_mono_l; lia).
        nia. }
      destruct (step_wrap n c ltac:(lia) Hlt) as [-> ->]. f_equal; ring.
Qed.

Lemma unroll_seqread_correct m n k parts src dest :
  tiling_shapes m n k dest src -> tiles parts n ->
  computes (mTilingUnroll_seqread_mt parts src dest) (m_data dest)
    (holds_block (m_rows dest) m (k * n) (unroll_f m n src) (m_data dest)).
Proof.
  intros HS HT. pose proof (unroll_bounds _ _ _ _ _ HS) as HB. destruct HS.
  pose proof (cols_nb_le src) as HcS. pose proof (cols_nb_le dest) as HcD.
  unfold mTilingUnroll_seqread_mt.
  apply (computes_block _ _ n _ _ _ _ _ (fun i j => j mod n)); [exact HT|lia|exact HB|].
  intros p _ Hp1 Hp2.
  unfold on_range, mTilingUnroll_seqread_st.
  rewrite ts_wr, ts_tc, ts_tr, ts_wc. rewrite last_col_range by exact Hp1.
  unfold col_ofs, ldim. rewrite ts_wr, ts_tr.
  pose (st := fun i => let c := r_ofs p + i / k in (m * c + (i mod k) * (m * n), m * c)).
  rewrite (ptr_loop_closed' (r_cnt p * k) (k * m * r_ofs p) _ m _ _ st
    (fun i => let c := r_ofs p + i / k in
       mc (m_data src) (k * m * r_ofs p + i * m) (m * c + (i mod k) * (m * n)) m)).
  - cbn [obind]. eexists. split; [reflexivity|]. intros a v. rewrite in_flat_map. split.
    + intros (i & Hi & Hin). apply in_seq in Hi. cbv zeta in Hin.
      apply in_mc in Hin. destruct Hin as (t & Ht & -> & Hv).
      assert (Hck : i / k < r_cnt p) by (apply Nat.div_lt_upper_bound; rewrite ?(Nat.mul_comm k (r_cnt p)); lia).
      pose proof (Nat.mod_upper_bound i k ltac:(lia)) as Hcm.
      pose proof (Nat.div_mod i k ltac:(lia)) as Hcdm.
      destruct (dm_pack n (i mod k) (r_ofs p + i / k) ltac:(lia)) as [Hd Hm].
      exists t, (i mod k * n + (r_ofs p + i / k)). rewrite Hm.
      split; [lia|]. split; [nia|]. split; [ring|].
      unfold unroll_f, mget, ldim. rewrite Hd, Hm, ts_tr.
      replace (i mod k * m + t + k * m * (r_ofs p + i / k))
        with (k * m * r_ofs p + i * m + t) by (rewrite Hcdm at 1; ring).
      split; [exact Hv|]. split; [apply Nat.le_add_r|apply Nat.add_lt_mono_l; exact Hck].
    + intros (i & c & Hi & Hj & -> & Hv & Ho).
      pose proof (Nat.div_mod c n ltac:(lia)) as Hidm.
      assert (Hik : c / n < k) by (apply Nat.div_lt_upper_bound; lia).
      remember (c mod n) as j eqn:Ej.
      destruct (dm_pack k (j - r_ofs p) (c / n) Hik) as [Hq Hr].
      exists ((j - r_ofs p) * k + c / n). split; [apply in_seq; nia|]. cbv zeta.
      rewrite Hq, Hr. replace (r_ofs p + (j - r_ofs p)) with j by lia.
      apply in_mc. exists i. split; [exact Hi|]. split.
      * rewrite Hidm at 1. ring.
      * unfold unroll_f, mget, ldim in Hv. rewrite ts_tr, <- Ej in Hv.
        replace (k * m * r_ofs p + ((j - r_ofs p) * k + c / n) * m + i)
          with (k * m * (r_ofs p + (j - r_ofs p)) + c / n * m + i) by ring.
        replace (r_ofs p + (j - r_ofs p)) with j by lia.
        replace (k * m * j + c / n * m + i) with (c / n * m + i + k * m * j) by ring. exact Hv.
  - unfold st. cbv zeta. rewrite Nat.div_0_l, Nat.mod_0_l by lia. f_equal; ring.
  - exact ts_m.
  - replace (r_ofs p + r_cnt p - r_ofs p) with (r_cnt p) by lia. ring.
  - intros i Hi. unfold st. cbv zeta.
    assert (Hck : i / k < r_cnt p) by (apply Nat.div_lt_upper_bound; rewrite ?(Nat.mul_comm k (r_cnt p)); lia).
    pose proof (Nat.mod_upper_bound i k ltac:(lia)) as Hcm.
    rewrite memcpy_closed.
    2: { unfold alloc, numel in *. rewrite ts_tr in *.
         replace (k * m * r_ofs p + i * m + m) with (m * (k * r_ofs p + (i + 1))) by ring.
         etransitivity; [|exact ts_ta]. rewrite (Nat.mul_comm k m), <- Nat.mul_assoc.
         apply Nat.mul_le_mono_l. nia. }
    cbn [obind]. f_equal. f_equal.
    destruct (Nat.ltb_spec (m * (r_ofs p + i / k) + i mod k * (m * n)) (m * (k * n - n))) as [Hl|Hl].
    + assert (Hlt : i mod k < k - 1).
      { replace (m * (k * n - n)) with (m * n * (k - 1)) in Hl by nia.
        rewrite (Nat.mul_comm (i mod k)) in Hl. exact (lt_cancel _ _ _ _ Hl). }
      destruct (step_mod k i ltac:(lia) Hlt) as [-> ->]. f_equal. ring.
    + assert (Hlt : ~ i mod k < k - 1).
      { intros Hlt. replace (m * (k * n - n)) with ((k - 1) * (m * n)) in Hl by nia.
        assert ((i mod k + 1) * (m * n) <= (k - 1) * (m * n)) by (apply Nat.mul_le_mono_r; lia).
        assert (m * (r_ofs p + i / k) + m <= m * n) by nia. lia. }
      destruct (step_wrap k i ltac:(lia) Hlt) as [-> ->]. f_equal; ring.
Qed.

Lemma unroll_correct t1 t2 m n k partsS partsD src dest :
  tiling_shapes m n k dest src -> tiles partsS n -> tiles partsD (k * n) ->
  computes (mTilingUnroll t1 t2 partsS partsD src dest) (m_data dest)
    (holds_block (m_rows dest) m (k * n) (unroll_f m n src) (m_data dest)).
Proof.
  intros HS HT1 HT2. unfold mTilingUnroll.
  destruct (_ <? t1); [|destruct (_ <? t2)].
  - assert (E : mTilingUnroll_st src dest = mTilingUnroll_seqread_mt (whole n) src dest).
    { unfold mTilingUnroll_st, mTilingUnroll_seqread_mt, whole, par, on_range. simpl r_ofs. simpl r_cnt.
      simpl plus. unfold mTilingUnroll_seqread_st. rewrite (ts_tc _ _ _ _ _ HS).
      replace (last_col n n) with (last_col 0 n)
        by (unfold last_col; destruct (Nat.eqb_spec n 0); simpl; auto).
      destruct (obind _ _); reflexivity. }
    rewrite E. apply unroll_seqread_correct; [exact HS|]. apply whole_tiles. apply (ts_n _ _ _ _ _ HS).
  - apply unroll_seqwrite_correct; assumption.
  - apply unroll_seqread_correct; assumption.
Qed.

Lemma shapes_with_data_tall m n k (wide tall : mtx A) t :
  tiling_shapes m n k wide tall -> length t = length (m_data tall) ->
  tiling_shapes m n k wide (with_data tall t).
Proof. intros [] HL. constructor; auto. unfold alloc, numel in *. simpl. lia. Qed.

Lemma shapes_with_data_wide m n k (wide tall : mtx A) t :
  tiling_shapes m n k wide tall -> length t = length (m_data wide) ->
  tiling_shapes m n k (with_data wide t) tall.
Proof. intros [] HL. constructor; auto. unfold alloc, numel in *. simpl. lia. Qed.

Lemma roll_unroll t1 t2 t3 t4 m n k pS pD pS' pD' src tmp dest :
  tiling_shapes m n k src tmp -> tiling_shapes m n k dest tmp ->
  tiles pS (k * n) -> tiles pD n -> tiles pS' n -> tiles pD' (k * n) ->
  computes (mTilingRoll t1 t2 pS pD src tmp) (m_data tmp) (fun t =>
    computes (mTilingUnroll t3 t4 pS' pD' (with_data tmp t) dest) (m_data dest)
      (holds_block (m_rows dest) m (k * n) (fun i j => mget src i j) (m_data dest))).
Proof.
  intros HS HS' H1 H2 H3 H4.
  eapply computes_weaken; [eapply roll_correct; eauto|].
  intros t HL [Hin _]. cbv beta.
  eapply computes_weaken; [apply (unroll_correct t3 t4 m n k); [apply shapes_with_data_tall; assumption|assumption|assumption]|].
  intros d' _. apply holds_block_ext. intros i c Hi Hc. destruct HS.
  assert (c / n < k) by (apply Nat.div_lt_upper_bound; lia).
  pose proof (Nat.mod_upper_bound c n ltac:(lia)).
  pose proof (Nat.div_mod c n ltac:(lia)).
  unfold unroll_f, mget at 1, ldim. simpl.
  destruct (Hin (c / n * m + i) (c mod n)) as [HQ _]; [nia|lia|]. rewrite HQ.
  unfold roll_f. destruct (dm_pack m (c / n) i Hi) as [-> ->]. f_equal. lia.
Qed.

Lemma unroll_roll t1 t2 t3 t4 m n k pS pD pS' pD' src tmp dest :
  tiling_shapes m n k tmp src -> tiling_shapes m n k tmp dest ->
  tiles pS n -> tiles pD (k * n) -> tiles pS' (k * n) -> tiles pD' n ->
  computes (mTilingUnroll t1 t2 pS pD src tmp) (m_data tmp) (fun t =>
    computes (mTilingRoll t3 t4 pS' pD' (with_data tmp t) dest) (m_data dest)
      (holds_block (m_rows dest) (k * m) n (fun i j => mget src i j) (m_data dest))).
Proof.
  intros HS HS' H1 H2 H3 H4.
  eapply computes_weaken; [eapply unroll_correct; eauto|].
  intros t HL [Hin _]. cbv beta.
  eapply computes_weaken; [apply (roll_correct t3 t4 m n k); [apply shapes_with_data_wide; assumption|assumption|assumption]|].
  intros d' _. apply holds_block_ext. intros i j Hi Hj. destruct HS.
  assert (i / m < k) by (apply Nat.div_lt_upper_bound; lia).
  pose proof (Nat.mod_upper_bound i m ltac:(lia)).
  pose proof (Nat.div_mod i m ltac:(lia)).
  unfold roll_f, mget at 1, ldim. simpl.
  destruct (Hin (i mod m) (i / m * n + j)) as [HQ _]; [lia|nia|]. rewrite HQ.
  unfold unroll_f. destruct (dm_pack n (i / m) j Hj) as [-> ->]. f_equal. lia.
Qed.
End P.
