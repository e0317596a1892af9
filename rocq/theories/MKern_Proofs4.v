From Coq Require Import Permutation.
From Verif Require Import Base BaseLemmas Workers_Model Workers_Spec
  Kern_Model Kern_Spec Kern_Proofs MKern_Model MKern_Spec MKern_Proofs MKern_Proofs2 MKern_Proofs3.

Definition prefix (spec : list nat) (x : nat) := list_sum (firstn x spec).

Lemma clone_from_nth spec : forall k s c,
  s < length spec -> prefix spec s <= c < prefix spec (S s) ->
  nth_error (flat_map (fun '(i, n) => repeat i n) (combine (seq k (length spec)) spec)) c = Some (k + s).
Proof.
  unfold prefix. induction spec as [|x spec IH]; intros k s c Hs Hc; simpl in Hs; [lia|].
  cbn [length seq combine flat_map].
  destruct s as [|s].
  - simpl in Hc. rewrite nth_error_app1 by (rewrite repeat_length; lia).
    rewrite Nat.add_0_r. apply nth_error_repeat. lia.
  - rewrite !firstn_cons in Hc.
    assert (E : forall l, list_sum (x :: l) = x + list_sum l) by reflexivity. rewrite !E in Hc.
    rewrite nth_error_app2 by (rewrite repeat_length; lia). rewrite repeat_length.
    rewrite (IH (S k) s (c - x)); [f_equal; lia|lia|].
    lia.
Qed.

Lemma clone_map_nth spec s c :
  s < length spec -> prefix spec s <= c < prefix spec (S s) -> nth_error (clone_map spec) c = Some s.
Proof. intros. unfold clone_map. rewrite (clone_from_nth spec 0 s c) by assumption. reflexivity. Qed.

Lemma prefix_S spec s x : nth_error spec s = Some x -> prefix spec (S s) = prefix spec s + x.
Proof.
  unfold prefix. revert s. induction spec as [|y spec IH]; intros [|s] H; simpl in H; try discriminate.
  - inversion H; subst. simpl. lia.
  - rewrite !firstn_cons. assert (E : forall l, list_sum (y :: l) = y + list_sum l) by reflexivity.
    rewrite !E. rewrite (IH _ H). lia.
Qed.

Lemma prefix_all spec : prefix spec (length spec) = list_sum spec.
Proof. unfold prefix. rewrite firstn_all. reflexivity. Qed.

Lemma locate spec c : c < list_sum spec ->
  exists s, s < length spec /\ prefix spec s <= c < prefix spec (S s).
Proof.
  rewrite <- prefix_all. generalize (le_n (length spec)). generalize (length spec) at 1 3.
  induction n as [|n IH]; intros Hl Hc; [unfold prefix in Hc; simpl in Hc; lia|].
  destruct (Nat.lt_ge_cases c (prefix spec n)) as [L|L].
  - apply IH; lia.
  - exists n. split; [lia|]. lia.
Qed.

Lemma find_cs_spec spec : forall c k q, Forall (fun x => 0 < x) spec ->
  q <= c -> (c = q -> 0 < length spec) -> c < q + list_sum spec \/ c = q + list_sum spec /\ 0 < length spec ->
  exists s, s < length spec /\ find_cs spec c k q = (k + s, q + prefix spec (S s) - c) /\
    c <= q + prefix spec (S s) /\ (q < c -> q + prefix spec s < c) /\ (q = c -> s = 0).
Proof.
  induction spec as [|x spec IH]; intros c k q HF Hq H0 Hc.
  { simpl in Hc, H0. lia. }
  inversion HF as [|? ? Hx HF']; subst. cbn [find_cs].
  assert (E : forall l, list_sum (x :: l) = x + list_sum l) by reflexivity.
  destruct (Nat.leb_spec c (q + x)) as [L|L].
  - exists 0. unfold prefix. simpl. rewrite !Nat.add_0_r.
    split; [lia|]. split; [f_equal; lia|]. lia.
  - rewrite E in Hc.
    destruct (IH c (k + 1) (q + x)) as (s & H1 & H2 & H3 & H4 & H5); [assumption|lia|lia| |].
    { destruct spec; simpl in *; lia. }
    exists (S s). split; [simpl; lia|]. rewrite H2.
    unfold prefix in *. rewrite !firstn_cons, !E. split; [f_equal; lia|]. split; [|split; lia].
    lia.
Qed.

Section P.
Context {A : Type}.
Implicit Types src dest : mtx A.

Lemma counts_le spec s x : nth_error spec s = Some x -> x <= list_sum spec.
Proof.
  revert s. induction spec as [|y spec IH]; intros [|s] H; simpl in H; try discriminate.
  - inversion H; subst. simpl. lia.
  - apply IH in H. change (list_sum (y :: spec)) with (y + list_sum spec). lia.
Qed.

Lemma clone_cols_range src dest spec f c : clone_shapes src dest spec ->
  0 < c -> f + c <= m_cols dest ->
  exists t, mCloneCols_st src dest spec f (f + c) = Some t /\
  (forall a v, In (a, v) t <-> exists i j, i < m_rows dest /\ j < m_cols dest /\ a = i + m_rows dest * j /\
      clone_f src spec i j = Some v /\ f <= j < f + c).
Proof.
  intros [] Hc Hb. unfold mCloneCols_st.
  rewrite firstn_all2 by lia. rewrite last_col_range by exact Hc.
  assert (HP : forall s, s < length spec -> exists x, nth_error spec s = Some x /\ 0 < x).
  { intros s Hs. destruct (nth_error spec s) as [x|] eqn:E; [|apply nth_error_None in E; lia].
    exists x. split; [reflexivity|]. rewrite Forall_forall in cs_counts. apply cs_counts.
    eapply nth_error_In; eauto. }
  destruct (find_cs_spec spec f 0 0) as (s0 & Hs0 & Ef & Hle & Hlt & H00); [assumption|lia|lia|lia|].
  rewrite Ef. simpl plus in *. clear Ef.
  (* s0 is the source column of f-1 *)
  assert (Hloc : forall j, j < m_cols dest -> exists s, s < length spec /\ prefix spec s <= j < prefix spec (S s))
    by (intros j Hj; apply locate; lia).
  pose (sc := fun j => nth j (clone_map spec) 0).
  assert (Hsc : forall j s, s < length spec -> prefix spec s <= j < prefix spec (S s) -> sc j = s).
  { intros j s H1 H2. unfold sc. apply nth_error_nth. apply clone_map_nth; assumption. }
  assert (Hs0sc : s0 = sc (f - 1)).
  { symmetry. apply Hsc; [exact Hs0|]. destruct f as [|f].
    - rewrite H00 by reflexivity. destruct (HP 0 ltac:(lia)) as (x & Ex & Hx).
      rewrite (prefix_S _ _ _ Ex). unfold prefix. simpl. lia.
    - lia. }
  assert (Hmono : forall s, s < length spec -> prefix spec s < prefix spec (S s)).
  { intros s Hs. destruct (HP s Hs) as (x & Ex & Hx). rewrite (prefix_S _ _ _ Ex). lia. }
  assert (Hmono2 : forall s s', s <= s' -> s' <= length spec -> prefix spec s <= prefix spec s').
  { intros s s' H. induction H as [|s' H IH]; intros HH; [lia|]. specialize (Hmono s' ltac:(lia)). lia. }
  assert (Hcl : prefix spec (S s0) - f <= m_cols dest).
  { pose proof (Hmono2 (S s0) (length spec) ltac:(lia) ltac:(lia)) as Hm. rewrite prefix_all in Hm. lia. }
  destruct (Nat.ltb_spec s0 (m_cols src)) as [_|]; [|lia].
  destruct (Nat.leb_spec (prefix spec (S s0) - f) (m_cols dest)) as [_|]; [|lia]. simpl andb. cbv iota.
  rewrite <- cs_rows. unfold col_ofs, ldim. rewrite <- cs_rows.
  set (R := m_rows src) in *.
  pose (st := fun i => let s := sc (f + i - 1) in ((Z.of_nat (prefix spec (S s)) - Z.of_nat (f + i))%Z, R * s, s + 1)).
  rewrite (ptr_loop_closed' c (R * f) _ R _ _ st
    (fun i => mc (m_data src) (R * sc (f + i)) (R * (f + i)) R)).
  - cbn [obind]. eexists. split; [reflexivity|]. intros a v. rewrite in_flat_map.
    assert (Hf : forall i j, i < R -> j < m_cols dest -> clone_f src spec i j = bget (m_data src) (R * sc j + i)).
    { intros i j Hi Hj. destruct (Hloc j Hj) as (s & Hs & Hs2). unfold clone_f.
      rewrite (clone_map_nth spec s j) by assumption. rewrite (Hsc j s) by assumption.
      cbn [obind]. unfold mget, ldim. fold R. f_equal. lia. }
    split.
    + intros (i & Hi & Hin). apply in_seq in Hi.
      apply in_mc in Hin. destruct Hin as (t & Ht & -> & Hv).
      exists t, (f + i). split; [exact Ht|]. split; [lia|]. split; [lia|].
      rewrite Hf by lia. split; [exact Hv|lia].
    + intros (i & j & Hi & Hj & -> & Hv & Ho).
      exists (j - f). split; [apply in_seq; lia|].
      replace (f + (j - f)) with j by lia. apply in_mc. exists i. split; [exact Hi|]. split; [lia|].
      rewrite Hf in Hv by assumption. exact Hv.
  - unfold st. rewrite Nat.add_0_r, <- Hs0sc. cbv zeta. f_equal. f_equal. lia.
  - exact cs_pos.
  - ring.
  - intros i Hi. unfold st. cbv zeta.
    replace (f + (i + 1) - 1) with (f + i) by lia. replace (R * f + i * R) with (R * (f + i)) by ring.
    replace (f + (i + 1)) with (S (f + i)) by lia.
    remember (f + i) as j eqn:Ej.
    destruct (Hloc j ltac:(lia)) as (s & Hs & Hs2).
    assert (Hrng : R * s + R <= length (m_data src)).
    { unfold alloc, numel in *. fold R in cs_src. nia. }
    rewrite (Hsc j s) by assumption.
    destruct (Z.eqb_spec (Z.of_nat (prefix spec (S (sc (j - 1)))) - Z.of_nat j) 0) as [Ez|Ez].
    + (* next source column *)
      assert (Hj : 0 < j).
      { destruct j; [|lia]. simpl in Ez. rewrite Hsc with (s := 0) in Ez; [|lia|].
        - specialize (Hmono 0 ltac:(lia)). lia.
        - specialize (Hmono 0 ltac:(lia)). unfold prefix at 1. simpl. lia. }
      destruct (Hloc (j - 1) ltac:(lia)) as (s' & Hs' & Hs2').
      rewrite (Hsc (j - 1) s') in * by assumption.
      assert (Es : s = S s').
      { destruct (Nat.lt_trichotomy s (S s')) as [L|[L|L]]; [|exact L|].
        - pose proof (Hmono2 (S s) (S s') ltac:(lia) ltac:(lia)). lia.
        - pose proof (Hmono2 (S (S s')) s ltac:(lia) ltac:(lia)). specialize (Hmono (S s') ltac:(lia)). lia. }
      destruct (HP s Hs) as (x & Ex & Hx). replace (s' + 1) with s by lia.
      unfold bget at 1. rewrite Ex. cbn [obind].
      replace (R * s' + R) with (R * s) by (subst s; ring).
      rewrite memcpy_closed by exact Hrng. cbn [obind]. f_equal. f_equal.
      f_equal. f_equal. rewrite (prefix_S _ _ _ Ex). subst s. lia.
    + assert (Es : sc (j - 1) = s).
      { destruct j as [|j]; [simpl; apply Hsc; assumption|]. simpl. rewrite Nat.sub_0_r.
        destruct (Hloc j ltac:(lia)) as (s' & Hs' & Hs2').
        simpl in Ez. rewrite Nat.sub_0_r in Ez. rewrite (Hsc j s') in * by assumption.
        destruct (Nat.lt_trichotomy s s') as [L|[L|L]]; [|lia|].
        - pose proof (Hmono2 (S s) s' ltac:(lia) ltac:(lia)). lia.
        - pose proof (Hmono2 (S s') s ltac:(lia) ltac:(lia)). lia. }
      rewrite Es. cbn [obind]. rewrite memcpy_closed by exact Hrng. cbn [obind]. f_equal. f_equal.
      f_equal. f_equal. lia.
Qed.

Lemma clone_bounds src dest spec : clone_shapes src dest spec ->
  forall i j, i < m_rows dest -> j < m_cols dest ->
  i + m_rows dest * j < length (m_data dest) /\ j < m_cols dest /\ clone_f src spec i j <> None.
Proof.
  intros [] i j Hi Hj. split; [unfold alloc, numel in *; nia|]. split; [exact Hj|].
  destruct (locate spec j ltac:(lia)) as (s & Hs & Hs2).
  unfold clone_f. rewrite (clone_map_nth spec s j) by assumption. cbn [obind].
  apply mget_some; auto; lia.
Qed.

Lemma clone_cols_correct thr parts src dest spec : clone_shapes src dest spec ->
  tiles parts (m_cols dest) ->
  computes (mCloneCols thr parts src dest spec) (m_data dest)
    (holds_block (m_rows dest) (m_rows dest) (m_cols dest) (clone_f src spec) (m_data dest)).
Proof.
  intros HS HT. pose proof (clone_bounds _ _ _ HS) as HB.
  assert (Hgen : forall ps, tiles ps (m_cols dest) ->
    computes (par (on_range (mCloneCols_st src dest spec)) ps) (m_data dest)
    (holds_block (m_rows dest) (m_rows dest) (m_cols dest) (clone_f src spec) (m_data dest))).
  { intros ps HP. apply (computes_block _ _ (m_cols dest) _ _ _ _ _ (fun i j => j)); [exact HP|lia|exact HB|].
    intros p _ Hp1 Hp2. apply clone_cols_range; assumption. }
  unfold mCloneCols. destruct (_ <? thr); [|auto].
  assert (Hpos : 0 < m_cols dest).
  { destruct HS. rewrite <- cs_sum. destruct spec as [|x spec]; [simpl in cs_len; lia|].
    inversion cs_counts; subst. simpl. lia. }
  assert (E : (do w <- mCloneCols_st src dest spec 0 0; Some [w])
              = par (on_range (mCloneCols_st src dest spec)) (whole (m_cols dest))).
  { unfold whole, par, on_range. simpl r_ofs. simpl r_cnt. simpl plus. unfold mCloneCols_st.
    replace (last_col (m_cols dest) (m_cols dest)) with (last_col 0 (m_cols dest))
      by (unfold last_col; destruct (Nat.eqb_spec (m_cols dest) 0); simpl; auto).
    match goal with |- obind ?x _ = _ => destruct x; reflexivity end. }
  rewrite E. apply Hgen. apply whole_tiles. exact Hpos.
Qed.

Lemma clone_col_correct thr parts src dest :
  m_rows src = m_rows dest -> 0 < m_rows src -> 0 < m_cols src -> 0 < m_cols dest -> alloc src -> alloc dest ->
  tiles parts (m_cols dest) ->
  computes (mCloneCol thr parts src dest) (m_data dest)
    (holds_block (m_rows dest) (m_rows dest) (m_cols dest) (fun i j => mget src i 0) (m_data dest)).
Proof.
  intros HR HR0 HC HD AS AD HT.
  assert (Hgen : forall ps, tiles ps (m_cols dest) ->
    computes (par (on_range (mCloneCol_st src dest)) ps) (m_data dest)
    (holds_block (m_rows dest) (m_rows dest) (m_cols dest) (fun i j => mget src i 0) (m_data dest))).
  { intros ps HP. apply (computes_block _ _ (m_cols dest) _ _ _ _ _ (fun i j => j)); [exact HP|lia| |].
    { intros i j Hi Hj. split; [unfold alloc, numel in *; nia|]. split; [exact Hj|].
      apply mget_some; auto; lia. }
    intros p _ Hp1 Hp2. unfold on_range, mCloneCol_st. rewrite last_col_range by exact Hp1.
    unfold col_ofs, ldim. rewrite <- HR. set (R := m_rows src) in *.
    rewrite (ptr_loop_closed' (r_cnt p) (R * r_ofs p) _ R _ _ (fun _ => tt)
      (fun i => mc (m_data src) 0 (R * (r_ofs p + i)) R)).
    - cbn [obind]. eexists. split; [reflexivity|]. intros a v. rewrite in_flat_map. split.
      + intros (i & Hi & Hin). apply in_seq in Hi.
        apply in_mc in Hin. destruct Hin as (t & Ht & -> & Hv).
        exists t, (r_ofs p + i). split; [exact Ht|]. split; [lia|]. split; [lia|].
        unfold mget. rewrite Nat.mul_0_r, Nat.add_0_r. split; [exact Hv|lia].
      + intros (i & j & Hi & Hj & -> & Hv & Ho).
        exists (j - r_ofs p). split; [apply in_seq; lia|].
        replace (r_ofs p + (j - r_ofs p)) with j by lia. apply in_mc. exists i.
        split; [exact Hi|]. split; [lia|]. unfold mget in Hv. rewrite Nat.mul_0_r, Nat.add_0_r in Hv. exact Hv.
    - reflexivity.
    - exact HR0.
    - ring.
    - intros i Hi. replace (R * r_ofs p + i * R) with (R * (r_ofs p + i)) by ring.
      rewrite memcpy_closed; [reflexivity|]. unfold alloc, numel in *. fold R in AS. nia. }
  unfold mCloneCol. destruct (_ <? thr); [|auto].
  assert (E : (do w <- mCloneCol_st src dest 0 0; Some [w])
              = par (on_range (mCloneCol_st src dest)) (whole (m_cols dest))).
  { unfold whole, par, on_range. simpl r_ofs. simpl r_cnt. simpl plus. unfold mCloneCol_st.
    replace (last_col (m_cols dest) (m_cols dest)) with (last_col 0 (m_cols dest))
      by (unfold last_col; destruct (Nat.eqb_spec (m_cols dest) 0); simpl; auto).
    match goal with |- obind ?x _ = _ => destruct x; reflexivity end. }
  rewrite E. apply Hgen. apply whole_tiles. exact HD.
Qed.
End P.
