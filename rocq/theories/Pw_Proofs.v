(** Guards of priorities. *)
From Verif Require Import Base BaseLemmas Pw_Model Pw_Spec.

Definition always : nat -> bool := fun _ => true.

Lemma upd_nth_error {A} (l : list A) i v j :
  nth_error (upd l i v) j = if (j =? i) && (i <? length l) then Some v else nth_error l j.
Proof.
  revert i j. induction l as [|a l IH]; intros i j; cbn [upd].
  - cbn [length]. destruct i; cbn; destruct j; cbn; rewrite ?andb_false_r; reflexivity.
  - destruct i as [|i]; cbn [length].
    + destruct j as [|j]; reflexivity.
    + destruct j as [|j]; [reflexivity|]. cbn [nth_error]. rewrite IH. reflexivity.
Qed.
Lemma upd_len {A} (l : list A) i v : length (upd l i v) = length l.
Proof. revert i. induction l as [|a l IH]; intros [|i]; cbn; auto. Qed.
Lemma repeat_ext {A} (l : list A) v : (forall j, j < length l -> nth_error l j = Some v) -> l = repeat v (length l).
Proof.
  induction l as [|a l IH]; intros H; [reflexivity|]. cbn. f_equal.
  - specialize (H 0 ltac:(cbn; lia)). cbn in H. congruence.
  - apply IH. intros j Hj. exact (H (S j) ltac:(cbn; lia)).
Qed.

Lemma restore_spec p : forall n i s, i + n <= length (os_wrk s) ->
  let s' := restore_wrk always i n p s in
  os_class s' = os_class s /\ os_main s' = os_main s /\ length (os_wrk s') = length (os_wrk s) /\
  forall j, nth_error (os_wrk s') j = if (i <=? j) && (j <? i + n) then Some p else nth_error (os_wrk s) j.
Proof.
  induction n as [|n IH]; intros i s Hn; cbn [restore_wrk].
  - split; [reflexivity|]. split; [reflexivity|]. split; [reflexivity|]. intros j.
    destruct (Nat.leb_spec i j); destruct (Nat.ltb_spec j (i + 0)); cbn [andb]; try reflexivity. lia.
  - set (s1 := tick (mkOs (os_class s) (os_main s) (upd (os_wrk s) i p) (os_calls s))).
    change (snd (set_wrk always i p s)) with s1. cbn zeta.
    assert (L1 : length (os_wrk s1) = length (os_wrk s)) by (unfold s1; cbn; apply upd_len).
    pose proof (IH (S i) s1 ltac:(lia)) as HI. cbn zeta in HI. destruct HI as (H1 & H2 & H3 & H4).
    split; [rewrite H1; reflexivity|]. split; [rewrite H2; reflexivity|]. split; [rewrite H3; exact L1|].
    intros j. rewrite H4. unfold s1. cbn [tick os_wrk]. rewrite upd_nth_error.
    destruct (Nat.leb_spec (S i) j); destruct (Nat.ltb_spec j (S i + n)); destruct (Nat.leb_spec i j); destruct (Nat.ltb_spec j (i + S n));
      destruct (Nat.eqb_spec j i); destruct (Nat.ltb_spec i (length (os_wrk s))); cbn [andb]; try reflexivity; lia.
Qed.

Lemma raise_spec ok p orig : forall n i s, i + n <= length (os_wrk s) ->
  let '(b, s') := raise_wrk ok always i n p orig s in
  os_class s' = os_class s /\ os_main s' = os_main s /\ length (os_wrk s') = length (os_wrk s) /\
  (b = true -> forall j, nth_error (os_wrk s') j = if (i <=? j) && (j <? i + n) then Some p else nth_error (os_wrk s) j) /\
  (b = false -> exists k, i <= k < i + n /\
     forall j, nth_error (os_wrk s') j = if j <? k then Some orig else nth_error (os_wrk s) j).
Proof.
  induction n as [|n IH]; intros i s Hn; cbn [raise_wrk].
  - split; [reflexivity|]. split; [reflexivity|]. split; [reflexivity|]. split; [|discriminate]. intros _ j.
    destruct (Nat.leb_spec i j); destruct (Nat.ltb_spec j (i + 0)); cbn [andb]; try reflexivity. lia.
  - unfold set_wrk. destruct (ok (os_calls s)).
    + set (s1 := tick (mkOs (os_class s) (os_main s) (upd (os_wrk s) i p) (os_calls s))).
      assert (L1 : length (os_wrk s1) = length (os_wrk s)) by (unfold s1; cbn; apply upd_len).
      specialize (IH (S i) s1). destruct (raise_wrk ok always (S i) n p orig s1) as [b s'].
      destruct IH as (H1 & H2 & H3 & H4 & H5); [lia|].
      assert (N1 : forall j, nth_error (os_wrk s1) j = if j =? i then Some p else nth_error (os_wrk s) j).
      { intros j. unfold s1. cbn [tick os_wrk]. rewrite upd_nth_error. destruct (Nat.ltb_spec i (length (os_wrk s))); [|lia].
        rewrite andb_true_r. reflexivity. }
      split; [rewrite H1; reflexivity|]. split; [rewrite H2; reflexivity|]. split; [rewrite H3; exact L1|]. split.
      * intros Hb j. rewrite (H4 Hb), N1.
        destruct (Nat.leb_spec (S i) j); destruct (Nat.ltb_spec j (S i + n)); destruct (Nat.leb_spec i j); destruct (Nat.ltb_spec j (i + S n));
          destruct (Nat.eqb_spec j i); cbn [andb]; try reflexivity; lia.
      * intros Hb. destruct (H5 Hb) as (k & Hk & H6). exists k. split; [lia|]. intros j. rewrite H6, N1.
        destruct (Nat.ltb_spec j k); [reflexivity|]. destruct (Nat.eqb_spec j i); [lia|reflexivity].
    + destruct (restore_spec orig i 0 (tick s)) as (H1 & H2 & H3 & H4); [cbn; lia|].
      split; [exact H1|]. split; [exact H2|]. split; [exact H3|]. split; [discriminate|]. intros _.
      exists i. split; [lia|]. intros j. rewrite H4. cbn [Nat.add Nat.leb andb]. reflexivity.
Qed.

(** A failed constructor leaves the priorities of a uniform process alone; with a successful one
    the process is uniform again *)
Lemma construct_spec ok gets md all s : (all = true -> uniform s) ->
  let '(g, s1) := construct ok always gets md all s in
  g_class g = os_class s /\ g_main g = os_main s /\ g_all g = all /\ length (os_wrk s1) = length (os_wrk s) /\
  (g_restore g = false -> same s s1) /\
  (g_restore g = true -> os_class s1 = md_class md /\ os_main s1 = md_prio md /\
     os_wrk s1 = if all then repeat (md_prio md) (length (os_wrk s)) else os_wrk s).
Proof.
  intros HU. unfold construct. destruct gets.
  2:{ cbn. repeat split; discriminate. }
  unfold apply, set_class at 1. destruct (ok (os_calls s)); cbn [negb].
  2:{ cbn. repeat split; discriminate. }
  set (s0 := tick (mkOs (md_class md) (os_main s) (os_wrk s) (os_calls s))).
  unfold set_main at 1. destruct (ok (os_calls s0)).
  - set (s1 := tick (mkOs (os_class s0) (md_prio md) (os_wrk s0) (os_calls s0))).
    destruct all.
    + pose proof (raise_spec ok (md_prio md) (os_main s) (length (os_wrk s1)) 0 s1 (le_n _)) as HR.
      destruct (raise_wrk ok always 0 (length (os_wrk s1)) (md_prio md) (os_main s) s1) as [b s2].
      destruct HR as (H1 & H2 & H3 & H4 & H5). destruct b.
      * cbn [g_class g_main g_all g_restore]. split; [reflexivity|]. split; [reflexivity|]. split; [reflexivity|]. split; [exact H3|].
        split; [discriminate|]. intros _. split; [exact H1|]. split; [exact H2|].
        change (length (os_wrk s)) with (length (os_wrk s1)). rewrite <- H3. apply repeat_ext. intros j Hj. rewrite (H4 eq_refl).
        rewrite H3 in Hj. cbn [Nat.leb andb]. destruct (Nat.ltb_spec j (0 + length (os_wrk s1))); [reflexivity|lia].
      * unfold set_main, set_class, always. cbn [tick os_class os_main os_wrk os_calls snd g_class g_main g_all g_restore].
        split; [reflexivity|]. split; [reflexivity|]. split; [reflexivity|]. split; [exact H3|]. split; [|discriminate].
        intros _. split; [reflexivity|]. split; [reflexivity|]. cbn [os_wrk].
        destruct (H5 eq_refl) as (k & Hk & H6). apply list_eq_bget. intros j. unfold bget. rewrite H6.
        change (os_wrk s1) with (os_wrk s). destruct (Nat.ltb_spec j k) as [Hj|Hj]; [|reflexivity].
        destruct (nth_error (os_wrk s) j) as [q|] eqn:Eq; [rewrite (HU eq_refl j q Eq); reflexivity|].
        apply nth_error_None in Eq. change (length (os_wrk s1)) with (length (os_wrk s)) in Hk. lia.
    + cbn. repeat split; discriminate.
  - unfold set_class, always. cbn. repeat split; discriminate.
Qed.

Lemma destruct_spec g s : g_restore g = true ->
  let s' := destruct_guard always g s in
  os_class s' = g_class g /\ os_main s' = g_main g /\
  os_wrk s' = if g_all g then repeat (g_main g) (length (os_wrk s)) else os_wrk s.
Proof.
  intros Hr. unfold destruct_guard. rewrite Hr.
  set (s1 := snd (set_main always (g_main g) (snd (set_class always (g_class g) s)))).
  destruct (g_all g); [|repeat split].
  pose proof (restore_spec (g_main g) (length (os_wrk s1)) 0 s1 ltac:(cbn; lia)) as HR. cbn zeta in HR. destruct HR as (H1 & H2 & H3 & H4).
  cbn zeta. split; [rewrite H1; reflexivity|]. split; [rewrite H2; reflexivity|].
  change (length (os_wrk s)) with (length (os_wrk s1)). rewrite <- H3 at 2. apply repeat_ext. intros j Hj. rewrite H4. rewrite H3 in Hj. cbn [Nat.leb andb Nat.add].
  destruct (Nat.ltb_spec j (length (os_wrk s1))); [reflexivity|lia].
Qed.

Lemma uniform_repeat s : uniform s -> os_wrk s = repeat (os_main s) (length (os_wrk s)).
Proof.
  intros H. apply repeat_ext. intros j Hj. destruct (nth_error (os_wrk s) j) as [q|] eqn:E; [rewrite (H j q E); reflexivity|].
  apply nth_error_None in E. lia.
Qed.
Lemma same_uniform s s' : same s s' -> uniform s -> uniform s'.
Proof. intros (H1 & H2 & H3) HU i p. rewrite H3, H2. apply HU. Qed.

(** C121 *)
Theorem guard_restores ok gets md all (f : body) s :
  (all = true -> uniform s) -> keeps_threads f ->
  let '(g, s1) := construct ok always gets md all s in
  if g_restore g then
    let s2 := destruct_guard always g (f s1) in
    os_class s2 = os_class s /\ os_main s2 = os_main s /\ (if all then os_wrk s2 = os_wrk s else os_wrk s2 = os_wrk (f s1))
  else same s s1 /\ destruct_guard always g (f s1) = f s1.
Proof.
  intros HU HF. pose proof (construct_spec ok gets md all s HU) as H.
  destruct (construct ok always gets md all s) as [g s1]. destruct H as (H1 & H2 & H3 & H4 & H5 & H6).
  destruct (g_restore g) eqn:Er.
  - destruct (destruct_spec g (f s1) Er) as (D1 & D2 & D3). cbn zeta. rewrite D1, D2, D3, H1, H2, H3.
    split; [reflexivity|]. split; [reflexivity|]. destruct all; [|reflexivity].
    rewrite HF, H4. symmetry. apply uniform_repeat. apply HU. reflexivity.
  - split; [apply H5; reflexivity|]. unfold destruct_guard. rewrite Er. reflexivity.
Qed.

Theorem nested_restore ok : forall gs s, uniform s -> same s (nested ok always gs s).
Proof.
  induction gs as [|[gets md] gs IH]; intros s HU; cbn [nested]; [repeat split|].
  pose proof (construct_spec ok gets md true s (fun _ => HU)) as H.
  destruct (construct ok always gets md true s) as [g s1]. destruct H as (H1 & H2 & H3 & H4 & H5 & H6).
  destruct (g_restore g) eqn:Er.
  - assert (U1 : uniform s1).
    { destruct (H6 eq_refl) as (_ & Hm & Hw). intros i p. rewrite Hw, Hm. intros Hi. apply nth_error_In in Hi. apply repeat_spec in Hi. exact Hi. }
    destruct (IH s1 U1) as (_ & _ & Iw). destruct (destruct_spec g (nested ok always gs s1) Er) as (D1 & D2 & D3).
    split; [congruence|]. split; [congruence|]. rewrite D3, H3, H2, Iw, H4. symmetry. apply uniform_repeat. exact HU.
  - specialize (H5 eq_refl). unfold destruct_guard. rewrite Er.
    destruct (IH s1 (same_uniform _ _ H5 HU)) as (I1 & I2 & I3). destruct H5 as (S1 & S2 & S3).
    split; [congruence|]. split; congruence.
Qed.

Lemma raise_ok ok p orig : forall n i s,
  fst (raise_wrk ok always i n p orig s) = true <-> forall k, k < n -> ok (os_calls s + k) = true.
Proof.
  induction n as [|n IH]; intros i s; cbn [raise_wrk].
  - split; [intros _ k Hk; lia|reflexivity].
  - unfold set_wrk. destruct (ok (os_calls s)) eqn:E.
    + rewrite IH. cbn [tick os_calls]. split; intros H k Hk.
      * destruct k as [|k]; [rewrite Nat.add_0_r; exact E|]. specialize (H k ltac:(lia)). rewrite Nat.add_succ_r. exact H.
      * specialize (H (S k) ltac:(lia)). rewrite Nat.add_succ_r in H. exact H.
    + cbn [fst]. split; [discriminate|]. intros H. specialize (H 0 ltac:(lia)). rewrite Nat.add_0_r in H. congruence.
Qed.
Lemma raise_fail ok p orig : forall n i s, i + n <= length (os_wrk s) ->
  fst (raise_wrk ok always i n p orig s) = false ->
  exists k, k < n /\ ok (os_calls s + k) = false /\
    forall j, nth_error (os_wrk (snd (raise_wrk ok always i n p orig s))) j = if j <? i + k then Some orig else nth_error (os_wrk s) j.
Proof.
  induction n as [|n IH]; intros i s Hn; cbn [raise_wrk]; [discriminate|].
  unfold set_wrk. destruct (ok (os_calls s)) eqn:E.
  - set (s1 := tick (mkOs (os_class s) (os_main s) (upd (os_wrk s) i p) (os_calls s))).
    assert (L1 : length (os_wrk s1) = length (os_wrk s)) by (unfold s1; cbn; apply upd_len).
    intros Hb. destruct (IH (S i) s1 ltac:(lia) Hb) as (k & Hk & Hok & H). exists (S k). split; [lia|].
    split; [rewrite Nat.add_succ_r; exact Hok|]. intros j. rewrite H. unfold s1. cbn [tick os_wrk]. rewrite upd_nth_error.
    destruct (Nat.ltb_spec j (S i + k)); destruct (Nat.ltb_spec j (i + S k)); destruct (Nat.eqb_spec j i); cbn [andb]; try reflexivity; lia.
  - intros _. exists 0. split; [lia|]. rewrite !Nat.add_0_r. split; [exact E|]. cbn [snd]. intros j.
    pose proof (restore_spec orig i 0 (tick s) ltac:(cbn; lia)) as HR. cbn zeta in HR. destruct HR as (_ & _ & _ & H4).
    rewrite H4. reflexivity.
Qed.

Lemma construct_gen ok gets md all s :
  let '(g, s1) := construct ok always gets md all s in
  (g_restore g = false -> os_class s1 = os_class s /\ os_main s1 = os_main s) /\
  (g_restore g = true -> os_class s1 = md_class md /\ os_main s1 = md_prio md /\
     os_wrk s1 = if all then repeat (md_prio md) (length (os_wrk s)) else os_wrk s).
Proof.
  unfold construct. destruct gets.
  2:{ cbn. repeat split; discriminate. }
  unfold apply, set_class at 1. destruct (ok (os_calls s)); cbn [negb].
  2:{ cbn. repeat split; discriminate. }
  set (s0 := tick (mkOs (md_class md) (os_main s) (os_wrk s) (os_calls s))).
  unfold set_main at 1. destruct (ok (os_calls s0)).
  - set (s1 := tick (mkOs (os_class s0) (md_prio md) (os_wrk s0) (os_calls s0))).
    destruct all.
    + pose proof (raise_spec ok (md_prio md) (os_main s) (length (os_wrk s1)) 0 s1 (le_n _)) as HR.
      destruct (raise_wrk ok always 0 (length (os_wrk s1)) (md_prio md) (os_main s) s1) as [b s2].
      destruct HR as (H1 & H2 & H3 & H4 & H5). destruct b.
      * cbn [g_restore]. split; [discriminate|]. intros _. split; [exact H1|]. split; [exact H2|].
        change (length (os_wrk s)) with (length (os_wrk s1)). rewrite <- H3. apply repeat_ext. intros j Hj. rewrite (H4 eq_refl).
        rewrite H3 in Hj. cbn [Nat.leb andb]. destruct (Nat.ltb_spec j (0 + length (os_wrk s1))); [reflexivity|lia].
      * cbn. repeat split; discriminate.
    + cbn. repeat split; discriminate.
  - cbn. repeat split; discriminate.
Qed.

(** C122 *)
Theorem raised ok gets md all s :
  let '(g, s1) := construct ok always gets md all s in
  (g_restore g = false -> os_class s1 = os_class s /\ os_main s1 = os_main s) /\
  (g_restore g = true -> os_class s1 = md_class md /\ os_main s1 = md_prio md /\
     os_wrk s1 = if all then repeat (md_prio md) (length (os_wrk s)) else os_wrk s) /\
  ((forall k, ok k = true) -> gets = true -> g_restore g = true).
Proof.
  pose proof (construct_gen ok gets md all s) as H.
  destruct (construct ok always gets md all s) as [g s1] eqn:E. destruct H as (H5 & H6).
  split; [exact H5|]. split; [exact H6|]. intros Hok ->.
  unfold construct, apply, set_class at 1, set_main at 1 in E. rewrite !Hok in E. cbn [negb] in E.
  destruct all.
  - match type of E with context [raise_wrk ok always 0 ?n ?p ?o ?t] =>
      pose proof (proj2 (raise_ok ok p o n 0 t) (fun k _ => Hok _)) as HT; destruct (raise_wrk ok always 0 n p o t) as [b t'] end.
    cbn in HT. subst b. injection E as <- _. reflexivity.
  - injection E as <- _. reflexivity.
Qed.

Theorem change_gen ok below s :
  let '(b, s') := change_priorities ok always below s in
  os_class s' = os_class s /\ os_main s' = os_main s /\
  (b = true <-> forall k, k < length (os_wrk s) -> ok (os_calls s + k) = true) /\
  (b = true -> os_wrk s' = repeat (os_main s - below)%Z (length (os_wrk s))) /\
  (b = false -> exists k, k < length (os_wrk s) /\ ok (os_calls s + k) = false /\
     os_wrk s' = repeat (os_main s) k ++ skipn k (os_wrk s)).
Proof.
  unfold change_priorities. pose proof (raise_spec ok (os_main s - below)%Z (os_main s) (length (os_wrk s)) 0 s (le_n _)) as HR.
  pose proof (raise_ok ok (os_main s - below)%Z (os_main s) (length (os_wrk s)) 0 s) as HO.
  pose proof (raise_fail ok (os_main s - below)%Z (os_main s) (length (os_wrk s)) 0 s (le_n _)) as HF.
  destruct (raise_wrk _ _ _ _ _ _ _) as [b s']. cbn [fst snd] in HO, HF. destruct HR as (H1 & H2 & H3 & H4 & _).
  split; [exact H1|]. split; [exact H2|]. split; [exact HO|]. split.
  - intros Hb. rewrite <- H3. apply repeat_ext. intros j Hj. rewrite H3 in Hj.
    rewrite (H4 Hb). cbn [Nat.leb andb Nat.add]. destruct (Nat.ltb_spec j (length (os_wrk s))); [reflexivity|lia].
  - intros Hb. destruct (HF Hb) as (k & Hk & Hok & H). exists k. split; [exact Hk|]. split; [exact Hok|].
    apply list_eq_bget. intros j. unfold bget. rewrite H. cbn [Nat.add].
    destruct (Nat.ltb_spec j k) as [Hj|Hj].
    + rewrite nth_error_app1 by (rewrite repeat_length; exact Hj). symmetry. apply nth_error_repeat. exact Hj.
    + rewrite nth_error_app2 by (rewrite repeat_length; exact Hj). rewrite repeat_length.
      rewrite <- (firstn_skipn k (os_wrk s)) at 1. rewrite nth_error_app2 by (rewrite firstn_length_le; lia).
      rewrite firstn_length_le by lia. reflexivity.
Qed.
