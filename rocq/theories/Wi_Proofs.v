(** Proofs about static initialisation of weights. *)
From Coq Require Import Reals Lra Permutation.
From Verif Require Import Base BaseLemmas Kern_Model Rng_Model TData_Model TData_Spec TData_Proofs2 Wi_Model Wi_Spec.
Local Open Scope nat_scope.

Lemma bset_nth (b b' : list R) i v : bset b i v = Some b' -> i < length b /\ length b' = length b /\ forall k, nth k b' 0%R = if k =? i then v else nth k b 0%R.
Proof.
  intros H. destruct (bset_some _ _ _ _ H) as (H1 & H2 & H3). split; [exact H1|]. split; [exact H2|]. intros k. specialize (H3 k). unfold bget in H3.
  destruct (Nat.eqb_spec k i).
  - apply nth_error_nth. exact H3.
  - destruct (nth_error b k) as [y|] eqn:E.
    + rewrite (nth_error_nth _ _ _ H3), (nth_error_nth _ _ _ E). reflexivity.
    + apply nth_error_None in E, H3. rewrite !nth_overflow by lia. reflexivity.
Qed.

(** a loop that writes [v i] at [p i] *)
Lemma write_loop (p : nat -> nat) (v : nat -> R) n : forall lo b, (forall i, lo <= i < lo + n -> p i < length b) ->
  exists b', for_loop lo n (fun i b => bset b (p i) (v i)) b = Some b' /\ length b' = length b /\
    (forall k, (forall i, lo <= i < lo + n -> p i <> k) -> nth k b' 0%R = nth k b 0%R) /\
    ((forall i j, lo <= i < lo + n -> lo <= j < lo + n -> p i = p j -> i = j) -> forall i, lo <= i < lo + n -> nth (p i) b' 0%R = v i).
Proof.
  induction n as [|n IH]; intros lo b Hp.
  - exists b. cbn. do 3 (split; [try reflexivity|]); intros; lia || reflexivity.
  - cbn [for_loop]. destruct (bset_lt b (p lo) (v lo)) as [b1 E1]; [apply Hp; lia|]. rewrite E1. cbn [obind].
    destruct (bset_nth _ _ _ _ E1) as (_ & L1 & N1). destruct (IH (S lo) b1) as (b' & E & L & N & V); [intros i Hi; rewrite L1; apply Hp; lia|].
    exists b'. split; [exact E|]. split; [lia|]. split.
    + intros k Hk. rewrite N by (intros i Hi; apply Hk; lia). rewrite N1. destruct (Nat.eqb_spec k (p lo)) as [->|]; [|reflexivity]. exfalso. apply (Hk lo); [lia|reflexivity].
    + intros Hinj i Hi. destruct (Nat.eq_dec i lo) as [->|].
      * rewrite N; [rewrite N1, Nat.eqb_refl; reflexivity|]. intros j Hj E2. apply Hinj in E2; lia.
      * apply V; [intros; apply Hinj; auto; lia|lia].
Qed.

Lemma gen_normal_ok sd z p n b : p + n <= length b -> exists b', gen_normal sd z p n b = Some b' /\ length b' = length b /\
  (forall k, p <= k < p + n -> nth k b' 0%R = (sd * z (k - p)%nat)%R) /\ (forall k, ~ p <= k < p + n -> nth k b' 0%R = nth k b 0%R).
Proof.
  intros H. destruct (write_loop (fun i => p + i) (fun i => 0 + sd * z i)%R n 0 b) as (b' & E & L & N & V); [intros; lia|].
  exists b'. split; [exact E|]. split; [exact L|]. split.
  - intros k Hk. replace k with (p + (k - p)) at 1 by lia. rewrite V; [lra|intros; lia|lia].
  - intros k Hk. apply N. intros; lia.
Qed.
Lemma fill_column_ok rows c v b : rows * (c + 1) <= length b -> exists b', fill_column rows c v b = Some b' /\ length b' = length b /\
  (forall k, rows * c <= k < rows * (c + 1) -> nth k b' 0%R = v) /\ (forall k, ~ rows * c <= k < rows * (c + 1) -> nth k b' 0%R = nth k b 0%R).
Proof.
  intros H. destruct (write_loop (fun i => rows * c + i) (fun _ => v) rows 0 b) as (b' & E & L & N & V); [intros; lia|].
  exists b'. split; [exact E|]. split; [exact L|]. split.
  - intros k Hk. replace k with (rows * c + (k - rows * c)) at 1 by lia. apply V; [intros; lia|lia].
  - intros k Hk. apply N. intros; lia.
Qed.
Lemma zeros_ok n b : n <= length b -> exists b', zeros n b = Some b' /\ length b' = length b /\ (forall k, k < n -> nth k b' 0%R = 0%R).
Proof.
  intros H. destruct (write_loop (fun i => i) (fun _ => 0%R) n 0 b) as (b' & E & L & N & V); [intros; lia|].
  exists b'. split; [exact E|]. split; [exact L|]. intros k Hk. apply V; [intros; lia|lia].
Qed.

(** ** He *)
Lemma he_weights_ok sd rows cols z b : 0 < cols -> length b = rows * cols -> exists W, he_weights sd rows cols z b = Some W /\ length W = rows * cols /\
  (forall r c, r < rows -> c < cols - 1 -> at_ rows W r c = (sd * z (r + rows * c)%nat)%R) /\ (forall r, r < rows -> at_ rows W r (cols - 1) = 0%R).
Proof.
  intros Hc Hb. unfold he_weights. destruct (gen_normal_ok sd z 0 (rows * (cols - 1)) b) as (b1 & E1 & L1 & G1 & _); [nia|]. rewrite E1. cbn [obind].
  destruct (fill_column_ok rows (cols - 1) 0%R b1) as (W & E2 & L2 & F1 & F2); [nia|]. exists W. split; [exact E2|]. split; [lia|]. unfold at_. split.
  - intros r c Hr Hcc. rewrite F2 by nia. rewrite G1 by nia. f_equal. f_equal. lia.
  - intros r Hr. apply F1. nia.
Qed.

Lemma he_norm coeff prev : 0 < prev -> (0 <= coeff)%Z -> (he_sd coeff prev * he_sd coeff prev * INR prev = 2 * (millionths coeff * millionths coeff))%R.
Proof.
  intros H Hc. unfold he_sd. assert (0 < INR prev)%R by (apply lt_0_INR; lia). assert (0 <= 2 / INR prev)%R by (apply Rmult_le_pos; [lra|left; apply Rinv_0_lt_compat; assumption]).
  replace (millionths coeff * sqrt (2 / INR prev) * (millionths coeff * sqrt (2 / INR prev)) * INR prev)%R
    with (millionths coeff * millionths coeff * (sqrt (2 / INR prev) * sqrt (2 / INR prev)) * INR prev)%R by ring. rewrite sqrt_sqrt by assumption. field. lra.
Qed.
Lemma millionths_pos x : (0 <= x)%Z -> (0 <= millionths x)%R.
Proof. intros H. apply IZR_le in H. unfold millionths. lra. Qed.
Lemma he2_norm param prev : 0 < prev -> (0 <= param)%Z -> (he2_sd param prev * he2_sd param prev * INR prev = millionths param)%R.
Proof.
  intros H Hc. unfold he2_sd. apply millionths_pos in Hc. assert (0 < INR prev)%R by (apply lt_0_INR; lia).
  rewrite sqrt_sqrt by (apply Rmult_le_pos; [assumption|left; apply Rinv_0_lt_compat; assumption]). field. lra.
Qed.
Lemma xavier_norm coeff rows cols : 0 < rows -> (0 <= coeff)%Z -> (0 <= xavier_scale coeff rows cols)%R /\
  (xavier_scale coeff rows cols * xavier_scale coeff rows cols * INR (rows + cols) = 6 * (millionths coeff * millionths coeff))%R.
Proof.
  intros H Hc. apply millionths_pos in Hc. unfold xavier_scale. assert (P : (0 < INR (rows + cols))%R) by (apply lt_0_INR; lia).
  assert (0 <= 6 / INR (rows + cols))%R by (apply Rmult_le_pos; [lra|left; apply Rinv_0_lt_compat; assumption]). split; [apply Rmult_le_pos; [assumption|apply sqrt_pos]|].
  set (q := (6 / INR (rows + cols))%R) in *. replace (millionths coeff * sqrt q * (millionths coeff * sqrt q) * INR (rows + cols))%R
    with (millionths coeff * millionths coeff * (sqrt q * sqrt q) * INR (rows + cols))%R by ring. rewrite sqrt_sqrt by assumption. unfold q. field. lra.
Qed.

Lemma nth_map_seq (f : nat -> R) n j : j < n -> nth j (map f (seq 0 n)) 0%R = f j.
Proof. intros H. rewrite (nth_indep _ 0%R (f 0)) by (rewrite map_length, seq_length; exact H). rewrite map_nth, seq_nth by exact H. reflexivity. Qed.

(** ** Sparse *)
Section M.
Context (K rows prev : nat) (src : list R) (HK : K <= prev) (Hsrc : length src = K * rows).

Lemma row_ok r idx b : r < rows -> Permutation idx (seq 0 prev) -> length b = rows * (prev + 1) ->
  exists b', martens_row rows K r src idx b = Some b' /\ length b' = length b /\
    (forall j, j < K -> at_ rows b' r (nth j idx 0) = nth (r * K + j) src 0%R) /\
    (forall r' c, r' < rows -> r' <> r \/ ~ In c (firstn K idx) -> at_ rows b' r' c = at_ rows b r' c).
Proof.
  intros Hr HP Hb. pose proof (Permutation_length HP) as HL. rewrite seq_length in HL.
  assert (HN : NoDup idx) by (apply (Permutation_NoDup (Permutation_sym HP)), seq_NoDup).
  assert (HI : forall j, j < K -> nth j idx 0 < prev). { intros j Hj. assert (In (nth j idx 0) (seq 0 prev)) by (apply (Permutation_in _ HP), nth_In; lia). apply in_seq in H. lia. }
  unfold martens_row.
  assert (EB : forall n lo b0, lo + n <= K -> length b0 = length b ->
    for_loop lo n (fun j b => do c <- bget idx j; do v <- bget src (r * K + j); bset b (r + rows * c) v) b0 =
    for_loop lo n (fun j b => bset b (r + rows * nth j idx 0) (nth (r * K + j) src 0%R)) b0).
  { induction n as [|n IH]; intros lo b0 Hn Hl; [reflexivity|]. cbn [for_loop].
    unfold bget. rewrite (nth_error_nth' idx 0) by lia. rewrite (nth_error_nth' src 0%R) by nia. cbn [obind].
    destruct (bset b0 _ _) as [b1|] eqn:E1; [|reflexivity]. cbn [obind]. apply IH; [lia|]. apply bset_nth in E1. lia. }
  rewrite EB by (try reflexivity; lia).
  destruct (write_loop (fun j => r + rows * nth j idx 0) (fun j => nth (r * K + j) src 0%R) K 0 b) as (b' & E & L & N & V).
  { intros i Hi. specialize (HI i ltac:(lia)). nia. }
  exists b'. split; [exact E|]. split; [exact L|]. split.
  - intros j Hj. unfold at_. apply V; [|lia]. intros i k Hi Hk Eq. assert (nth i idx 0 = nth k idx 0) by nia. apply (proj1 (NoDup_nth idx 0) HN) in H; lia.
  - intros r' c Hr' Hor. unfold at_. apply N. intros j Hj Eq. destruct Hor as [Hne|Hni].
    + apply Hne. assert (nth j idx 0 = c); [|nia]. apply (f_equal (fun x => x / rows)) in Eq. rewrite (Nat.mul_comm rows (nth j idx 0)), (Nat.mul_comm rows c) in Eq. rewrite !Nat.div_add in Eq by lia. rewrite !Nat.div_small in Eq by lia. lia.
    + apply Hni. assert (nth j idx 0 = c) as <-.
      { apply (f_equal (fun x => x / rows)) in Eq. rewrite (Nat.mul_comm rows (nth j idx 0)), (Nat.mul_comm rows c) in Eq. rewrite !Nat.div_add in Eq by lia. rewrite !Nat.div_small in Eq by lia. lia. }
      assert (E2 : nth j (firstn K idx) 0 = nth j idx 0). { rewrite <- (firstn_skipn K idx) at 2. rewrite app_nth1; [reflexivity|]. rewrite firstn_length. lia. }
      rewrite <- E2. apply nth_In. rewrite firstn_length. lia.
Qed.

Definition done (b : list R) (r : nat) : Prop := exists cs, length cs = K /\ sparse rows prev b r cs (map (fun j => nth (r * K + j) src 0%R) (seq 0 K)).

Lemma rows_ok (rv : nat -> nat -> nat) : (forall r, rng_ok (rv r)) -> forall n lo idx b, lo + n <= rows -> Permutation idx (seq 0 prev) -> length b = rows * (prev + 1) ->
  (forall r c, lo <= r < rows -> c < prev -> at_ rows b r c = 0%R) ->
  exists idx' b', for_loop lo n (fun r st => let (idx, b) := st : list nat * list R in do idx <- random_shuffle (rv r) idx; do b <- martens_row rows K r src idx b; Some (idx, b)) (idx, b) = Some (idx', b') /\
    length b' = length b /\ (forall r, lo <= r < lo + n -> done b' r) /\
    (forall r c, r < lo \/ prev <= c -> r < rows -> at_ rows b' r c = at_ rows b r c).
Proof.
  intros Hrv. induction n as [|n IH]; intros lo idx b Hn HP Hb Hz.
  - exists idx, b. cbn. split; [reflexivity|]. split; [reflexivity|]. split; [intros; lia|reflexivity].
  - cbn [for_loop]. destruct (shuffle_perm (rv lo) idx (Hrv lo)) as (i1 & E1 & P1). rewrite E1. cbn [obind].
    assert (P2 : Permutation i1 (seq 0 prev)) by (eapply Permutation_trans; eassumption).
    destruct (row_ok lo i1 b ltac:(lia) P2 Hb) as (b1 & E2 & L2 & V2 & N2). rewrite E2. cbn [obind].
    assert (Hlast : forall c, prev <= c -> ~ In c (firstn K i1)).
    { intros c Hc Hi. assert (In c i1) by (rewrite <- (firstn_skipn K i1); apply in_or_app; left; exact Hi). apply (Permutation_in _ P2), in_seq in H. lia. }
    destruct (IH (S lo) i1 b1) as (i' & b' & E & L & D & N); [lia|exact P2|lia| |].
    { intros r c Hr Hc. rewrite N2 by lia. apply Hz; lia. }
    exists i', b'. split; [exact E|]. split; [lia|].
    split.
    + intros r Hr. destruct (Nat.eq_dec r lo) as [->|]; [|apply D; lia]. exists (firstn K i1). pose proof (Permutation_length P2) as HL. rewrite seq_length in HL.
      assert (LF : length (firstn K i1) = K) by (rewrite firstn_length; lia). split; [exact LF|]. split; [rewrite map_length, seq_length; exact LF|].
      split; [assert (ND : NoDup i1) by (apply (Permutation_NoDup (Permutation_sym P2)), seq_NoDup); rewrite <- (firstn_skipn K i1) in ND; clear - ND; induction (firstn K i1) as [|a l IHl]; [constructor|]; cbn in ND; inversion ND; subst; constructor; [intros Hi; apply H1; apply in_or_app; left; exact Hi|apply IHl; assumption]|].
      split; [intros c Hc; destruct (le_lt_dec prev c) as [Q|Q]; [contradiction (Hlast c Q Hc)|exact Q]|].
      assert (EN : forall j, j < K -> nth j (firstn K i1) 0 = nth j i1 0). { intros j Hj. rewrite <- (firstn_skipn K i1) at 2. rewrite app_nth1; [reflexivity|lia]. }
      split.
      * intros j Hj. rewrite LF in Hj. rewrite EN by exact Hj. rewrite N by lia. rewrite V2 by exact Hj.
        rewrite (nth_map_seq (fun j => nth (lo * K + j) src 0%R) K j Hj). reflexivity.
      * intros c Hc Hni. rewrite N by lia. rewrite N2 by (auto; lia). apply Hz; lia.
    + intros r c Hor Hr. rewrite N by (auto; lia). apply N2; [exact Hr|]. destruct Hor; [left; lia|right; auto].
Qed.
End M.

Lemma martens_ok biases stddev K rows cols z rv b : 0 < cols -> length b = rows * cols -> (forall r, rng_ok (rv r)) -> K <= cols - 1 ->
  exists W, martens biases stddev K rows cols true true z rv b = Some (true, W) /\ length W = rows * cols /\
    (forall r, r < rows -> exists cs, sparse rows (cols - 1) W r cs (map (fun j => (millionths stddev * z (r * K + j)%nat)%R) (seq 0 K))) /\
    (forall r, r < rows -> at_ rows W r (cols - 1) = millionths biases).
Proof.
  intros Hc Hb Hrv HK. unfold martens. destruct (zeros_ok (rows * cols) b) as (b1 & E1 & L1 & Z1); [lia|]. rewrite E1. cbn [obind negb].
  destruct (gen_normal_ok (millionths stddev) z 0 (K * rows) (repeat 0%R (K * rows))) as (src & E2 & L2 & G2 & _); [rewrite repeat_length; lia|]. rewrite repeat_length in L2.
  rewrite E2. cbn [obind]. set (prev := cols - 1) in *. assert (HP : cols = prev + 1) by lia.
  destruct (rows_ok K rows prev src HK L2 rv Hrv rows 0 (seq 0 prev) b1) as (i' & b2 & E3 & L3 & D3 & N3); [lia|apply Permutation_refl|nia| |].
  { intros r c Hr Hcc. unfold at_. apply Z1. nia. }
  rewrite E3. cbn [obind].
  assert (DS : forall r, r < rows -> exists cs, sparse rows prev b2 r cs (map (fun j => (millionths stddev * z (r * K + j)%nat)%R) (seq 0 K))).
  { intros r Hr. destruct (D3 r) as (cs & Hl & Hs); [lia|]. exists cs.
    replace (map (fun j => (millionths stddev * z (r * K + j)%nat)%R) (seq 0 K)) with (map (fun j => nth (r * K + j) src 0%R) (seq 0 K)); [exact Hs|].
    apply map_ext_in. intros j Hj. apply in_seq in Hj. rewrite G2 by nia. do 2 f_equal. lia. }
  destruct (Req_EM_T (millionths biases) 0) as [B0|B0].
  - exists b2. split; [reflexivity|]. split; [lia|]. split; [exact DS|]. intros r Hr. rewrite N3 by (auto; right; lia). rewrite B0. unfold at_. apply Z1. nia.
  - destruct (fill_column_ok rows prev (millionths biases) b2) as (W & E4 & L4 & F1 & F2); [nia|]. rewrite E4. cbn [obind]. exists W. split; [reflexivity|]. split; [lia|]. split.
    + intros r Hr. destruct (DS r Hr) as (cs & S1 & S2 & S3 & S4 & S5). exists cs. split; [exact S1|]. split; [exact S2|]. split; [exact S3|]. unfold at_ in *. split.
      * intros j Hj. rewrite F2; [apply S4; exact Hj|]. specialize (S3 (nth j cs 0) (nth_In _ _ Hj)). nia.
      * intros c Hcc Hni. rewrite F2; [apply S5; assumption|]. nia.
    + intros r Hr. unfold at_. apply F1. nia.
Qed.

(** without memory; with too small a previous layer *)
Lemma martens_nomem biases stddev K rows cols m1 m2 z rv b : length b = rows * cols -> m1 && m2 = false ->
  exists W, martens biases stddev K rows cols m1 m2 z rv b = Some (false, W) /\ length W = rows * cols.
Proof.
  intros Hb Hm. unfold martens. destruct (zeros_ok (rows * cols) b) as (b1 & E1 & L1 & _); [lia|]. rewrite E1. cbn [obind]. exists b1.
  destruct m1, m2; try discriminate; cbn [negb]; (split; [reflexivity|lia]).
Qed.
Lemma martens_small biases stddev K rows cols z rv b : length b = rows * cols -> (forall r, rng_ok (rv r)) -> 0 < rows -> cols - 1 < K ->
  martens biases stddev K rows cols true true z rv b = None.
Proof.
  intros Hb Hrv Hr HK. unfold martens. destruct (zeros_ok (rows * cols) b) as (b1 & E1 & L1 & _); [lia|]. rewrite E1. cbn [obind negb].
  destruct (gen_normal _ _ _ _ _) as [src|]; [|reflexivity]. cbn [obind].
  destruct rows as [|rows]; [lia|]. cbn [for_loop]. destruct (shuffle_perm (rv 0) (seq 0 (cols - 1)) (Hrv 0)) as (i1 & E2 & P). rewrite E2. cbn [obind].
  apply Permutation_length in P. rewrite seq_length in P.
  assert (HN : forall lo n b0, lo <= length i1 < lo + n -> for_loop lo n (fun j b => do c <- bget i1 j; do v <- bget src (0 * K + j); bset b (0 + S rows * c) v) b0 = None).
  { intros lo n. revert lo. induction n as [|n IH]; intros lo b0 Hlo; [lia|]. cbn [for_loop]. destruct (Nat.eq_dec lo (length i1)) as [Eq|].
    - rewrite (bget_None i1 lo) by lia. reflexivity.
    - destruct (bget i1 lo); [|reflexivity]. cbn [obind]. destruct (bget src _); [|reflexivity]. cbn [obind]. destruct (bset b0 _ _); [|reflexivity]. cbn [obind]. apply IH. lia. }
  unfold martens_row. rewrite HN by lia. reflexivity.
Qed.

(** ** Orthogonal *)
Section O.
Context (svd : nat -> nat -> list R -> bool * list R) (rows cols : nat) (zs : nat -> nat -> R) (Hsvd : svd_ok svd).
Notation made i := (numbers (rows * cols) (zs i)).

Lemma gen_all z b : length b = rows * cols -> gen_normal 1 z 0 (rows * cols) b = Some (numbers (rows * cols) z).
Proof.
  intros Hb. destruct (gen_normal_ok 1 z 0 (rows * cols) b) as (b' & E & L & G & _); [lia|]. rewrite E. f_equal.
  apply (nth_ext _ _ 0%R 0%R); [unfold numbers; rewrite map_length, seq_length; lia|]. intros k Hk. rewrite G by lia. unfold numbers.
  rewrite (nth_indep _ 0%R (z 0)) by (rewrite map_length, seq_length; lia). rewrite map_nth, seq_nth by lia. rewrite Nat.sub_0_r. cbn [Nat.add]. lra.
Qed.

Lemma tries_ok k : forall i b, length b = rows * cols ->
  exists ok W, ortho_tries svd rows cols zs k i b = Some (ok, W) /\ length W = rows * cols /\
    (ok = true <-> exists j, j < k /\ fst (svd rows cols (made (i + j))) = true) /\
    (ok = true -> orthogonal 1 rows cols W /\
       exists j, j < k /\ W = snd (svd rows cols (made (i + j))) /\ forall j', j' < j -> fst (svd rows cols (made (i + j'))) = false).
Proof.
  induction k as [|k IH]; intros i b Hb.
  - exists false, b. split; [reflexivity|]. split; [exact Hb|]. split; [split; [discriminate|intros (j & H & _); lia]|discriminate].
  - cbn [ortho_tries]. rewrite gen_all by exact Hb. cbn [obind]. assert (LM : length (made i) = rows * cols) by (unfold numbers; rewrite map_length, seq_length; reflexivity).
    destruct (Hsvd rows cols (made i) LM) as [H1 H2]. destruct (svd rows cols (made i)) as [ok b1] eqn:E. cbn [fst snd] in *. destruct ok.
    + exists true, b1. split; [reflexivity|]. split; [exact H1|]. split; [split; [|reflexivity]|].
      * intros _. exists 0. split; [lia|]. rewrite Nat.add_0_r, E. reflexivity.
      * intros _. split; [apply H2; reflexivity|]. exists 0. split; [lia|]. rewrite Nat.add_0_r, E. split; [reflexivity|]. intros; lia.
    + destruct (IH (i + 1) b1 H1) as (ok & W & E2 & L & I1 & I2). exists ok, W. split; [exact E2|]. split; [exact L|]. split.
      * rewrite I1. split.
        -- intros (j & Hj & Hs). exists (S j). split; [lia|]. replace (i + S j) with (i + 1 + j) by lia. exact Hs.
        -- intros ([|j] & Hj & Hs); [rewrite Nat.add_0_r, E in Hs; discriminate|]. exists j. split; [lia|]. replace (i + 1 + j) with (i + S j) by lia. exact Hs.
      * intros Ho. destruct (I2 Ho) as (O1 & j & Hj & O2 & O3). split; [exact O1|]. exists (S j). split; [lia|]. replace (i + S j) with (i + 1 + j) by lia. split; [exact O2|].
        intros [|j'] Hj'; [rewrite Nat.add_0_r, E; reflexivity|]. replace (i + S j') with (i + 1 + j') by lia. apply O3. lia.
Qed.

Lemma sumf_scale n f s : sumf n (fun i => f i * s)%R = (sumf n f * s)%R.
Proof. unfold sumf. induction (seq 0 n) as [|a l IH]; cbn; [lra|]. rewrite IH. lra. Qed.
Lemma sumf_ext n f g : (forall i, f i = g i) -> sumf n f = sumf n g.
Proof. intros H. unfold sumf. f_equal. apply map_ext. exact H. Qed.
Lemma at_map W g r c : at_ rows (map (fun w => w * g)%R W) r c = (at_ rows W r c * g)%R.
Proof. unfold at_. set (k := r + rows * c). destruct (le_lt_dec (length W) k) as [Q|Q]; [rewrite !nth_overflow by (try rewrite map_length; lia); lra|].
  rewrite (nth_indep _ 0%R (0 * g)%R) by (rewrite map_length; exact Q). apply (map_nth (fun w => w * g)%R). Qed.
Lemma orthogonal_scale s g W : orthogonal s rows cols W -> orthogonal (s * (g * g)) rows cols (map (fun w => w * g)%R W).
Proof.
  unfold orthogonal, orthogonal_cols, orthogonal_rows. intros H. destruct (cols <=? rows); intros a b Ha Hb; specialize (H a b Ha Hb).
  - rewrite (sumf_ext _ _ (fun r => (at_ rows W r a * at_ rows W r b) * (g * g))%R) by (intros; rewrite !at_map; ring). rewrite sumf_scale, H. destruct (a =? b); lra.
  - rewrite (sumf_ext _ _ (fun c => (at_ rows W a c * at_ rows W b c) * (g * g))%R) by (intros; rewrite !at_map; ring). rewrite sumf_scale, H. destruct (a =? b); lra.
Qed.

Lemma ortho_ok gain k b : length b = rows * cols ->
  exists ok W, ortho svd rows cols zs gain k b = Some (ok, W) /\ length W = rows * cols /\
    (ok = true <-> exists j, j < k /\ fst (svd rows cols (made j)) = true) /\
    (ok = true -> orthogonal (millionths gain * millionths gain) rows cols W).
Proof.
  intros Hb. unfold ortho. destruct (tries_ok k 0 b Hb) as (ok & W & E & L & I1 & I2). rewrite E. cbn [obind].
  destruct (Z.eqb_spec gain 1000000) as [->|Hg].
  - exists ok, W. split; [reflexivity|]. split; [exact L|]. split; [exact I1|]. intros Ho. replace (millionths 1000000 * millionths 1000000)%R with 1%R by (unfold millionths; lra). apply I2. exact Ho.
  - eexists ok, _. split; [reflexivity|]. split; [rewrite map_length; exact L|]. split; [exact I1|]. intros Ho.
    replace (millionths gain * millionths gain)%R with (1 * (millionths gain * millionths gain))%R by lra. apply orthogonal_scale. apply I2. exact Ho.
Qed.
End O.
