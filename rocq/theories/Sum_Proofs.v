From Coq Require Import Reals Permutation Lra.
From Verif Require Import Base BaseLemmas Workers_Model Workers_Spec Workers_Final Kern_Model Kern_Spec Kern_Proofs
  Tri_Model Tri_Spec Tri_Proofs Act_Model Act_Spec Loss_Proofs Sum_Model Sum_Spec.
From Verif Require Tri_Props.
Local Open Scope R_scope.

Lemma kahan_op_exact s v : kahan_op (s, 0) v = (s + v, 0).
Proof. unfold kahan_op. f_equal; ring. Qed.

Lemma fold_sum l : forall s, fold_left sum_op l s = s + sumR l.
Proof. induction l as [|x l IH]; intros s; unfold sumR; simpl; [ring|]. rewrite IH. unfold sum_op, sumR. ring. Qed.
Lemma fold_kahan l : forall s, fold_left kahan_op l (s, 0) = (s + sumR l, 0).
Proof.
  induction l as [|x l IH]; intros s; [simpl; unfold sumR; simpl; f_equal; ring|].
  change (fold_left kahan_op (x :: l) (s, 0)) with (fold_left kahan_op l (kahan_op (s, 0) x)).
  rewrite kahan_op_exact, IH. f_equal. unfold sumR. simpl. ring.
Qed.

Lemma reduce_vec_sum_ok ns cells : reduce_vec_sum ns cells = sumR cells.
Proof.
  unfold reduce_vec_sum. destruct ns; [rewrite fold_kahan; simpl; ring|rewrite fold_sum; ring].
Qed.

(** one thread's loop over f(element i) *)
Lemma plain_loop (body : nat -> R -> option R) (g : nat -> R) : forall n lo s,
  (forall i s, (lo <= i < lo + n)%nat -> body i s = Some (s + g i)) ->
  for_loop lo n body s = Some (s + sumR (map g (seq lo n))).
Proof.
  induction n as [|n IH]; intros lo s H; cbn [for_loop seq map].
  - f_equal. unfold sumR. simpl. ring.
  - rewrite H by lia. cbn [obind]. rewrite IH by (intros; apply H; lia). f_equal. unfold sumR. simpl. ring.
Qed.
Lemma kahan_loop (body : nat -> R * R -> option (R * R)) (g : nat -> R) : forall n lo s,
  (forall i s, (lo <= i < lo + n)%nat -> body i (s, 0) = Some (s + g i, 0)) ->
  for_loop lo n body (s, 0) = Some (s + sumR (map g (seq lo n)), 0).
Proof.
  induction n as [|n IH]; intros lo s H; cbn [for_loop seq map].
  - do 2 f_equal. unfold sumR. simpl. ring.
  - rewrite H by lia. cbn [obind]. rewrite IH by (intros; apply H; lia). do 2 f_equal. unfold sumR. simpl. ring.
Qed.

Lemma reduce_ok FRed (g : nat -> R) ns pool cnt : (0 < cnt)%nat ->
  (forall p, (0 < r_cnt p)%nat -> (r_ofs p + r_cnt p <= cnt)%nat -> FRed p = Some (sumR (map g (idxs p)))) ->
  reduce FRed (reduce_vec_sum ns) pool cnt = Some (total cnt g).
Proof.
  intros H0 HF. unfold reduce. destruct (Nat.leb_spec cnt 1) as [Hc|Hc].
  { rewrite HF by (cbn [r_cnt r_ofs]; lia). reflexivity. }
  destruct (partition cnt 0 pool) as [[w rs'] ofs] eqn:E.
  pose proof (run_ranges_tiles pool 0%Z cnt H0) as HT. unfold run_ranges in HT.
  destruct (Nat.leb_spec cnt 1) as [?|_]; [lia|]. rewrite E in HT.
  set (ps := main_range cnt ofs :: filter (fun r => negb (r_cnt r =? 0)%nat) rs').
  assert (HT' : tiles ps cnt).
  { destruct HT as [HP HN]. split.
    - rewrite <- HP. apply Permutation_flat_map. apply Permutation_cons_append.
    - intros p Hp. apply HN. apply in_or_app. destruct Hp as [<-|Hp]; [right; left; reflexivity|left; exact Hp]. }
  rewrite (omap_ok FRed (fun p => sumR (map g (idxs p))) ps).
  - cbn [obind]. f_equal. rewrite reduce_vec_sum_ok, sum_parts. unfold total. apply sumR_perm, Permutation_map, HT'.
  - intros p Hp. destruct (tiles_bound _ _ _ HT' Hp). apply HF; assumption.
Qed.

(** the pattern shared by the sums *)
Lemma sum_dispatch (k : prange -> option R) (g : nat -> R) ns pool (b : bool) n : (0 < n)%nat ->
  (forall p, (r_ofs p + r_cnt p <= n)%nat -> k p = Some (sumR (map g (idxs p)))) ->
  (if b then k (mkR 0 n 0) else reduce k (reduce_vec_sum ns) pool n) = Some (total n g).
Proof.
  intros H0 HK. destruct b.
  - rewrite HK by (cbn [r_cnt r_ofs]; lia). reflexivity.
  - apply reduce_ok; [exact H0|]. intros p _ Hp. apply HK, Hp.
Qed.

Lemma bget_elem (l : list R) i : (i < length l)%nat -> bget l i = Some (nth i l 0).
Proof. intros H. apply nth_error_nth'. exact H. Qed.

Ltac loop1 := intros i s Hi; rewrite ?bget_elem by lia; cbn [obind]; f_equal.

Lemma seq_shift0 (g : nat -> R) ofs n : map (fun i => g (ofs + i)%nat) (seq 0 n) = map g (seq ofs n).
Proof.
  revert ofs. induction n as [|n IH]; intros ofs; [reflexivity|]. cbn [seq map]. f_equal; [f_equal; lia|].
  rewrite <- (IH (S ofs)), <- seq_shift, map_map. apply map_ext. intros a. f_equal. lia.
Qed.

Lemma vec_sum_ok ns data ofs n : (ofs + n <= length data)%nat ->
  vec_sum ns data ofs n = Some (sumR (map (fun i => nth i data 0) (seq ofs n))).
Proof.
  intros H. unfold vec_sum, vec_apply_func. rewrite <- seq_shift0. destruct ns.
  - rewrite (kahan_loop _ (fun i => nth (ofs + i) data 0)).
    + cbn [obind fst]. f_equal. ring.
    + intros i s Hi. rewrite bget_elem by lia. cbn [obind]. rewrite kahan_op_exact. reflexivity.
  - rewrite (plain_loop _ (fun i => nth (ofs + i) data 0)).
    + f_equal. ring.
    + intros i s Hi. rewrite bget_elem by lia. reflexivity.
Qed.

Lemma vec_sum_squares_ok ns data ofs n : (ofs + n <= length data)%nat ->
  vec_sum_squares ns data ofs n = Some (sumR (map (fun i => nth i data 0 * nth i data 0) (seq ofs n))).
Proof.
  intros H. unfold vec_sum_squares, vec_apply_func. rewrite <- seq_shift0. destruct ns.
  - rewrite (kahan_loop _ (fun i => nth (ofs + i) data 0 * nth (ofs + i) data 0)).
    + cbn [obind fst]. f_equal. ring.
    + intros i s Hi. rewrite bget_elem by lia. cbn [obind]. unfold kahansq_op. rewrite kahan_op_exact. reflexivity.
  - rewrite (plain_loop _ (fun i => nth (ofs + i) data 0 * nth (ofs + i) data 0)).
    + f_equal. ring.
    + intros i s Hi. rewrite bget_elem by lia. reflexivity.
Qed.

Lemma sumnz_ok cv data ofs : forall n s c, (ofs + n <= length data)%nat ->
  for_loop 0 n (fun i st => do v <- bget data (ofs + i); Some (sumnz_op cv st v)) (s, c) =
  Some (s + sumR (filter (fun v => if Req_EM_T v cv then false else true) (firstn n (skipn ofs data))),
        (c + length (filter (fun v => if Req_EM_T v cv then false else true) (firstn n (skipn ofs data))))%nat).
Proof.
  induction n as [|n IH] using nat_ind; intros s c H.
  - cbn. unfold sumR. cbn. f_equal. f_equal; [ring|lia].
  - assert (E : forall X (b : nat -> X -> option X) m lo x, for_loop lo (S m) b x = do y <- for_loop lo m b x; b (lo + m)%nat y).
    { clear. induction m as [|m IHm]; intros lo x; [cbn; rewrite Nat.add_0_r; destruct (b lo x); reflexivity|].
      change (for_loop lo (S (S m)) b x) with (do y <- b lo x; for_loop (S lo) (S m) b y).
      change (for_loop lo (S m) b x) with (do y <- b lo x; for_loop (S lo) m b y).
      destruct (b lo x) as [y|]; cbn [obind]; [|reflexivity]. rewrite IHm. replace (S lo + m)%nat with (lo + S m)%nat by lia. reflexivity. }
    rewrite E, IH by lia. cbn [obind]. rewrite Nat.add_0_l. rewrite bget_elem by lia. cbn [obind].
    assert (F : firstn (S n) (skipn ofs data) = firstn n (skipn ofs data) ++ [nth (ofs + n) data 0]).
    { clear -H. revert ofs data H. induction n as [|n IHn]; intros ofs data H.
      - rewrite Nat.add_0_r. cbn [app]. revert ofs H. induction data as [|d data IHd]; intros [|ofs] H; cbn in *; try lia; [reflexivity|apply IHd; lia].
      - destruct (skipn ofs data) as [|d l] eqn:Es.
        { assert (L : length (skipn ofs data) = 0%nat) by (rewrite Es; reflexivity). rewrite skipn_length in L. lia. }
        assert (Es' : skipn (S ofs) data = l).
        { clear -Es. revert ofs l Es. induction data as [|d' data IHd]; intros [|ofs] l Es; cbn in *; try discriminate Es; [injection Es as -> ->; reflexivity|apply IHd, Es]. }
        specialize (IHn (S ofs) data ltac:(lia)). rewrite Es' in IHn. cbn [firstn] in *. rewrite IHn. cbn [app]. replace (ofs + S n)%nat with (S ofs + n)%nat by lia. reflexivity. }
    rewrite F, filter_app, app_length. unfold sumnz_op. cbn [filter].
    rewrite sumR_app. destruct (Req_EM_T (nth (ofs + n) data 0) cv) as [Q|Q]; cbn [length]; f_equal; f_equal;
      unfold sumR; cbn; try ring; lia.
Qed.

Lemma kahannz_eq cv s c v : kahannz_op cv (s, 0, c) v = (fst (sumnz_op cv (s, c) v), 0, snd (sumnz_op cv (s, c) v)).
Proof.
  unfold kahannz_op, sumnz_op. destruct (Req_EM_T v cv); cbn [fst snd]; rewrite ?Nat.add_0_r; do 2 f_equal; ring.
Qed.
Lemma kahannz_loop cv data ofs : forall n lo s c,
  for_loop lo n (fun i st => do v <- bget data (ofs + i); Some (kahannz_op cv st v)) (s, 0, c) =
  do st <- for_loop lo n (fun i st => do v <- bget data (ofs + i); Some (sumnz_op cv st v)) (s, c);
  Some (fst st, 0, snd st).
Proof.
  induction n as [|n IH]; intros lo s c; [reflexivity|]. cbn [for_loop].
  destruct (bget data (ofs + lo)) as [v|]; cbn [obind]; [|reflexivity].
  rewrite kahannz_eq. destruct (sumnz_op cv (s, c) v) as [s' c']. cbn [fst snd]. apply IH.
Qed.

Lemma part_of_list {X} (l : list X) d ofs n : (ofs + n <= length l)%nat ->
  firstn n (skipn ofs l) = map (fun k => nth k l d) (seq ofs n).
Proof.
  revert ofs n. induction l as [|x l IH]; intros ofs n H.
  - cbn [length] in H. assert (n = 0%nat) by lia. subst. reflexivity.
  - destruct ofs as [|ofs].
    + destruct n as [|n]; [reflexivity|]. cbn [skipn firstn seq map nth]. f_equal.
      change l with (skipn 0 l) at 1. rewrite (IH 0%nat n) by (cbn [length] in H; lia).
      rewrite <- seq_shift, map_map. reflexivity.
    + cbn [skipn]. rewrite IH by (cbn [length] in H; lia). rewrite <- seq_shift, map_map. reflexivity.
Qed.

Section Mtx.
Context (pool : list prange) (thr : nat).

Lemma sum_prod_ok A B : fits A B ->
  ewSumProd pool thr A B = Some (total (numel A) (fun i => elem A i * elem B i)).
Proof.
  intros (HA & HB & H0). unfold alloc in HA. unfold ewSumProd. apply sum_dispatch; [exact H0|].
  intros p Hp. unfold iewSumProd_st. rewrite (plain_loop _ (fun i => elem A i * elem B i)); [f_equal; unfold idxs; ring|].
  intros i s Hi. rewrite !bget_elem by lia. reflexivity.
Qed.

Lemma sum_squares_ok ns data n : (0 < n)%nat -> (n <= length data)%nat ->
  ewSumSquares pool thr ns data n = Some (total n (fun i => nth i data 0 * nth i data 0)).
Proof.
  intros H0 H. unfold ewSumSquares. apply sum_dispatch; [exact H0|].
  intros p Hp. unfold iewSumSquares_st. rewrite vec_sum_squares_ok by lia. reflexivity.
Qed.

Lemma sum_abs_ok A : fits A A -> vSumAbs pool thr A = Some (total (numel A) (fun i => Rabs (elem A i))).
Proof.
  intros (HA & _ & H0). unfold alloc in HA. unfold vSumAbs. apply sum_dispatch; [exact H0|].
  intros p Hp. unfold isumAbs. rewrite (plain_loop _ (fun i => Rabs (elem A i))); [f_equal; unfold idxs; ring|].
  intros i s Hi. rewrite !bget_elem by lia. reflexivity.
Qed.

Lemma fold_sumsq l : forall s, fold_left sumsq_op l s = s + sumR (map (fun v => v * v) l).
Proof. induction l as [|x l IH]; intros s; unfold sumR; simpl; [ring|]. rewrite IH. unfold sumsq_op, sum_op, sumR. ring. Qed.
Lemma fold_kahansq l : forall s, fold_left kahansq_op l (s, 0) = (s + sumR (map (fun v => v * v) l), 0).
Proof.
  induction l as [|x l IH]; intros s; [simpl; unfold sumR; simpl; f_equal; ring|].
  change (fold_left kahansq_op (x :: l) (s, 0)) with (fold_left kahansq_op l (kahan_op (s, 0) (x * x))).
  rewrite kahan_op_exact, IH. f_equal. unfold sumR. simpl. ring.
Qed.

Lemma numel_triangl_pos n : (1 < n)%nat -> (0 < numel_triangl n)%nat.
Proof.
  intros H. unfold numel_triangl. apply Nat.div_str_pos. split; [lia|]. destruct n as [|[|n]]; [lia|lia|].
  cbn [Nat.sub]. nia.
Qed.

Lemma sum_triang_ok ns lower A : Tri_Props.in_range (m_rows A) -> m_cols A = m_rows A -> alloc A -> (1 < m_rows A)%nat ->
  ewSumSquaresTriang pool thr ns lower A =
  Some (triangle_total lower (m_rows A) (fun r c => entry A r c * entry A r c)).
Proof.
  intros HR HC HA H1. set (n := m_rows A) in *.
  set (T := triangle lower n).
  assert (HL : length T = numel_triangl n) by apply (Tri_Props.C25_index_bijection lower n HR).
  assert (HIn : forall r c, In (r, c) T -> (r < n /\ c < n)%nat).
  { intros r c H. apply (Tri_Props.C25_index_bijection lower n HR) in H. tauto. }
  set (g := fun k => let rc := nth k T (0, 0)%nat in entry A (fst rc) (snd rc) * entry A (fst rc) (snd rc)).
  assert (HK : forall p, (0 < r_cnt p)%nat -> (r_ofs p + r_cnt p <= numel_triangl n)%nat ->
    triang_sumsq ns lower A p = Some (sumR (map g (idxs p)))).
  { intros p Hp0 Hp. unfold triang_sumsq. fold n.
    rewrite (Tri_Props.C25_range_traversal lower n _ _ HR) by lia. fold T.
    replace (r_ofs p + r_cnt p - r_ofs p)%nat with (r_cnt p) by lia.
    rewrite (omap_ok _ (fun a => nth a (m_data A) 0)).
    2:{ intros a Ha. apply in_map_iff in Ha. destruct Ha as ([r c] & <- & Ha). apply bget_elem.
        assert (In (r, c) T).
        { rewrite <- (firstn_skipn (r_ofs p) T). apply in_or_app. right.
          rewrite <- (firstn_skipn (r_cnt p) (skipn (r_ofs p) T)). apply in_or_app. left. exact Ha. }
        destruct (HIn _ _ H) as [Hr Hc]. unfold offset. cbn [fst snd]. unfold alloc, numel in HA.
        fold n in HA. rewrite HC in HA. fold n in HA. nia. }
    cbn [obind]. f_equal.
    assert (E : sumR (map (fun v => v * v) (map (fun a => nth a (m_data A) 0) (map (offset n) (firstn (r_cnt p) (skipn (r_ofs p) T)))))
                = sumR (map g (idxs p))).
    { rewrite !map_map. f_equal. unfold idxs.
      transitivity (map (fun rc => entry A (fst rc) (snd rc) * entry A (fst rc) (snd rc)) (firstn (r_cnt p) (skipn (r_ofs p) T))); [reflexivity|].
      pose proof (part_of_list T (0, 0)%nat (r_ofs p) (r_cnt p) ltac:(lia)) as F.
      rewrite F, map_map. reflexivity. }
    destruct ns; [rewrite fold_kahansq|rewrite fold_sumsq]; cbn [fst]; rewrite E; ring. }
  pose proof (numel_triangl_pos n H1) as H0.
  unfold ewSumSquaresTriang. fold n.
  replace (Some (triangle_total lower n (fun r c => entry A r c * entry A r c))) with (Some (total (numel_triangl n) g)).
  - destruct (n <? thr)%nat.
    + rewrite HK by (cbn [r_cnt r_ofs]; lia). reflexivity.
    + apply reduce_ok; [exact H0|exact HK].
  - f_equal. unfold total, triangle_total. fold T. rewrite <- HL. f_equal. unfold g. clear.
    induction T as [|x T IH]; [reflexivity|]. cbn [length seq map nth]. f_equal.
    rewrite <- seq_shift, map_map. exact IH.
Qed.

Lemma total_scale n g k : total n (fun i => k * g i) = k * total n g.
Proof.
  unfold total. induction (seq 0 n) as [|x l IH]; unfold sumR in *; simpl; [ring|]. rewrite IH. ring.
Qed.

Lemma loss_quadratic_ok ns acts y : fits acts y ->
  loss_quadratic pool thr ns acts y = Some (/ 2 * total (numel acts) (fun i => (elem acts i - elem y i) ^ 2)).
Proof.
  intros (HA & HB & H0). unfold alloc in HA. unfold loss_quadratic.
  rewrite (sum_dispatch _ (fun i => (elem acts i - elem y i) ^ 2) ns pool _ (numel acts) H0).
  - cbn [obind]. f_equal. field.
  - intros p Hp. destruct ns.
    + unfold iloss_quadratic_ns_st. rewrite (kahan_loop _ (fun i => (elem acts i - elem y i) ^ 2)).
      * cbn [obind fst]. f_equal. unfold idxs. ring.
      * intros i s Hi. rewrite !bget_elem by lia. cbn [obind]. unfold elem. f_equal. f_equal; ring.
    + unfold iloss_quadratic_st. rewrite (plain_loop _ (fun i => (elem acts i - elem y i) ^ 2)).
      * f_equal. unfold idxs. ring.
      * intros i s Hi. rewrite !bget_elem by lia. cbn [obind]. unfold elem. f_equal. ring.
Qed.

Lemma loss_xentropy_ok tiny ns acts y : fits acts y ->
  loss_xentropy pool thr tiny ns acts y = Some (total (numel acts) (fun i => l_xent tiny (elem acts i) (elem y i))).
Proof.
  intros (HA & HB & H0). unfold alloc in HA. unfold loss_xentropy.
  rewrite (sum_dispatch _ (fun i => xent_term tiny (elem acts i) (elem y i)) ns pool _ (numel acts) H0).
  - cbn [obind]. f_equal. transitivity ((-1) * total (numel acts) (fun i => xent_term tiny (elem acts i) (elem y i))); [ring|].
    rewrite <- total_scale. unfold total. f_equal. apply map_ext. intros i. unfold l_xent, xent_term. ring.
  - intros p Hp. destruct ns.
    + unfold iloss_xentropy_ns_st. rewrite (kahan_loop _ (fun i => xent_term tiny (elem acts i) (elem y i))).
      * cbn [obind fst]. f_equal. unfold idxs. ring.
      * intros i s Hi. rewrite !bget_elem by lia. cbn [obind]. unfold elem. f_equal. f_equal; ring.
    + unfold iloss_xentropy_st. rewrite (plain_loop _ (fun i => xent_term tiny (elem acts i) (elem y i))).
      * f_equal. unfold idxs. ring.
      * intros i s Hi. rewrite !bget_elem by lia. cbn [obind]. unfold elem. f_equal.
Qed.

Lemma loss_softmax_ok laz acts y : fits acts y ->
  loss_softmax_xentropy pool thr laz acts y =
  Some (total (numel acts) (fun i => - (elem y i * (if Rlt_dec 0 (elem acts i) then ln (elem acts i) else laz)))).
Proof.
  intros (HA & HB & H0). unfold alloc in HA. unfold loss_softmax_xentropy. apply sum_dispatch; [exact H0|].
  intros p Hp. unfold iloss_softmax_st.
  rewrite (plain_loop _ (fun i => - (elem y i * (if Rlt_dec 0 (elem acts i) then ln (elem acts i) else laz)))); [f_equal; unfold idxs; ring|].
  intros i s Hi. rewrite !bget_elem by lia. cbn [obind]. unfold elem. f_equal. ring.
Qed.

Lemma compute_loss_ok loss normalize acts y : fits acts y ->
  compute_loss pool thr loss normalize acts y =
  Some (normalize (total (numel acts) (fun i => loss (elem acts i) (elem y i))) (m_rows acts)).
Proof.
  intros (HA & HB & H0). unfold alloc in HA. unfold compute_loss.
  rewrite (sum_dispatch _ (fun i => loss (elem acts i) (elem y i)) false pool _ (numel acts) H0); [reflexivity|].
  intros p Hp. unfold icompute_loss_st.
  rewrite (plain_loop _ (fun i => loss (elem acts i) (elem y i))); [f_equal; unfold idxs; ring|].
  intros i s Hi. rewrite !bget_elem by lia. reflexivity.
Qed.
End Mtx.
