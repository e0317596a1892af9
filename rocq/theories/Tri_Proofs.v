From Verif Require Import Base BaseLemmas Tri_Model Tri_Spec.

Definition T (c : nat) : nat := c * (c - 1) / 2.
Lemma T_S c : T (c + 1) = T c + c.
Proof.
  unfold T. replace (c + 1 - 1) with c by lia. destruct c as [|c]; [reflexivity|].
  replace (S c - 1) with c by lia. replace ((S c + 1) * S c) with (S c * c + S c * 2) by lia.
  rewrite Nat.div_add by lia. reflexivity.
Qed.
Lemma T_mono a b : a <= b -> T a <= T b.
Proof. induction 1 as [|b H IH]; [lia|]. rewrite <- Nat.add_1_r, T_S. lia. Qed.
Lemma T_lt a b : 0 < a -> a < b -> T a < T b.
Proof. intros H0 H. apply Nat.lt_le_trans with (T (a + 1)); [rewrite T_S; lia|apply T_mono; lia]. Qed.

(** the column is right for all indices up to K *)
Definition root_ok (root : nat -> nat) (K : nat) : Prop :=
  forall k, k <= K -> 1 <= root k /\ T (root k) <= k < T (root k + 1).

Lemma T_unique a b k : T a <= k < T (a + 1) -> T b <= k < T (b + 1) -> a = b.
Proof.
  intros Ha Hb. destruct (Nat.lt_trichotomy a b) as [H|[H|H]]; [|exact H|].
  - pose proof (T_mono (a + 1) b ltac:(lia)). lia.
  - pose proof (T_mono (b + 1) a ltac:(lia)). lia.
Qed.

Lemma map_seq_part {X} (f : nat -> X) m b e : b <= e -> e <= m -> map f (seq b (e - b)) = firstn (e - b) (skipn b (map f (seq 0 m))).
Proof.
  intros H1 H2. rewrite skipn_map, firstn_map. f_equal.
  replace m with (b + ((e - b) + (m - e))) by lia. rewrite seq_app, skipn_app, seq_length, Nat.sub_diag. cbn [skipn].
  rewrite skipn_all2 by (rewrite seq_length; lia). cbn [app Nat.add].
  rewrite seq_app, firstn_app, seq_length, Nat.sub_diag. cbn [firstn]. rewrite app_nil_r, firstn_all2 by (rewrite seq_length; lia). reflexivity.
Qed.

Section P.
Context (root : nat -> nat) (n : nat).
Context (Hn : 1 <= n).
Notation K := (numel_triangl n).
Context (RK : root_ok root K).
Lemma K_T : K = T n. Proof. reflexivity. Qed.

(** ** Upper *)
Lemma upper_spec c r : r < c -> T c + r <= K -> coords_upper root (T c + r) = (r, c).
Proof.
  intros Hr HK. destruct (RK (T c + r) HK) as [_ HR]. unfold coords_upper.
  assert (E : root (T c + r) = c) by (apply (T_unique _ _ (T c + r)); [exact HR|rewrite T_S; lia]).
  rewrite E. fold (T c). f_equal. lia.
Qed.
Lemma upper_decomp k : k <= K -> exists c r, r < c /\ k = T c + r /\ c <= n /\ (c = n -> k = K).
Proof.
  intros Hk. destruct (RK k Hk) as [H1 H2]. exists (root k), (k - T (root k)). rewrite T_S in H2.
  assert (root k <= n). { destruct (Nat.le_gt_cases (root k) n) as [H|H]; [exact H|]. pose proof (T_lt n (root k) ltac:(lia) H). rewrite K_T in Hk. lia. }
  split; [lia|]. split; [lia|]. split; [assumption|]. intros E. rewrite E in *. rewrite K_T in *. lia.
Qed.

(** ** Lower *)
(** number of elements before column c *)
Definition L (c : nat) : nat := T n - T (n - c).
Lemma L_S c : c < n -> L (c + 1) = L c + (n - (c + 1)).
Proof.
  intros H. unfold L. replace (n - c) with (n - (c + 1) + 1) by lia. rewrite T_S.
  pose proof (T_mono (n - (c + 1) + 1) n ltac:(lia)) as H1. rewrite T_S in H1. lia.
Qed.
Lemma L_last : L (n - 1) = K. Proof. unfold L. replace (n - (n - 1)) with 1 by lia. change (T 1) with 0. rewrite K_T. lia. Qed.
Lemma lower_spec c r : c < r -> r < n -> coords_lower root n (L c + (r - (c + 1))) = (r, c).
Proof.
  intros H1 H2. pose proof (T_mono (n - c) n ltac:(lia)) as M.
  assert (E : T (n - c) = T (n - 1 - c) + (n - 1 - c)). { replace (n - c) with (n - 1 - c + 1) by lia. apply T_S. }
  assert (HL : L c = T n - T (n - c)) by reflexivity.
  unfold coords_lower. fold (T n). change (numel_triangl n) with (T n). destruct (Nat.eqb_spec (L c + (r - (c + 1))) (T n)) as [X|X]; [lia|].
  set (k' := T n - (L c + (r - (c + 1))) - 1).
  assert (Ek : k' = T (n - 1 - c) + (n - 1 - r)) by (unfold k'; lia).
  destruct (RK k') as [_ HR]; [rewrite K_T; unfold k'; lia|].
  assert (ER : root k' = n - 1 - c) by (apply (T_unique _ _ k'); [exact HR|rewrite T_S; lia]).
  rewrite ER. fold (T (n - 1 - c)). f_equal; lia.
Qed.
Lemma lower_decomp k : k < K -> exists c r, c < r /\ r < n /\ k = L c + (r - (c + 1)).
Proof.
  intros Hk. set (k' := T n - k - 1). rewrite K_T in Hk. destruct (RK k') as [H1 H2]; [rewrite K_T; unfold k'; lia|]. rewrite T_S in H2.
  assert (H3 : root k' < n).
  { destruct (Nat.le_gt_cases n (root k')) as [H|H]; [|exact H]. pose proof (T_mono n (root k') H). unfold k' in *. lia. }
  exists (n - 1 - root k'), (n - 1 - (k' - T (root k'))). unfold L.
  replace (n - (n - 1 - root k')) with (root k' + 1) by lia. rewrite T_S. unfold k' in *.
  pose proof (T_mono (root (T n - k - 1) + 1) n ltac:(lia)) as M. rewrite T_S in M. lia.
Qed.

(** ** Indices and elements *)
Definition cell (lower : bool) (k : nat) : nat := offset n (coords root lower n k).

Lemma seq_cells_upper c r m : r + m <= c -> T c + r + m <= K -> map (cell false) (seq (T c + r) m) = seq (n * c + r) m.
Proof.
  revert r. induction m as [|m IH]; intros r H1 H2; [reflexivity|]. cbn [seq map]. unfold cell at 1, coords. rewrite upper_spec by lia.
  f_equal; [unfold offset; cbn [fst snd]; lia|]. replace (S (T c + r)) with (T c + S r) by lia. rewrite IH by lia. f_equal. lia.
Qed.
Lemma seq_cells_lower c r m : c < r -> r + m <= n -> map (cell true) (seq (L c + (r - (c + 1))) m) = seq (n * c + r) m.
Proof.
  revert r. induction m as [|m IH]; intros r H1 H2; [reflexivity|]. cbn [seq map]. unfold cell at 1, coords. rewrite lower_spec by lia.
  f_equal; [unfold offset; cbn [fst snd]; lia|]. replace (S (L c + (r - (c + 1)))) with (L c + (S r - (c + 1))) by lia. rewrite IH by lia. f_equal. lia.
Qed.

Lemma cells_upper b c r m : b = T c + r -> r + m <= c -> T c + r + m <= K -> map (cell false) (seq b m) = seq (n * c + r) m.
Proof. intros ->. apply seq_cells_upper. Qed.
Lemma cells_lower b c r m : b = L c + (r - (c + 1)) -> c < r -> r + m <= n -> map (cell true) (seq b m) = seq (n * c + r) m.
Proof. intros ->. apply seq_cells_lower. Qed.

Lemma middle_upper b cnt : forall ci ri out, ci + cnt <= n -> b <= T ci ->
  out = map (cell false) (seq b (T ci - b)) ->
  middle false n ci cnt (ri, n * ci, out) = (ri, n * (ci + cnt), map (cell false) (seq b (T (ci + cnt) - b))).
Proof.
  induction cnt as [|cnt IH]; intros ci ri out H1 H2 ->; [rewrite Nat.add_0_r; reflexivity|]. cbn [middle].
  replace (n * ci + n) with (n * (ci + 1)) by lia. rewrite IH.
  - f_equal; [f_equal|]; [lia|]. do 2 f_equal. f_equal. f_equal. lia.
  - lia.
  - rewrite T_S. lia.
  - rewrite T_S. replace (T ci + ci - b) with (T ci - b + ci) by lia. rewrite seq_app, map_app. f_equal.
    replace (b + (T ci - b)) with (T ci + 0) by lia. rewrite seq_cells_upper; [unfold vec_apply; f_equal; lia|lia|].
    pose proof (T_mono (ci + 1) n ltac:(lia)) as M. rewrite T_S in M. rewrite K_T. lia.
Qed.
Lemma middle_lower b cnt : forall ci out, ci + cnt < n -> b <= L ci ->
  out = map (cell true) (seq b (L ci - b)) ->
  middle true n ci cnt (ci + 1, n * ci, out) = (ci + cnt + 1, n * (ci + cnt), map (cell true) (seq b (L (ci + cnt) - b))).
Proof.
  induction cnt as [|cnt IH]; intros ci out H1 H2 ->; [rewrite Nat.add_0_r; reflexivity|]. cbn [middle].
  replace (n * ci + n) with (n * (ci + 1)) by lia. rewrite IH.
  - f_equal; [f_equal; lia|]. do 4 f_equal. lia.
  - lia.
  - rewrite L_S by lia. lia.
  - rewrite L_S by lia. replace (L ci + (n - (ci + 1)) - b) with (L ci - b + (n - (ci + 1))) by lia. rewrite seq_app, map_app. f_equal.
    replace (b + (L ci - b)) with (L ci + (ci + 1 - (ci + 1))) by lia. rewrite seq_cells_lower; [reflexivity|lia|lia].
Qed.

Lemma apply_upper b e : b <= e -> e <= K -> triang_apply root false n b e = map (cell false) (seq b (e - b)).
Proof.
  intros Hb He. destruct (upper_decomp b) as (cb & rb & B1 & B2 & B3 & B4); [lia|]. destruct (upper_decomp e He) as (ce & re & E1 & E2 & E3 & E4).
  unfold triang_apply, coords. replace (coords_upper root e) with (re, ce) by (rewrite E2; symmetry; apply upper_spec; lia). replace (coords_upper root b) with (rb, cb) by (rewrite B2; symmetry; apply upper_spec; lia).
  destruct (Nat.eqb_spec cb ce) as [<-|Hc].
  - replace (cb - (cb + 1)) with 0 by lia. cbn [middle]. unfold vec_apply.
    replace (cb - rb - (cb - re)) with (e - b) by lia. symmetry. apply cells_upper; lia.
  - assert (Hlt : cb < ce).
    { destruct (Nat.lt_trichotomy cb ce) as [H|[H|H]]; [exact H|contradiction|]. pose proof (T_mono (ce + 1) cb ltac:(lia)) as M. rewrite T_S in M. lia. }
    rewrite Nat.sub_0_r. replace (n * cb + n) with (n * (cb + 1)) by lia.
    pose proof (T_mono (cb + 1) ce ltac:(lia)) as M1. rewrite T_S in M1.
    rewrite (middle_upper b).
    + replace (cb + 1 + (ce - (cb + 1))) with ce by lia. destruct (Nat.ltb_spec 0 re) as [Hre|Hre].
      * replace (e - b) with (T ce - b + re) by lia. rewrite seq_app, map_app. f_equal. unfold vec_apply.
        replace (b + (T ce - b)) with (T ce + 0) by lia. rewrite seq_cells_upper by lia. f_equal. lia.
      * do 2 f_equal. lia.
    + lia.
    + rewrite T_S. lia.
    + unfold vec_apply. rewrite T_S, (cells_upper b cb rb) by lia. f_equal; lia.
Qed.

Lemma L_mono a b : a <= b -> b <= n -> L a <= L b.
Proof. intros H1 H2. unfold L. pose proof (T_mono (n - b) (n - a) ltac:(lia)). lia. Qed.

Lemma apply_lower b e : b <= e -> e <= K -> b < K -> triang_apply root true n b e = map (cell true) (seq b (e - b)).
Proof.
  intros Hb He HbK. destruct (lower_decomp b HbK) as (cb & rb & B1 & B2 & B3).
  destruct (Nat.eq_dec e K) as [->|HeK].
  - unfold triang_apply, coords. replace (coords_lower root n b) with (rb, cb) by (rewrite B3; symmetry; apply lower_spec; lia).
    unfold coords_lower. rewrite Nat.eqb_refl. destruct (Nat.eqb_spec cb (n - 1)) as [X|X]; [lia|].
    replace (cb + 2) with (cb + 1 + 1) by lia. replace (n * cb + n) with (n * (cb + 1)) by lia. rewrite Nat.sub_0_r.
    rewrite (middle_lower b).
    + replace (cb + 1 + (n - 1 - (cb + 1))) with (n - 1) by lia. destruct (Nat.ltb_spec (n - 1 + 1) 0); [lia|]. rewrite L_last. reflexivity.
    + lia.
    + rewrite L_S by lia. lia.
    + unfold vec_apply. rewrite L_S by lia. rewrite (cells_lower b cb rb) by lia. f_equal; lia.
  - destruct (lower_decomp e) as (ce & re & E1 & E2 & E3); [lia|].
    unfold triang_apply, coords. replace (coords_lower root n e) with (re, ce) by (rewrite E3; symmetry; apply lower_spec; lia). replace (coords_lower root n b) with (rb, cb) by (rewrite B3; symmetry; apply lower_spec; lia).
    destruct (Nat.eqb_spec cb ce) as [<-|Hc].
    + replace (cb - (cb + 1)) with 0 by lia. cbn [middle]. unfold vec_apply.
      replace (n - rb - (n - re)) with (e - b) by lia. symmetry. apply cells_lower; lia.
    + assert (Hlt : cb < ce).
      { destruct (Nat.lt_trichotomy cb ce) as [H|[H|H]]; [exact H|contradiction|]. pose proof (L_mono (ce + 1) cb ltac:(lia) ltac:(lia)) as M. rewrite L_S in M by lia. lia. }
      pose proof (L_mono (cb + 1) ce ltac:(lia) ltac:(lia)) as M1. rewrite L_S in M1 by lia.
      replace (cb + 2) with (cb + 1 + 1) by lia. replace (n * cb + n) with (n * (cb + 1)) by lia. rewrite Nat.sub_0_r.
      rewrite (middle_lower b).
      * replace (cb + 1 + (ce - (cb + 1))) with ce by lia. destruct (Nat.ltb_spec (ce + 1) re) as [Hre|Hre].
        -- replace (e - b) with (L ce - b + (re - (ce + 1))) by lia. rewrite seq_app, map_app. f_equal. unfold vec_apply.
           replace (b + (L ce - b)) with (L ce + (ce + 1 - (ce + 1))) by lia. rewrite seq_cells_lower by lia. reflexivity.
        -- do 2 f_equal. lia.
      * lia.
      * rewrite L_S by lia. lia.
      * unfold vec_apply. rewrite L_S by lia. rewrite (cells_lower b cb rb) by lia. f_equal; lia.
Qed.

(** ** The whole triangle *)
Lemma triangle_upper m : m <= n -> flat_map (fun c => map (fun r => (r, c)) (column_rows false n c)) (seq 0 m) = map (coords root false n) (seq 0 (T m)).
Proof.
  induction m as [|m IH]; intros Hm; [reflexivity|]. rewrite seq_S, flat_map_app, IH by lia. rewrite <- Nat.add_1_r, T_S, seq_app, map_app. f_equal.
  cbn [flat_map Nat.add]. rewrite app_nil_r. unfold column_rows.
  assert (G : forall c r, r + c <= m -> map (fun r => (r, m)) (seq r c) = map (coords root false n) (seq (T m + r) c)).
  { induction c as [|c IHc]; intros r Hr; [reflexivity|]. cbn [seq map coords]. rewrite upper_spec; [|lia|].
    - f_equal. replace (S (T m + r)) with (T m + S r) by lia. apply IHc. lia.
    - pose proof (T_mono (m + 1) n ltac:(lia)) as M. rewrite T_S in M. rewrite K_T. lia. }
  rewrite (G m 0) by lia. rewrite Nat.add_0_r. reflexivity.
Qed.
Lemma triangle_lower m : m <= n -> flat_map (fun c => map (fun r => (r, c)) (column_rows true n c)) (seq 0 m) = map (coords root true n) (seq 0 (L m)).
Proof.
  induction m as [|m IH]; intros Hm; [unfold L; rewrite Nat.sub_0_r, Nat.sub_diag; reflexivity|].
  rewrite seq_S, flat_map_app, IH by lia. rewrite <- Nat.add_1_r, L_S by lia. rewrite seq_app, map_app. f_equal.
  cbn [flat_map Nat.add]. rewrite app_nil_r. unfold column_rows.
  assert (G : forall c r, m < r -> r + c <= n -> map (fun r => (r, m)) (seq r c) = map (coords root true n) (seq (L m + (r - (m + 1))) c)).
  { induction c as [|c IHc]; intros r Hr1 Hr; [reflexivity|]. cbn [seq map coords]. rewrite lower_spec by lia.
    f_equal. replace (S (L m + (r - (m + 1)))) with (L m + (S r - (m + 1))) by lia. apply IHc; lia. }
  rewrite G by lia. f_equal. f_equal. lia.
Qed.
Lemma triangle_coords lower : triangle lower n = map (coords root lower n) (seq 0 K).
Proof.
  unfold triangle. destruct lower.
  - rewrite triangle_lower by lia. do 2 f_equal. unfold L. rewrite Nat.sub_diag. change (T 0) with 0. rewrite K_T. lia.
  - rewrite triangle_upper by lia. reflexivity.
Qed.

Lemma triang_apply_spec lower b e : b < e -> e <= K ->
  triang_apply root lower n b e = map (offset n) (firstn (e - b) (skipn b (triangle lower n))).
Proof.
  intros H1 H2. rewrite triangle_coords, <- (map_seq_part _ K) by lia. rewrite map_map. destruct lower; [apply apply_lower|apply apply_upper]; lia.
Qed.
Lemma coords_nth lower k : k < K -> nth_error (triangle lower n) k = Some (coords root lower n k).
Proof.
  intros H. rewrite triangle_coords, nth_error_map. 
  assert (E : nth_error (seq 0 K) k = Some k) by (rewrite (nth_error_nth' _ 0) by (rewrite seq_length; exact H); rewrite seq_nth by exact H; reflexivity).
  rewrite E. reflexivity.
Qed.
Lemma triangle_length lower : length (triangle lower n) = K.
Proof. rewrite triangle_coords, map_length, seq_length. reflexivity. Qed.
End P.
