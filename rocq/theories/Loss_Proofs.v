From Coq Require Import Reals ZArith NArith Lra Lia Permutation.
From Coquelicot Require Import Coquelicot.
From Verif Require Import Base BaseLemmas Workers_Model Workers_Spec Kern_Model Kern_Spec Kern_Proofs
  Ew_Model Ew_Spec Ew_Proofs Act_Model Act_Spec Act_Proofs.
Local Open Scope R_scope.

(** ** One element *)

Lemma d_quad y a : is_derive (fun a => l_quad a y) a (a - y).
Proof. unfold l_quad. auto_derive; [exact I|]. field. Qed.

Lemma d_ext (f g : R -> R) x l : (forall t : R, f t = g t) -> is_derive f x l -> is_derive g x l.
Proof. intros H. apply is_derive_ext. exact H. Qed.

Lemma d_comp (f g : R -> R) x df dg : is_derive f (g x) df -> is_derive g x dg ->
  is_derive (fun z => f (g z)) x (df * dg).
Proof.
  intros Hf Hg. eapply d_eq; [apply (is_derive_comp f g x df dg Hf Hg)|].
  change (dg * df = df * dg). ring.
Qed.

Lemma d_xent tiny y a : 0 <= tiny -> binary y -> 0 < a < 1 ->
  is_derive (fun a => l_xent tiny a y) a
    ((a - y) / (a * (1 - a)) * (prob a y / (prob a y + tiny))).
Proof.
  intros Ht [-> | ->] Ha; unfold l_xent, prob, log_eps, log1p_eps.
  - destruct (Rlt_dec 0 0); [lra|]. auto_derive; [lra|]. field. lra.
  - destruct (Rlt_dec 0 1); [|lra]. auto_derive; [lra|]. field. lra.
Qed.

Lemma d_sq_lin f c a : is_derive (fun a => (f * a + c) * (f * a + c) / 2) a (f * (f * a + c)).
Proof. auto_derive; [exact I|]. field. Qed.

Lemma loc_lt y a : y < a -> locally a (fun t => y < t).
Proof.
  intros H. assert (Hp : 0 < a - y) by lra. exists (mkposreal _ Hp). intros t Ht.
  unfold ball in Ht. simpl in Ht. unfold AbsRing_ball, abs, minus, plus, opp in Ht.
  simpl in Ht. apply Rabs_def2 in Ht. lra.
Qed.
Lemma loc_gt y a : a < y -> locally a (fun t => t < y).
Proof.
  intros H. assert (Hp : 0 < y - a) by lra. exists (mkposreal _ Hp). intros t Ht.
  unfold ball in Ht. simpl in Ht. unfold AbsRing_ball, abs, minus, plus, opp in Ht.
  simpl in Ht. apply Rabs_def2 in Ht. lra.
Qed.

Lemma d_weighted w y a : loss_domain (IdCustom w) y a ->
  is_derive (fun a => l_weighted w a y) a (dl_weighted w y a).
Proof.
  assert (G : forall (f1 c1 f2 c2 : R) (d1 d2 : R -> R) (b : R),
    (forall a, is_derive (fun a => (f1 * a + c1) * (f1 * a + c1) / 2) a (d1 a)) ->
    (forall a, is_derive (fun a => (f2 * a + c2) * (f2 * a + c2) / 2) a (d2 a)) ->
    ((f1 * y + c1 = 0 /\ f2 * y + c2 = 0) \/ a <> y \/ b <= y \/ (f1 = f2 /\ c1 = c2)) ->
    is_derive (fun a => (fp_case b y a (f1 * a + c1) (f2 * a + c2)) * (fp_case b y a (f1 * a + c1) (f2 * a + c2)) / 2) a
      (fp_case b y a (d1 a) (d2 a))).
  { intros f1 c1 f2 c2 d1 d2 b H1 H2 HC. unfold fp_case.
    destruct (Rlt_dec y b) as [Hyb|Hyb]; [|apply H2].
    destruct (Rtotal_order a y) as [H|[H|H]].
    - apply (is_derive_ext_loc (fun a => (f2 * a + c2) * (f2 * a + c2) / 2)).
      + generalize (loc_gt y a H). apply filter_imp. intros t Ht. destruct (Rlt_dec y t); [lra|reflexivity].
      + destruct (Rlt_dec y a); [lra|]. apply H2.
    - subst a. destruct (Rlt_dec y y); [lra|].
      destruct HC as [[E1 E2]|[E|[E|[E1 E2]]]]; [|congruence|lra|].
      + assert (D2 : d2 y = 0).
        { transitivity (Derive (fun a => (f2 * a + c2) * (f2 * a + c2) / 2) y).
          - symmetry. apply is_derive_unique. apply H2.
          - transitivity (f2 * (f2 * y + c2)); [apply is_derive_unique, d_sq_lin|rewrite E2; apply Rmult_0_r]. }
        rewrite D2. apply sides_derive.
        * apply (side_of_derive true _ (fun a => (f1 * a + c1) * (f1 * a + c1) / 2)).
          -- eapply d_eq; [apply d_sq_lin|]. rewrite E1. apply Rmult_0_r.
          -- cbv beta. destruct (Rlt_dec y y); [lra|]. rewrite E1, E2. reflexivity.
          -- intros t Ht. destruct (Rlt_dec y t); [reflexivity|lra].
        * apply (side_of_derive false _ (fun a => (f2 * a + c2) * (f2 * a + c2) / 2)).
          -- eapply d_eq; [apply d_sq_lin|]. rewrite E2. apply Rmult_0_r.
          -- cbv beta. destruct (Rlt_dec y y); [lra|]. reflexivity.
          -- intros t Ht. destruct (Rlt_dec y t); [lra|reflexivity].
      + subst f2 c2. apply (d_ext (fun a => (f1 * a + c1) * (f1 * a + c1) / 2)); [|apply H2].
        intros t. destruct (Rlt_dec y t); reflexivity.
    - apply (is_derive_ext_loc (fun a => (f1 * a + c1) * (f1 * a + c1) / 2)).
      + generalize (loc_lt y a H). apply filter_imp. intros t Ht. destruct (Rlt_dec y t); [reflexivity|lra].
      + destruct (Rlt_dec y a); [|lra]. apply H1. }
  destruct w as [f b|f o b|f b]; simpl; intros HD.
  - apply (d_ext (fun a => (fp_case (micro b) y a (micro f * a + - (micro f * y)) (1 * a + - y)) *
      (fp_case (micro b) y a (micro f * a + - (micro f * y)) (1 * a + - y)) / 2)).
    { intros t. unfold l_weighted, fp_case. cbv zeta. destruct (Rlt_dec y (micro b)); [destruct (Rlt_dec y t)|]; try unfold A; field. }
    apply (G (micro f) (- (micro f * y)) 1 (- y) (fun a => micro f * micro f * (a - y)) (fun a => a - y) (micro b)).
    + intros t. eapply d_eq; [apply d_sq_lin|ring].
    + intros t. eapply d_eq; [apply d_sq_lin|ring].
    + left. split; ring.
  - apply (d_ext (fun a => (fp_case (micro b) y a (micro f * a + - (micro f * y)) (micro o * a + - (micro o * y))) *
      (fp_case (micro b) y a (micro f * a + - (micro f * y)) (micro o * a + - (micro o * y))) / 2)).
    { intros t. unfold l_weighted, fp_case. cbv zeta. destruct (Rlt_dec y (micro b)); [destruct (Rlt_dec y t)|]; try unfold A; field. }
    apply (G (micro f) (- (micro f * y)) (micro o) (- (micro o * y)) (fun a => micro f * micro f * (a - y))
      (fun a => micro o * micro o * (a - y)) (micro b)).
    + intros t. eapply d_eq; [apply d_sq_lin|ring].
    + intros t. eapply d_eq; [apply d_sq_lin|ring].
    + left. split; ring.
  - set (A := micro b * (1 - micro f)).
    apply (d_ext (fun a => (fp_case (micro b) y a (micro f * a + (A - y)) (1 * a + - y)) *
      (fp_case (micro b) y a (micro f * a + (A - y)) (1 * a + - y)) / 2)).
    { intros t. unfold l_weighted, fp_case. cbv zeta. destruct (Rlt_dec y (micro b)); [destruct (Rlt_dec y t)|]; try unfold A; field. }
    apply (G (micro f) (A - y) 1 (- y) (fun a => micro f * micro f * a + micro f * A - micro f * y) (fun a => a - y) (micro b)).
    + intros t. eapply d_eq; [apply d_sq_lin|ring].
    + intros t. eapply d_eq; [apply d_sq_lin|ring].
    + right. destruct HD as [H|[H|H]]; [left; exact H|right; left; exact H|].
      right. right. split; [exact H|]. unfold A. rewrite H. ring.
Qed.

Lemma prob_pos a y : 0 < a < 1 -> 0 < prob a y.
Proof. intros H. unfold prob. destruct (Rlt_dec 0 y); lra. Qed.

Theorem loss_derive tiny o y z : 0 <= tiny -> admissible (outp_act o) -> loss_domain o y z ->
  is_derive (fun z => outp_loss tiny o (act_f (outp_act o) z) y) z
    (outp_dLdZ o y (act_f (outp_act o) z) * eps_factor tiny o y (act_f (outp_act o) z)).
Proof.
  intros Ht Had HD. destruct o; simpl in *.
  - eapply d_eq; [apply (d_comp _ _ _ _ _ (d_quad y (k_sigm z)) (sigm_derive z))|]. unfold k_dsigm. ring.
  - pose proof (sigm_range z) as Hr. eapply d_eq.
    + apply (d_comp _ _ _ _ _ (d_xent tiny y (k_sigm z) Ht HD Hr) (sigm_derive z)).
    + pose proof (prob_pos (k_sigm z) y Hr). unfold k_dsigm. field. lra.
  - eapply d_eq.
    + apply (d_comp _ _ _ _ _ (d_quad y _) (pieces_smooth _ _ _ _ _ (softsigm_pieces _ (milli_pos _ Had)) z)).
    + unfold k_dsoftsigm. pose proof (milli_pos _ Had). field. lra.
  - pose proof (softsigm_range _ z (milli_pos _ Had)) as Hr. eapply d_eq.
    + apply (d_comp _ _ _ _ _ (d_xent tiny y _ Ht HD Hr) (pieces_smooth _ _ _ _ _ (softsigm_pieces _ (milli_pos _ Had)) z)).
    + pose proof (prob_pos _ y Hr). unfold k_dsoftsigm. pose proof (milli_pos _ Had). field. repeat split; lra.
  - unfold k_identity. eapply d_eq; [apply d_quad|]. ring.
  - unfold k_identity. eapply d_eq; [apply (d_weighted w y z); exact HD|]. ring.
  - destruct HD as [Hb Hr]. apply d_xent; assumption.
  - destruct HD as [Hb Hr]. apply d_xent; assumption.
Qed.

(** ** Sums *)

Lemma sumR_app l l' : sumR (l ++ l') = sumR l + sumR l'.
Proof. unfold sumR. induction l as [|x l IH]; simpl; [ring|rewrite IH; ring]. Qed.

Lemma sumR_perm l l' : Permutation l l' -> sumR l = sumR l'.
Proof. unfold sumR. induction 1; simpl; lra. Qed.

Lemma bget_nth (l : list R) i : (i < length l)%nat -> bget l i = Some (nth i l 0).
Proof. intros H. apply nth_error_nth'. exact H. Qed.

Lemma range_sum_ok l A Y er s0 :
  (r_ofs er + r_cnt er <= length A)%nat -> (r_ofs er + r_cnt er <= length Y)%nat ->
  for_loop (r_ofs er) (r_cnt er) (fun i ret => do a <- bget A i; do y <- bget Y i; Some (ret + l a y)) s0 =
  Some (s0 + sumR (map (fun i => l (nth i A 0) (nth i Y 0)) (idxs er))).
Proof.
  destruct er as [o n]. unfold idxs. simpl. revert o s0.
  induction n as [|n IH]; intros o s0 HA HY; simpl.
  - f_equal. unfold sumR. simpl. ring.
  - rewrite (bget_nth A o), (bget_nth Y o) by lia. simpl. rewrite IH by lia. f_equal. unfold sumR. simpl. ring.
Qed.

Lemma kahan_step_exact s y : (s + (y - 0)) - s - (y - 0) = 0.
Proof. ring. Qed.

Lemma range_kahan_ok l A Y er s0 :
  (r_ofs er + r_cnt er <= length A)%nat -> (r_ofs er + r_cnt er <= length Y)%nat ->
  for_loop (r_ofs er) (r_cnt er) (fun i (st : R * R) =>
    do a <- bget A i; do y <- bget Y i;
    let '(sum, C) := st in
    let Yv := l a y - C in
    let T := sum + Yv in
    Some (T, T - sum - Yv)) (s0, 0) =
  Some (s0 + sumR (map (fun i => l (nth i A 0) (nth i Y 0)) (idxs er)), 0).
Proof.
  destruct er as [o n]. unfold idxs. simpl. revert o s0.
  induction n as [|n IH]; intros o s0 HA HY; simpl.
  - do 2 f_equal. unfold sumR. simpl. ring.
  - rewrite (bget_nth A o), (bget_nth Y o) by lia. simpl. rewrite kahan_step_exact. rewrite IH by lia.
    do 2 f_equal. unfold sumR. simpl. ring.
Qed.

Lemma reduce_sum_ok l : reduce_sum l = sumR l.
Proof.
  unfold reduce_sum. assert (H : forall s, fold_left Rplus l s = s + sumR l).
  { induction l as [|x l IH]; intros s; unfold sumR; simpl; [ring|]. rewrite IH. unfold sumR. ring. }
  rewrite H. ring.
Qed.

Lemma reduce_kahan_ok l : reduce_kahan l = sumR l.
Proof.
  unfold reduce_kahan. assert (H : forall s, fold_left (fun st v => let '(sum, C) := st in
    let Yv := v - C in let T := sum + Yv in (T, T - sum - Yv)) l (s, 0) = (s + sumR l, 0)).
  { induction l as [|x l IH]; intros s; unfold sumR; simpl; [f_equal; ring|].
    rewrite kahan_step_exact, IH. f_equal. unfold sumR. ring. }
  rewrite H. simpl. ring.
Qed.

Lemma omap_ok {X Y} (f : X -> option Y) (g : X -> Y) l : (forall x, In x l -> f x = Some (g x)) -> omap f l = Some (map g l).
Proof.
  induction l as [|x l IH]; intros H; simpl; [reflexivity|].
  rewrite (H x) by (left; reflexivity). simpl. rewrite IH by (intros; apply H; right; assumption). reflexivity.
Qed.

Lemma sum_parts (g : nat -> R) parts :
  sumR (map (fun er => sumR (map g (idxs er))) parts) = sumR (map g (flat_map idxs parts)).
Proof.
  induction parts as [|p parts IH]; simpl; [reflexivity|].
  rewrite map_app, sumR_app, <- IH. reflexivity.
Qed.

Lemma tiles_within parts cnt p : tiles parts cnt -> In p parts -> (r_ofs p + r_cnt p <= cnt)%nat.
Proof.
  intros [HP Hn] Hin. specialize (Hn p Hin).
  assert (H : In (r_ofs p + (r_cnt p - 1))%nat (flat_map idxs parts)).
  { apply in_flat_map. exists p. split; [exact Hin|]. unfold idxs. apply in_seq. lia. }
  apply (Permutation_in _ HP) in H. apply in_seq in H. lia.
Qed.

Theorem loss_total_ok tiny ns o parts acts data_y n :
  tiles parts n -> (n <= length (m_data acts))%nat -> (n <= length (m_data data_y))%nat ->
  loss_total tiny ns o parts acts data_y = Some (loss_spec (outp_loss tiny o) n (m_data acts) (m_data data_y)).
Proof.
  intros HT HA HY. unfold loss_total, loss_spec.
  set (g := fun i => outp_loss tiny o (nth i (m_data acts) 0) (nth i (m_data data_y) 0)).
  assert (HK : forall er, In er parts ->
    (if ns then range_sum_kahan else range_sum) (outp_loss tiny o) (m_data acts) (m_data data_y) er =
    Some (sumR (map g (idxs er)))).
  { intros er Her. pose proof (tiles_within _ _ _ HT Her). destruct ns.
    - unfold range_sum_kahan. rewrite range_kahan_ok by lia. simpl. f_equal. unfold g. ring.
    - unfold range_sum. rewrite range_sum_ok by lia. f_equal. unfold g. ring. }
  rewrite (omap_ok _ (fun er => sumR (map g (idxs er))) parts) by exact HK. simpl. f_equal.
  transitivity (sumR (map (fun er => sumR (map g (idxs er))) parts)).
  - destruct ns; [apply reduce_kahan_ok|apply reduce_sum_ok].
  - rewrite sum_parts. apply sumR_perm. apply Permutation_map. apply HT.
Qed.

(** ** The gradient of a batch *)

Lemma setn_nth_eq k x l : (k < length l)%nat -> nth k (setn k x l) 0 = x.
Proof.
  intros H. unfold setn. rewrite app_nth2; rewrite firstn_length_le by lia; [|lia]. rewrite Nat.sub_diag. reflexivity.
Qed.

Lemma setn_nth_neq k x l i : (k < length l)%nat -> i <> k -> nth i (setn k x l) 0 = nth i l 0.
Proof.
  intros H Hi. unfold setn. 
  rewrite <- (firstn_skipn k l) at 3.
  destruct (Nat.lt_ge_cases i k).
  - rewrite !app_nth1 by (rewrite firstn_length_le; lia). reflexivity.
  - rewrite !app_nth2 by (rewrite firstn_length_le; lia). rewrite firstn_length_le by lia.
    destruct (i - k)%nat as [|j] eqn:E; [lia|]. cbn [nth].
    destruct (skipn k l) as [|y t] eqn:Es.
    + apply (f_equal (@length R)) in Es. rewrite skipn_length in Es. simpl in Es. lia.
    + replace (skipn (S k) l) with t; [reflexivity|]. apply skipn_cons_inv in Es. rewrite Nat.add_1_r in Es. symmetry. apply Es.
Qed.

Lemma setn_length k x l : (k < length l)%nat -> length (setn k x l) = length l.
Proof. intros H. unfold setn. rewrite app_length, firstn_length_le by lia. cbn [length]. rewrite skipn_length. lia. Qed.

Lemma d_plus (f g : R -> R) x df dg : is_derive f x df -> is_derive g x dg -> is_derive (fun t => f t + g t) x (df + dg).
Proof. intros. apply (is_derive_plus f g); assumption. Qed.

Lemma d_sum_seq (F : R -> nat -> R) (dF : nat -> R) x l :
  (forall i, In i l -> is_derive (fun t => F t i) x (dF i)) ->
  is_derive (fun t => sumR (map (F t) l)) x (sumR (map dF l)).
Proof.
  induction l as [|i l IH]; intros H; unfold sumR; simpl; [apply d_const|].
  apply d_plus; [apply H; left; reflexivity|]. apply IH. intros; apply H; right; assumption.
Qed.

Lemma sumR_single k v n : (k < n)%nat -> sumR (map (fun i => if Nat.eqb i k then v else 0) (seq 0 n)) = v.
Proof.
  intros H. replace n with (k + S (n - k - 1))%nat by lia. rewrite seq_app, map_app, sumR_app. simpl.
  assert (Hz : forall l, (forall i, In i l -> i <> k) -> sumR (map (fun i => if Nat.eqb i k then v else 0) l) = 0).
  { induction l as [|i l IH]; intros Hl; unfold sumR; simpl; [reflexivity|].
    destruct (Nat.eqb_spec i k) as [E|E]; [exfalso; apply (Hl i); [left; reflexivity|exact E]|].
    unfold sumR in IH. rewrite IH by (intros; apply Hl; right; assumption). ring. }
  rewrite Hz by (intros i Hi; apply in_seq in Hi; lia).
  unfold sumR at 1. simpl. rewrite Nat.eqb_refl. 
  change (fold_right Rplus 0) with sumR.
  rewrite Hz by (intros i Hi; apply in_seq in Hi; lia). ring.
Qed.

Theorem batch_gradient tiny o Y Z k : 0 <= tiny -> admissible (outp_act o) -> (k < length Z)%nat ->
  loss_domain o (nth k Y 0) (nth k Z 0) ->
  let a := act_f (outp_act o) (nth k Z 0) in
  is_derive (fun z => batch_loss tiny o Y (setn k z Z)) (nth k Z 0)
    (outp_dLdZ o (nth k Y 0) a * eps_factor tiny o (nth k Y 0) a).
Proof.
  intros Ht Had Hk HD a.
  set (L := fun z y => outp_loss tiny o (act_f (outp_act o) z) y).
  set (v := outp_dLdZ o (nth k Y 0) a * eps_factor tiny o (nth k Y 0) a).
  apply (d_ext (fun z => sumR (map (fun i => if Nat.eqb i k then L z (nth k Y 0) else L (nth i Z 0) (nth i Y 0))
    (seq 0 (length Z))))).
  { intros z. unfold batch_loss, loss_spec. rewrite setn_length by exact Hk. f_equal. apply map_ext_in.
    intros i Hi. fold (L (nth i (setn k z Z) 0) (nth i Y 0)).
    destruct (Nat.eqb_spec i k) as [->|E]; [rewrite setn_nth_eq by exact Hk|rewrite setn_nth_neq by assumption]; reflexivity. }
  rewrite <- (sumR_single k v (length Z) Hk).
  apply (d_sum_seq (fun z i => if Nat.eqb i k then L z (nth k Y 0) else L (nth i Z 0) (nth i Y 0))
    (fun i => if Nat.eqb i k then v else 0)).
  intros i Hi. destruct (Nat.eqb_spec i k) as [->|E].
  - apply loss_derive; assumption.
  - apply d_const.
Qed.
