(** The kernels, and the format. *)
From Coq Require Import Reals Lra Lia.
From Flocq Require Import Core Plus_error Relative.
From Verif Require Import Base BaseLemmas Workers_Model Workers_Spec Kern_Model Kern_Spec Kern_Proofs Act_Spec
  Loss_Proofs Sum_Model Sum_Spec Sum_Proofs Fs_Model Fs_Spec Fs_Proofs Fs_Proofs2.
Local Open Scope R_scope.

(** ** Loops *)
Lemma loop_fold {S} (op : S -> R -> S) (body : nat -> S -> option S) (g : nat -> R) : forall n lo s,
  (forall i s, (lo <= i < lo + n)%nat -> body i s = Some (op s (g i))) ->
  for_loop lo n body s = Some (fold_left op (map g (seq lo n)) s).
Proof.
  induction n as [|n IH]; intros lo s H; cbn [for_loop seq map fold_left]; [reflexivity|].
  rewrite H by lia. cbn [obind]. apply IH. intros; apply H; lia.
Qed.
Lemma vec_fold {S} (op : S -> R -> S) data ofs n s : (ofs + n <= length data)%nat ->
  vec_apply_func data ofs n op s = Some (fold_left op (firstn n (skipn ofs data)) s).
Proof.
  intros H. unfold vec_apply_func. rewrite (loop_fold op _ (fun i => nth (ofs + i) data 0)).
  - rewrite (part_of_list data 0) by exact H. rewrite (seq_shift0 (fun j => nth j data 0)). reflexivity.
  - intros i s0 Hi. rewrite bget_elem by lia. reflexivity.
Qed.
Lemma vec_fold' {S} (op : S -> R -> S) (h : R -> R) data ofs n s : (ofs + n <= length data)%nat ->
  vec_apply_func data ofs n (fun s v => op s (h v)) s = Some (fold_left op (map (fun i => h (nth i data 0)) (seq ofs n)) s).
Proof.
  intros H. unfold vec_apply_func. rewrite (loop_fold op _ (fun i => h (nth (ofs + i) data 0))).
  - rewrite (seq_shift0 (fun j => h (nth j data 0))). reflexivity.
  - intros i s0 Hi. rewrite bget_elem by lia. reflexivity.
Qed.
Definition differs (cv v : R) : bool := if Req_EM_T v cv then false else true.
Lemma kahannz_fold rnd cv l : forall r C c,
  fold_left (fkahannz_op rnd cv) l (r, C, c) =
  (fold_left (fkahan_op rnd) (filter (differs cv) l) (r, C), (c + length (filter (differs cv) l))%nat).
Proof.
  induction l as [|v l IH]; intros r C c; cbn [fold_left filter]; [cbn; rewrite Nat.add_0_r; reflexivity|].
  assert (D : differs cv v = if Req_EM_T v cv then false else true) by reflexivity.
  unfold fkahannz_op at 2. rewrite D. destruct (Req_EM_T v cv); [apply IH|].
  rewrite IH. cbn [fold_left length]. f_equal. lia.
Qed.

(** ** Errors of the terms *)
Section E.
Context (q mu : R) (Hq : 0 <= q) (Hmu : 0 <= mu).
Lemma terms_near (t z : nat -> R) n : (forall i, (i < n)%nat -> Rabs (t i - z i) <= q * Rabs (z i) + mu) ->
  Rabs (total n t - total n z) <= q * total n (fun i => Rabs (z i)) + INR n * mu /\
  total n (fun i => Rabs (t i)) <= (1 + q) * total n (fun i => Rabs (z i)) + INR n * mu.
Proof.
  unfold total. induction n as [|n IH]; intros H.
  - cbn. unfold sumR. cbn. rewrite Rminus_0_r, Rabs_R0. lra.
  - destruct IH as [I1 I2]; [intros; apply H; lia|]. rewrite seq_S, !map_app, !sumR_app. cbn [map Nat.add]. rewrite !sumR_cons. change (sumR nil) with 0.
    rewrite S_INR. specialize (H n ltac:(lia)). split.
    + match goal with |- Rabs (?a + (t n + 0) - (?b + (z n + 0))) <= _ => replace (a + (t n + 0) - (b + (z n + 0))) with ((a - b) + (t n - z n)) by ring end.
      eapply Rle_trans; [apply abs_add; [exact I1|exact H]|]. lra.
    + assert (Rabs (t n) <= (q * Rabs (z n) + mu) + Rabs (z n)) by (replace (t n) with ((t n - z n) + z n) by ring; apply abs_add; [exact H|apply Rle_refl]). lra.
Qed.
End E.

(** ** The format *)
Section F.
Context (prec emin : Z) (choice : Z -> bool) (Hp : (6 <= prec)%Z).
Local Notation rnd := (nearest prec emin choice).
Local Notation fmt := (float prec emin).
Local Notation u := (unit_roundoff prec).
Local Notation mu := (tiny_error emin).
#[local] Instance prec_pos : Prec_gt_0 prec. Proof. unfold Prec_gt_0. lia. Qed.
Lemma u_range : 0 <= u <= / 64.
Proof.
  unfold unit_roundoff. split; [apply bpow_ge_0|]. change (/ 64) with (bpow radix2 (- (6))). apply bpow_le. lia.
Qed.
Lemma mu_pos : 0 <= mu. Proof. apply bpow_ge_0. Qed.
Lemma f_0 : fmt 0. Proof. apply generic_format_0. Qed.
Lemma f_rnd x : fmt (rnd x). Proof. apply generic_format_round; typeclasses eauto. Qed.
Lemma f_neg x : fmt x -> fmt (- x). Proof. apply generic_format_opp. Qed.
Lemma f_id x : fmt x -> rnd x = x. Proof. apply round_generic. typeclasses eauto. Qed.
Lemma half_ulp : / 2 * bpow radix2 (- prec + 1) = u.
Proof. unfold unit_roundoff. rewrite bpow_plus. change (bpow radix2 1) with 2. field. Qed.
Lemma f_add x y : fmt x -> fmt y -> exists e, Rabs e <= u /\ rnd (x + y) = (x + y) * (1 + e).
Proof.
  intros Hx Hy. destruct (FLT_plus_error_N_ex radix2 emin prec choice x y Hx Hy) as (e & He & E). exists e. split; [|exact E].
  eapply Rle_trans; [exact He|]. eapply Rle_trans; [apply u_rod1pu_ro_le_u_ro|]. unfold u_ro. rewrite half_ulp. apply Rle_refl.
Qed.
Lemma f_any x : exists e d, Rabs e <= u /\ Rabs d <= mu /\ rnd x = x * (1 + e) + d.
Proof.
  destruct (error_N_FLT radix2 emin prec prec_pos choice x) as (e & d & He & Hd & _ & E). exists e, d. rewrite half_ulp in He. split; [exact He|]. split; [|exact E].
  eapply Rle_trans; [exact Hd|]. unfold tiny_error, Zminus. rewrite bpow_plus. change (bpow radix2 (- (1))) with (/ 2). lra.
Qed.
Lemma f_near x : Rabs (rnd x - x) <= u * Rabs x + mu.
Proof.
  destruct (f_any x) as (e & d & He & Hd & ->). replace (x * (1 + e) + d - x) with (e * x + d) by ring. apply abs_add; [|exact Hd]. apply abs_mul; [exact He|apply Rle_refl].
Qed.

(** ** The theorems *)
Local Notation kb := (kahan_bound u u_range rnd fmt f_0 f_rnd f_neg f_add).
Theorem vector_main data ofs n : (ofs + n <= length data)%nat -> let l := firstn n (skipn ofs data) in
  Forall fmt l -> INR n * u <= 1 ->
  (exists s, fvec_sum rnd true data ofs n = Some s /\ fmt s /\ stable_sum u l s) /\
  (exists s, fvec_sum rnd false data ofs n = Some s /\ fmt s /\ plain_sum u l s) /\
  (forall cv, exists s C, vec_apply_func data ofs n (fkahannz_op rnd cv) (0, 0, 0%nat) = Some (s, C, length (filter (differs cv) l)) /\
     fmt s /\ stable_sum u (filter (differs cv) l) s).
Proof.
  intros H l Fl Hn. assert (Ll : length l = n) by (unfold l; rewrite firstn_length, skipn_length; lia).
  split; [|split].
  - unfold fvec_sum. rewrite vec_fold by exact H. fold l. cbn [obind]. eexists. split; [reflexivity|]. apply kb; [rewrite Ll; exact Hn|exact Fl].
  - unfold fvec_sum. rewrite vec_fold by exact H. fold l. eexists. split; [reflexivity|]. exact (plain_bound u u_range rnd fmt f_0 f_rnd f_add l Fl).
  - intros cv. rewrite vec_fold by exact H. fold l. rewrite kahannz_fold. cbn [Nat.add]. set (l' := filter (differs cv) l).
    destruct (fold_left (fkahan_op rnd) l' (0, 0)) as [s C] eqn:E. exists s, C. split; [reflexivity|].
    assert (Hl' : (length l' <= n)%nat) by (rewrite <- Ll; unfold l'; clear; induction l as [|v l IH]; cbn; [lia|]; destruct (differs cv v); cbn; lia).
    change s with (fst (s, C)). rewrite <- E. apply kb.
    + eapply Rle_trans; [|exact Hn]. apply Rmult_le_compat_r; [apply u_range|apply le_INR, Hl'].
    + apply Forall_forall. intros v Hv. apply filter_In in Hv. rewrite Forall_forall in Fl. apply Fl, Hv.
Qed.
Theorem cells_main cells : Forall fmt cells -> INR (length cells) * u <= 1 ->
  stable_sum u cells (freduce_vec_sum rnd true cells) /\ plain_sum u cells (freduce_vec_sum rnd false cells).
Proof.
  intros Fl Hn. split; [apply kb; assumption|]. apply (plain_bound u u_range rnd fmt f_0 f_rnd f_add cells Fl).
Qed.

Lemma total_nonneg n z : total n (fun i => Rabs (z i)) = abs_total (map z (seq 0 n)).
Proof. unfold total, abs_total. rewrite map_map. reflexivity. Qed.
(** from the sum of the rounded terms to that of the terms *)
Lemma with_terms n r t z q : (0 < n)%nat -> INR n * u <= 1 -> 0 <= q <= / 16 ->
  (forall i, (i < n)%nat -> Rabs (t i - z i) <= q * Rabs (z i) + mu) ->
  Rabs (r - total n t) <= (6 * u + 64 * INR n * u * u) * total n (fun i => Rabs (t i)) ->
  Rabs (r - total n z) <= ((6 * u + 64 * INR n * u * u) * (1 + q) + q) * total n (fun i => Rabs (z i)) + 5 / 2 * INR n * mu.
Proof.
  intros H0 Hn Hq Ht Hr. destruct (terms_near q mu t z n Ht) as [T1 T2]. pose proof u_range as Hu. pose proof mu_pos as Hm.
  set (k := INR n) in *. assert (Hk : 1 <= k) by (unfold k; change 1 with (INR 1); apply le_INR; lia).
  assert (Hku : 0 <= k * u * u <= 1 * u). { split; [repeat apply Rmult_le_pos; lra|apply Rmult_le_compat_r; lra]. }
  replace (r - total n z) with ((r - total n t) + (total n t - total n z)) by ring.
  eapply Rle_trans; [apply abs_add; [eapply Rle_trans; [exact Hr|apply Rmult_le_compat_l; [lra|exact T2]]|exact T1]|].
  assert (Hkm : 0 <= k * mu) by (apply Rmult_le_pos; lra).
  assert (M : (6 * u + 64 * k * u * u) * (k * mu) <= 70 / 64 * (k * mu)) by (apply Rmult_le_compat_r; lra). lra.
Qed.

Theorem squares_main pool thr data n : (0 < n <= length data)%nat -> Forall fmt data -> INR n * u <= 1 ->
  exists s, fewSumSquares rnd pool thr true data n = Some s /\ fmt s /\
    Rabs (s - total n (fun i => Rsqr (nth i data 0))) <=
      (7 * u + 72 * INR n * u * u) * total n (fun i => Rsqr (nth i data 0)) + 3 * INR n * mu.
Proof.
  intros [H0 Hd] Fd Hn. set (t := fun i => rnd (nth i data 0 * nth i data 0)). set (z := fun i => nth i data 0 * nth i data 0).
  assert (HK : kloop_ok rnd (fun er => fvec_sum_squares rnd true data (r_ofs er) (r_cnt er)) t n).
  { intros p Hp'. unfold fvec_sum_squares. change (fkahansq_op rnd) with (fun s v => fkahan_op rnd s (rnd (v * v))).
    rewrite vec_fold' with (h := fun v => rnd (v * v)) by lia. reflexivity. }
  destruct (dispatch_near u u_range rnd fmt f_0 f_rnd f_neg f_add (fun er => fvec_sum_squares rnd true data (r_ofs er) (r_cnt er)) t pool (n <? thr)%nat n H0 Hn) as (s & E & Fs & B); [intros; apply f_rnd|exact HK|].
  exists s. split; [exact E|]. split; [exact Fs|].
  pose proof u_range as Hu. apply (with_terms n s t z u H0 Hn) in B; [|lra|intros i _; apply f_near].
  assert (Ez : total n (fun i => Rabs (z i)) = total n z).
  { unfold total. f_equal. apply map_ext. intros i. apply Rabs_pos_eq. unfold z. apply Rle_0_sqr. }
  rewrite Ez in B. change (total n (fun i => Rsqr (nth i data 0))) with (total n z). eapply Rle_trans; [exact B|].
  assert (HZ : 0 <= total n z) by (rewrite <- Ez, total_nonneg; apply absum_nonneg). set (Z := total n z) in *.
  set (k := INR n) in *. assert (Hk : 1 <= k) by (unfold k; change 1 with (INR 1); apply le_INR; lia).
  pose proof mu_pos as Hm. assert (Hkm : 0 <= k * mu) by (apply Rmult_le_pos; lra).
  apply Rplus_le_compat; [|lra]. apply Rmult_le_compat_r; [exact HZ|].
  assert (U2 : 0 <= u * u) by (apply Rmult_le_pos; lra). assert (U3 : 1 * (u * u) <= k * (u * u)) by (apply Rmult_le_compat_r; lra).
  assert (U4 : u * (k * (u * u)) <= / 64 * (k * (u * u))) by (apply Rmult_le_compat_r; lra). lra.
Qed.

Lemma quad_kernel acts y n : (n <= length (m_data acts))%nat -> (n <= length (m_data y))%nat ->
  kloop_ok rnd (filoss_quadratic_ns_st rnd acts y) (fun i => rnd (rnd (elem acts i - elem y i) * rnd (elem acts i - elem y i))) n.
Proof.
  intros H1 H2 p Hpp. unfold filoss_quadratic_ns_st.
  rewrite (loop_fold (fkahan_op rnd) _ (fun i => rnd (rnd (elem acts i - elem y i) * rnd (elem acts i - elem y i)))); [reflexivity|].
  intros i [s C] Hi. rewrite !bget_elem by lia. reflexivity.
Qed.
Theorem loss_main pool thr acts y : fits acts y -> Forall fmt (m_data acts) -> Forall fmt (m_data y) -> INR (numel acts) * u <= 1 ->
  exists s, floss_quadratic rnd pool thr true acts y = Some s /\ fmt s /\
    let L := / 2 * total (numel acts) (fun i => Rsqr (elem acts i - elem y i)) in
    Rabs (s - L) <= (10 * u + 104 * INR (numel acts) * u * u) * L + 3 * INR (numel acts) * mu.
Proof.
  intros (HA & HY & H0) FA FY Hn. set (n := numel acts) in *.
  set (d := fun i => elem acts i - elem y i). set (t := fun i => rnd (rnd (d i) * rnd (d i))). set (z := fun i => d i * d i).
  assert (HA' : (n <= length (m_data acts))%nat) by (unfold n; unfold alloc in HA; lia).
  destruct (dispatch_near u u_range rnd fmt f_0 f_rnd f_neg f_add (filoss_quadratic_ns_st rnd acts y) t pool (n <? thr)%nat n H0 Hn) as (r & E & Fs & B); [intros; apply f_rnd|exact (quad_kernel acts y n HA' HY)|].
  exists (rnd (r / 2)). split; [unfold floss_quadratic; fold n; rewrite E; reflexivity|]. split; [apply f_rnd|].
  pose proof u_range as Hu. pose proof mu_pos as Hm.
  assert (Hel : forall m i, Forall fmt (m_data m) -> (i < length (m_data m))%nat -> fmt (elem m i)) by (intros m i Fm Hi; rewrite Forall_forall in Fm; apply Fm, nth_In, Hi).
  assert (Ht : forall i, (i < n)%nat -> Rabs (t i - z i) <= (3 * u + 4 * u * u) * Rabs (z i) + mu).
  { intros i Hi. assert (exists e, Rabs e <= u /\ rnd (d i) = d i * (1 + e)) as (e & He & Ee).
    { unfold d. apply (f_add (elem acts i) (- elem y i)); [apply Hel; [exact FA|lia]|apply f_neg, Hel; [exact FY|lia]]. }
    unfold t. rewrite Ee. destruct (f_any (d i * (1 + e) * (d i * (1 + e)))) as (e' & dd & He' & Hdd & ->).
    replace (d i * (1 + e) * (d i * (1 + e)) * (1 + e') + dd - z i) with (((e + e + e * e) * (1 + e') + e') * z i + dd) by (unfold z; ring).
    apply abs_add; [|exact Hdd]. rewrite Rabs_mult. apply Rmult_le_compat_r; [apply Rabs_pos|].
    eapply Rle_trans; [apply abs_add; [apply abs_mul; [apply abs_add; [apply abs_add; exact He|apply abs_mul; exact He]|apply abs_1p; exact He']|exact He']|].
    pose proof (small u Hu u ltac:(lra)) as S1. pose proof (small u Hu _ (proj1 S1)) as S2. lra. }
  apply (with_terms n r t z (3 * u + 4 * u * u) H0 Hn) in B; [| |exact Ht].
  2:{ pose proof (small u Hu u ltac:(lra)) as S1. lra. }
  assert (Ez : total n (fun i => Rabs (z i)) = total n z).
  { unfold total. f_equal. apply map_ext. intros i. apply Rabs_pos_eq. unfold z. apply Rle_0_sqr. }
  rewrite Ez in B. cbn zeta. change (total n (fun i => Rsqr (elem acts i - elem y i))) with (total n z).
  assert (HZ : 0 <= total n z) by (rewrite <- Ez, total_nonneg; apply absum_nonneg). set (Z := total n z) in *.
  set (k := INR n) in *. assert (Hk : 1 <= k) by (unfold k; change 1 with (INR 1); apply le_INR; lia).
  destruct (f_any (r / 2)) as (e & dd & He & Hdd & ->).
  replace (r / 2 * (1 + e) + dd - / 2 * Z) with (/ 2 * ((r - Z) * (1 + e) + e * Z) + dd) by field.
  assert (Hb : Rabs ((r - Z) * (1 + e) + e * Z) <= (((6 * u + 64 * k * u * u) * (1 + (3 * u + 4 * u * u)) + (3 * u + 4 * u * u)) * Z + 5 / 2 * k * mu) * (1 + u) + u * Z).
  { apply abs_add; [apply abs_mul; [exact B|apply abs_1p; exact He]|]. rewrite Rabs_mult, (Rabs_pos_eq Z HZ). apply Rmult_le_compat_r; assumption. }
  eapply Rle_trans; [apply abs_add; [rewrite Rabs_mult, (Rabs_pos_eq (/ 2)) by lra; apply Rmult_le_compat_l; [lra|exact Hb]|exact Hdd]|].
  assert (Hkm : mu <= k * mu) by (rewrite <- (Rmult_1_l mu) at 1; apply Rmult_le_compat_r; lra).
  assert (Hkm2 : u * (k * mu) <= / 64 * (k * mu)) by (apply Rmult_le_compat_r; lra).
  pose proof (small u Hu Z HZ) as S1. pose proof (small u Hu _ (proj1 S1)) as S2. pose proof (small u Hu _ (proj1 S2)) as S3. pose proof (small u Hu _ (proj1 S3)) as S4.
  assert (Z2 : 1 * (u * (u * Z)) <= k * (u * (u * Z))) by (apply Rmult_le_compat_r; lra).
  assert (Z20 : 0 <= k * (u * (u * Z))) by lra.
  pose proof (small u Hu _ Z20) as S5. pose proof (small u Hu _ (proj1 S5)) as S6. pose proof (small u Hu _ (proj1 S6)) as S7. lra.
Qed.
End F.
