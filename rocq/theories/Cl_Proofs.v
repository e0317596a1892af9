(** Proofs about [Cl_Model]. *)
From Coq Require Import Reals Lra Bool.
From Verif Require Import Base BaseLemmas Workers_Model Kern_Model Kern_Spec Kern_Proofs
  Act_Spec Loss_Proofs Sum_Model Sum_Spec Sum_Proofs Norm_Model Opt_Model Tri_Spec Net_Proofs Rng_Proofs La_Model La_Spec La_Proofs La_Proofs2
  Sfm_Model Rw_Model Rw_Spec Rw_Proofs Cl_Model Cl_Spec.
Local Open Scope R_scope.

Lemma vmap_closed g h p k : (forall a, (p <= a < p + k)%nat -> g a = Some (h a)) ->
  vmap g p (p + k) = Some (flat_map (fun i => [((p + i)%nat, h (p + i)%nat)]) (seq 0 k)).
Proof.
  intros H. unfold vmap.
  rewrite (ptr_loop_closed' k p _ 1 _ _ (fun _ => tt) (fun i => [((p + i)%nat, h (p + i)%nat)])); [reflexivity|reflexivity|lia|lia|].
  intros i Hi. rewrite Nat.mul_1_r, H by lia. reflexivity.
Qed.
Lemma vmap_computes thr pool big n g h (d : list R) : (0 < n)%nat -> (n <= length d)%nat -> (forall a, (a < n)%nat -> g a = Some (h a)) ->
  computes (par (fun r => vmap g (r_ofs r) (r_ofs r + r_cnt r)) (by_thr pool thr big n)) d (fun d' =>
    (forall a, (a < n)%nat -> nth a d' 0 = h a) /\ (forall a, (n <= a)%nat -> nth a d' 0 = nth a d 0)).
Proof.
  intros Hn Hd Hg.
  eapply computes_weaken; [|apply (computes_block _ _ n d n n 1 (fun i _ => Some (h i)) (fun i _ => i))].
  - intros d' HL [H1 H2]. split.
    + intros a Ha. destruct (H1 a 0%nat Ha ltac:(lia)) as [E _]. rewrite Nat.mul_0_r, Nat.add_0_r in E. rewrite bget_n in E by lia. injection E as E. exact E.
    + intros a Ha. apply bget_eq_nth, H2. intros i j Hi Hj. nia.
  - apply by_thr_tiles. exact Hn.
  - lia.
  - intros i j Hi Hj. split; [nia|]. split; [exact Hi|discriminate].
  - intros p _ H0 H1. rewrite (vmap_closed g h) by (intros a Ha; apply Hg; lia). eexists. split; [reflexivity|]. intros a v.
    rewrite (in_run h). split.
    + intros [Ha ->]. exists a, 0%nat. repeat split; lia.
    + intros (i & j & Hi & Hj & -> & Hv & Ho). injection Hv as <-. assert (j = 0)%nat by lia. subst j. rewrite Nat.mul_0_r, Nat.add_0_r. split; [lia|reflexivity].
Qed.

(** ** C140 *)
Lemma clamp_nearest lo hi x : lo < hi -> nearest lo hi x (clamp lo hi x).
Proof.
  intros H. unfold nearest, clamp. destruct (Rlt_dec x lo); [|destruct (Rlt_dec hi x)]; (split; [lra|]); intros z Hz; unfold Rabs; repeat destruct (Rcase_abs _); lra.
Qed.
Lemma nearest_unique lo hi x y y' : nearest lo hi x y -> nearest lo hi x y' -> y = y'.
Proof.
  intros [H1 H2] [H3 H4]. pose proof (H2 _ H3) as A. pose proof (H4 _ H1) as B.
  pose proof (H2 ((y + y') / 2) ltac:(lra)) as C. unfold Rabs in *. repeat destruct (Rcase_abs _); lra.
Qed.
Lemma clamp_ok thr pool m lo hi : alloc m -> (0 < numel m)%nat -> lo < hi ->
  computes (evClamp thr pool m lo hi) (m_data m) (restricted lo hi (numel m) (m_data m)).
Proof.
  intros HA Hn Hl. unfold evClamp, guard. rewrite (proj2 (Nat.ltb_lt _ _) Hn). cbn [obind].
  destruct (Rlt_dec lo hi) as [_|]; [cbn [obind]|contradiction]. unfold alloc in HA.
  eapply computes_weaken; [|apply (vmap_computes thr pool _ _ _ (fun a => clamp lo hi (nth a (m_data m) 0)) (m_data m) Hn)].
  - intros d' _ [H1 H2]. split; [|exact H2]. intros a Ha. rewrite H1 by exact Ha. apply clamp_nearest. exact Hl.
  - lia.
  - intros a Ha. rewrite bget_n by lia. reflexivity.
Qed.

Lemma run_spec os : forall s now, (r_on s = true -> r_lo s < 0 < r_hi s) -> (now = if r_on s then Some (r_lo s, r_hi s) else None) -> Forall proper os ->
  exists s', r_run os s = Some s' /\ (r_on s' = true -> r_lo s' < 0 < r_hi s') /\ in_force os now = if r_on s' then Some (r_lo s', r_hi s') else None.
Proof.
  induction os as [|o os IH]; intros s now Hs Hn HF; cbn [r_run].
  - exists s. auto.
  - inversion HF as [|x y HP HF']; subst x y. destruct o as [lo hi|]; cbn [r_step in_force].
    + unfold req, rlt, guard. cbn in HP. destruct (Req_EM_T hi 0) as [Eh|Eh], (Req_EM_T lo 0) as [El|El]; cbn [orb andb obind]; try (exfalso; lra).
      * apply IH; [cbn; discriminate|reflexivity|exact HF'].
      * destruct (Rlt_dec lo 0) as [H1|H1]; [|exfalso; lra]. destruct (Rlt_dec 0 hi) as [H2|H2]; [|exfalso; lra]. cbn [andb obind].
        apply IH; [cbn; intros _; split; assumption|reflexivity|exact HF'].
    + cbn [obind]. apply IH; [cbn; discriminate|reflexivity|exact HF'].
Qed.

Theorem restriction_ok thr pool os m : alloc m -> (0 < numel m)%nat -> Forall proper os ->
  exists s, r_run os rst0 = Some s /\
  computes (restrict_dLdZ thr pool s m) (m_data m) (fun d' =>
    match in_force os None with
    | Some (lo, hi) => lo < 0 < hi /\ restricted lo hi (numel m) (m_data m) d'
    | None => d' = m_data m
    end).
Proof.
  intros HA Hn HF. destruct (run_spec os rst0 None) as (s & E & Hs & Hi); [discriminate|reflexivity|exact HF|].
  exists s. split; [exact E|]. rewrite Hi. unfold restrict_dLdZ. destruct (r_on s).
  - eapply computes_weaken; [|apply clamp_ok; try assumption]; [|specialize (Hs eq_refl); lra]. intros d' _ H. split; [apply Hs; reflexivity|exact H].
  - exists []. split; [reflexivity|]. split.
    + intros i j ti tj a v v' _ H. destruct i; discriminate H.
    + intros ws Hw. inversion Hw as [ts HFa|ts i x t ws' Hi']; subst.
      * exists (m_data m). cbn. auto.
      * destruct i; discriminate Hi'.
Qed.

(** no sign changes, nothing grows *)
Lemma nearest_sign lo hi x y : lo < 0 < hi -> nearest lo hi x y -> 0 <= x * y /\ Rabs y <= Rabs x /\ (y = 0 <-> x = 0).
Proof.
  intros H HN. assert (y = clamp lo hi x) as ->. { eapply nearest_unique; [exact HN|apply clamp_nearest; lra]. }
  unfold clamp. destruct (Rlt_dec x lo); [|destruct (Rlt_dec hi x)]; (split; [nra|]); (split; [unfold Rabs; repeat destruct (Rcase_abs _); lra|lra]).
Qed.

Lemma total_bound n f B : (forall k, (k < n)%nat -> Rabs (f k) <= B) -> Rabs (total n f) <= INR n * B.
Proof.
  intros H. unfold total.
  assert (G : forall s m, (forall k, (s <= k < s + m)%nat -> Rabs (f k) <= B) -> Rabs (sumR (map f (seq s m))) <= INR m * B).
  { intros s m. revert s. induction m as [|m IH]; intros s Hs; cbn [seq map].
    - cbn. rewrite Rabs_R0. lra.
    - rewrite S_INR. cbn [sumR fold_right]. fold (sumR (map f (seq (S s) m))).
      eapply Rle_trans; [apply Rabs_triang|]. pose proof (Hs s ltac:(lia)). pose proof (IH (S s) ltac:(intros; apply Hs; lia)). unfold sumR in *. lra. }
  apply G. intros k Hk. apply H. lia.
Qed.
Lemma grad_bound n z p M B : (0 < n)%nat -> (forall k, (k < n)%nat -> Rabs (z k) <= M) -> (forall k, (k < n)%nat -> Rabs (p k) <= B) ->
  Rabs (grad n z p) <= M * B.
Proof.
  intros Hn Hz Hp. unfold grad. assert (P : 0 < INR n) by (apply lt_0_INR; lia).
  rewrite Rabs_mult, (Rabs_pos_eq (/ INR n)) by (left; apply Rinv_0_lt_compat; exact P).
  assert (T : Rabs (total n (fun k => z k * p k)) <= INR n * (M * B)).
  { apply total_bound. intros k Hk. rewrite Rabs_mult. apply Rmult_le_compat; auto using Rabs_pos. }
  apply (Rmult_le_compat_l (/ INR n)) in T; [|left; apply Rinv_0_lt_compat; exact P].
  rewrite <- Rmult_assoc, Rinv_l, Rmult_1_l in T by lra. exact T.
Qed.
Theorem restricted_gradient thr pool m lo hi : alloc m -> (0 < m_rows m)%nat -> (0 < m_cols m)%nat -> lo < 0 < hi ->
  computes (evClamp thr pool m lo hi) (m_data m) (fun d' =>
    forall (i : nat) (p : nat -> R) B, (i < m_cols m)%nat -> (forall k, (k < m_rows m)%nat -> Rabs (p k) <= B) ->
      Rabs (grad (m_rows m) (fun k => nth (k + m_rows m * i) d' 0) p) <= Rmax (- lo) hi * B).
Proof.
  intros HA Hr Hc Hl. eapply computes_weaken; [|apply clamp_ok; [exact HA|unfold numel; nia|lra]].
  intros d' _ [H1 _] i p B Hi HB. apply grad_bound; [exact Hr| |exact HB]. intros k Hk.
  destruct (H1 (k + m_rows m * i)%nat) as [H2 _]; [unfold numel; nia|].
  pose proof (Rmax_l (- lo) hi). pose proof (Rmax_r (- lo) hi). apply Rabs_le. lra.
Qed.

(** ** C141 *)
Theorem compl_ok thr pool gate D : alloc gate -> m_bir gate = false -> (0 < numel_nb gate)%nat -> (numel_nb gate <= length D)%nat ->
  (forall a, (a < numel_nb gate)%nat -> nth a (m_data gate) 0 = 0 \/ nth a (m_data gate) 0 = 1) ->
  computes (evOneCompl thr pool gate) D (fun d' =>
    (forall i j, (i < m_rows gate)%nat -> (j < m_cols gate)%nat -> ~ bias_cell gate i j ->
       (nth (i + m_rows gate * j) d' 0 = 1 <-> nth (i + m_rows gate * j) (m_data gate) 0 = 0) /\
       (nth (i + m_rows gate * j) d' 0 = 0 <-> nth (i + m_rows gate * j) (m_data gate) 0 = 1)) /\
    (forall a, (m_rows gate * cols_nb gate <= a)%nat -> nth a d' 0 = nth a D 0)).
Proof.
  intros HA Hb Hn HD Hbin. unfold evOneCompl. assert (L : (numel_nb gate <= length (m_data gate))%nat).
  { unfold alloc, numel, numel_nb, cols_nb in *. nia. }
  eapply computes_weaken; [|apply (vmap_computes thr pool _ _ _ (fun a => 1 - nth a (m_data gate) 0) D Hn HD)].
  - intros d' _ [H1 H2]. split; [|exact H2]. intros i j Hi Hj Hc.
    assert (Q : (i + m_rows gate * j < numel_nb gate)%nat).
    { unfold numel_nb, cols_nb, has_bias_col, bias_cell in *. rewrite Hb in *. destruct (m_bias gate); cbn [negb andb Nat.b2n] in *.
      - assert (j <> m_cols gate - 1)%nat by tauto. nia.
      - nia. }
    rewrite (H1 _ Q). destruct (Hbin _ Q) as [-> | ->]; split; split; lra.
  - intros a Ha. rewrite bget_n by lia. cbn [obind]. unfold req, guard.
    destruct (Hbin a Ha) as [-> | ->]; repeat (destruct (Req_EM_T _ _); try (exfalso; lra); cbn [orb obind]); f_equal; lra.
Qed.
Lemma anb_ok f thr pool A M : fits A M -> computes (evAnb f thr pool A M) (m_data A) (combined f A M).
Proof.
  intros (HA & HM & Hb & Er & Ec & Hn). unfold evAnb.
  assert (EN : numel M = (m_rows A * cols_nb A)%nat) by (unfold numel; congruence).
  assert (LA : (numel M <= numel A)%nat). { rewrite EN. unfold numel, cols_nb. nia. }
  unfold alloc in *.
  eapply computes_weaken; [|apply (vmap_computes thr pool _ _ _ (fun a => f (nth a (m_data A) 0) (nth a (m_data M) 0)) (m_data A) Hn)].
  - intros d' _ [H1 H2]. unfold combined, cols_nb, has_bias_col, bias_cell in *. rewrite Hb in *. split; [|split].
    + intros i j Hi Hj Hbc. apply H1. rewrite EN. destruct (m_bias A); cbn [negb andb Nat.b2n] in *.
      * assert (j <> m_cols A - 1)%nat by tauto. nia.
      * nia.
    + intros i j Hi Hj [Eb Hbc]. apply H2. rewrite EN, Eb. cbn [negb andb Nat.b2n]. subst j. nia.
    + intros a Ha. apply H2. lia.
  - lia.
  - intros a Ha. rewrite !bget_n by lia. reflexivity.
Qed.
Theorem sub_mul_ok thr pool A M c : fits A M -> c <> 0 ->
  computes (evSubMtxMulC_ip_nb thr pool A M c) (m_data A) (combined (fun a m => (a - m) * c) A M).
Proof. intros H Hc. unfold evSubMtxMulC_ip_nb, guard, req. destruct (Req_EM_T c 0) as [|_]; [contradiction|]. cbn [negb obind]. apply anb_ok. exact H. Qed.
Theorem mulC_ok thr pool m c ib : has_elements m -> c <> 0 -> (m_bias m = true -> ib = true) ->
  computes (evMulC_ip thr pool m c ib) (m_data m) (adjusted (fun x => x * c) ib m).
Proof.
  intros H Hc Hb. unfold evMulC_ip, guard, req. destruct (Req_EM_T c 0) as [|_]; [contradiction|]. cbn [negb obind].
  replace (ib || negb (m_bias m))%bool with true by (destruct ib, (m_bias m); try reflexivity; discriminate (Hb eq_refl)). cbn [obind].
  apply evC_ok. exact H.
Qed.

Theorem scaled_ok thr pool m c ib : has_elements m ->
  (c <> 0 -> (m_bias m = true -> ib = true) -> computes (evMulC_ip thr pool m c ib) (m_data m) (adjusted (fun x => x * c) ib m)) /\
  (forall trs, evMulC_ip thr pool m c ib = Some trs -> computes (evMulC_ip thr pool m c ib) (m_data m) (adjusted (fun x => x * c) true m)).
Proof.
  intros H. split; [intros Hc Hb; apply mulC_ok; assumption|]. intros trs E.
  assert (Hc : c <> 0). { intros ->. revert E. unfold evMulC_ip, guard, req. destruct (Req_EM_T 0 0) as [_|N]; [discriminate|contradiction N; reflexivity]. }
  assert (Hb : m_bias m = true -> ib = true).
  { intros Hb. destruct ib; [reflexivity|]. revert E. unfold evMulC_ip, guard, req. rewrite Hb. destruct (Req_EM_T c 0); discriminate. }
  destruct (mulC_ok thr pool m c ib H Hc Hb) as (t & E1 & Rf & Hw). exists t. split; [exact E1|]. split; [exact Rf|].
  intros ws Hi. destruct (Hw ws Hi) as (d' & A1 & A2 & A3 & A4 & A5 & A6). exists d'. split; [exact A1|]. split; [exact A2|].
  split; [exact A3|]. split; [|split; [|exact A6]].
  - intros i j Hi' Hj [Q|Q]; [discriminate Q|]. apply A4; auto.
  - intros i j Hi' Hj _ Q. apply A5; auto. apply Hb. apply Q.
Qed.
