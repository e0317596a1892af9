(** Whole epochs and walks; initialisation; the main theorems. *)
From Coq Require Import Reals Lra Permutation.
From Verif Require Import Base BaseLemmas Act_Spec TData_Model TData_Spec TData_Proofs2 Nrm_Model Nrm_Spec Nrm_Proofs
  Tf_Model Tf_Spec Tf_Proofs Tf_Proofs2 Tf_Proofs5.
Local Open Scope nat_scope.
Notation ca := Tf_Proofs.ca. Notation cb := Tf_Proofs.cb.

Section P.
Context {Y FS : Type} (F : tfun Y FS) (st : stor) (derive : nat -> nat -> list (list R * Y)) (Q : protocol FS).
Notation td := (td FS). Notation sample := (list R * Y)%type. Notation s := (f_sibs F).

(** ** Series of batches *)
Lemma tall_one x y (D : list sample) : shows 0 x y D -> Permutation (tall [TData x y]) D.
Proof. intros (xs & ys & -> & -> & _ & P). cbn. rewrite app_nil_r. exact P. Qed.
Lemma seen_as_app a b (D E : list sample) : seen_as a b (D ++ E) = seen_as a b D ++ seen_as a b E.
Proof. apply map_app. Qed.

Lemma train_allowed fp tb c perm ks : Forall (fun k => k < st_cnt st 0 / c) ks -> trun_allowed F st derive fp tb (PTrain c perm) (map TBatch ks).
Proof.
  intros H. induction ks as [|k ks IH]; [constructor|]. inversion H as [|? ? H1 H2]; subst. cbn [map]. constructor; [exact H1|].
  intros a b r ph' [_ ->]. apply IH. exact H2.
Qed.
Lemma train_shows a b fp tb c perm ks : forall rs ph, trun_spec F st derive a b fp tb (PTrain c perm) (map TBatch ks) rs ph ->
  Permutation (tall rs) (seen_as a b (flat_map (derive 0) (flat_map (slice perm c) ks))).
Proof.
  induction ks as [|k ks IH]; intros rs ph H; cbn [map] in H; [inversion H; subst; constructor|].
  inversion H as [|? ? ? r rs' ph1 ph2 H1 H2]; subst. destruct H1 as [(x & y & -> & Hs) ->].
  cbn [flat_map]. rewrite flat_map_app, seen_as_app. change (tall (TData x y :: rs')) with (tall ([TData x y] ++ rs')). unfold tall. rewrite flat_map_app.
  apply Permutation_app; [apply (tall_one x y); exact Hs|]. apply (IH _ _ H2).
Qed.
Lemma walk_allowed fp tb id c flag ks : Forall (fun k => k < walks s (st_cnt st id) c) ks -> trun_allowed F st derive fp tb (PWalk id c flag) (map TNext ks).
Proof.
  intros H. induction ks as [|k ks IH]; [constructor|]. inversion H as [|? ? H1 H2]; subst. cbn [map]. constructor; [exact H1|].
  intros a b r ph' [_ ->]. apply IH. exact H2.
Qed.
Lemma walk_shows a b fp tb id c ks : forall rs ph, trun_spec F st derive a b fp tb (PWalk id c 0) (map TNext ks) rs ph ->
  Permutation (tall rs) (seen_as a b (flat_map (derive id) (flat_map (slice (seq 0 (st_cnt st id)) c) ks))).
Proof.
  induction ks as [|k ks IH]; intros rs ph H; cbn [map] in H; [inversion H; subst; constructor|].
  inversion H as [|? ? ? r rs' ph1 ph2 H1 H2]; subst. destruct H1 as [(x & y & -> & Hs) ->].
  cbn [flat_map]. rewrite flat_map_app, seen_as_app. change (tall (TData x y :: rs')) with (tall ([TData x y] ++ rs')). unfold tall. rewrite flat_map_app.
  apply Permutation_app; [apply (tall_one x y); exact Hs|]. apply (IH _ _ H2).
Qed.
Lemma slices_firstn (l : list nat) c m : flat_map (slice l c) (seq 0 m) = firstn (c * m) l.
Proof.
  induction m as [|m IH]; [rewrite Nat.mul_0_r; reflexivity|]. rewrite seq_S, flat_map_app, IH. cbn [flat_map Nat.add]. rewrite app_nil_r. unfold slice.
  replace (c * S m) with (c * m + c) by lia. clear. generalize (c * m). intros o. revert l. induction o as [|o IH]; intros l; [reflexivity|].
  destruct l as [|x l]; [cbn; rewrite firstn_nil; reflexivity|]. cbn [firstn skipn Nat.add app]. f_equal. apply IH.
Qed.
Lemma all_below n m : m <= n -> Forall (fun k => k < n) (seq 0 m).
Proof. intros H. apply Forall_forall. intros k Hk. apply in_seq in Hk. lia. Qed.

Theorem epoch_main a b t fp tb e rv ibs bs : tserves F st derive a b t fp tb -> rng_ok rv -> 0 < asked tb ibs bs <= tb -> asked tb ibs bs mod s = 0 ->
  let c := asked tb ibs bs / s in
  exists rs t' perm, trun F st t (TEpoch e rv ibs bs :: map TBatch (seq 0 (st_cnt st 0 / c))) = Some (TNum (st_cnt st 0 / c) :: rs, t') /\
    Permutation perm (seq 0 (st_cnt st 0)) /\
    Permutation (tall rs) (seen_as a b (flat_map (derive 0) (firstn (c * (st_cnt st 0 / c)) perm))) /\
    (st_cnt st 0 mod c = 0 -> Permutation (tall rs) (seen_as a b (flat_map (derive 0) (seq 0 (st_cnt st 0))))).
Proof.
  intros HS Hrv Hb Hm c. destruct (HS (TEpoch e rv ibs bs :: map TBatch (seq 0 (st_cnt st 0 / c)))) as (rs & t' & ph & E & Sp).
  { constructor; [cbn; auto|]. intros a' b' r ph' (perm & _ & _ & ->). apply train_allowed. apply all_below. reflexivity. }
  inversion Sp as [|? ? ? r rs' ph1 ph2 H1 H2]; subst. destruct H1 as (perm & HP & -> & ->). fold c in E, H2. pose proof (train_shows _ _ _ _ _ _ _ _ _ H2) as P. rewrite slices_firstn in P.
  exists rs', t', perm. split; [exact E|]. split; [exact HP|]. split; [exact P|]. intros Hc. rewrite P. clear P. apply Permutation_map.
  assert (El : c * (st_cnt st 0 / c) = length perm).
  { rewrite (Permutation_length HP), seq_length. destruct (Nat.eq_dec c 0) as [Z|Z]; [rewrite Z in *; cbn in Hc |- *; congruence|].
    pose proof (Nat.div_mod (st_cnt st 0) c Z). lia. }
  rewrite El, firstn_all. apply Permutation_flat_map. exact HP.
Qed.

Theorem walk_main a b t fp tb id ibs bs : tserves F st derive a b t fp tb -> id < 2 -> 0 < asked fp ibs bs <= fp -> asked fp ibs bs mod s = 0 ->
  let n := st_cnt st id in let c := Nat.min (asked fp ibs bs / s) n in
  exists rs t', trun F st t (TWalk id ibs bs 0 :: map TNext (seq 0 (walks s n c))) = Some (TNum (walks s n c) :: rs, t') /\
    Permutation (tall rs) (seen_as a b (flat_map (derive id) (seq 0 (if s * (n mod c) =? 1 then n - 1 else n)))).
Proof.
  intros HS Hid Hb Hm n c. destruct (HS (TWalk id ibs bs 0 :: map TNext (seq 0 (walks s n c)))) as (rs & t' & ph & E & Sp).
  { constructor; [cbn; auto|]. intros a' b' r ph' (_ & ->). apply walk_allowed. apply all_below. reflexivity. }
  inversion Sp as [|? ? ? r rs' ph1 ph2 H1 H2]; subst. destruct H1 as (-> & ->). fold n c in E, H2. pose proof (walk_shows _ _ _ _ _ _ _ _ _ H2) as P. fold n in P. rewrite batches_seq in P.
  exists rs', t'. split; [exact E|]. rewrite P. replace (Nat.min (c * walks s n c) n) with (if s * (n mod c) =? 1 then n - 1 else n); [reflexivity|].
  destruct (Nat.eq_dec n 0) as [Z|Z]; [unfold c; rewrite Z, Nat.min_0_r; cbn; rewrite Nat.mul_0_r; reflexivity|].
  assert (Hs : 0 < s). { destruct s; [cbn in Hm; lia|lia]. }
  assert (Hc : 0 < c). { unfold c. assert (0 < asked fp ibs bs / s); [|lia]. pose proof (Nat.div_mod (asked fp ibs bs) s ltac:(lia)) as Hdm. destruct (asked fp ibs bs / s); lia. }
  pose proof (Nat.div_mod n c ltac:(lia)) as Hd. pose proof (Nat.mod_upper_bound n c ltac:(lia)). unfold walks.
  destruct (Nat.eqb_spec (s * (n mod c)) 1) as [E1|E1]; destruct (Nat.ltb_spec 1 (s * (n mod c))); try lia.
  - assert (n mod c = 1) by nia. nia.
  - assert (n mod c = 0) by nia. nia.
Qed.

(** ** What is shown *)
Section C.
Context (C : conforms F st derive Q).
Notation Inv := (Inv F st Q).
Lemma shown_inv t h : Inv t h -> tshown F st derive (ca (d_norm t)) (cb (d_norm t)) t h.
Proof.
  intros H. split; [|split].
  - intros fp tb ->. apply (inv_serves F st derive Q C). exact H.
  - intros mem mf mt fp tb mini t' E. destruct (init_train_ok F st derive Q C t h mem mf mt fp tb mini t' H E) as (I1 & <- & _). apply (inv_serves F st derive Q C). exact I1.
  - intros mf fp t' E. destruct (init_inf_ok F st derive Q C t h mf fp t' H E) as (I1 & <- & _). apply (inv_serves F st derive Q C). exact I1.
Qed.
Lemma tserves_ext a b a' b' t fp tb : (forall j, j < f_xw F -> a j = a' j /\ b j = b' j) -> tserves F st derive a b t fp tb -> tserves F st derive a' b' t fp tb.
Proof.
  intros Hab HS os Ha. destruct (HS os Ha) as (rs & t' & ph & E & Sp). exists rs, t', ph. split; [exact E|]. clear HS E.
  assert (HD : forall id ids, id < 2 -> Forall (fun i => i < st_cnt st id) ids -> seen_as a b (flat_map (derive id) ids) = seen_as a' b' (flat_map (derive id) ids)).
  { intros id ids Hid Hids. pose proof (derive_wide F st derive Q C id ids Hid Hids) as HW. apply map_ext_in. intros r Hr. rewrite Forall_forall in HW. f_equal.
    apply affine_ext. intros j Hj. apply Hab. rewrite <- (HW r Hr). exact Hj. }
  assert (G : forall ph0 os rs ph, (match ph0 with PIdle => True | PTrain c perm => Permutation perm (seq 0 (st_cnt st 0)) | PWalk id _ _ => id < 2 end) ->
     trun_allowed F st derive fp tb ph0 os -> trun_spec F st derive a b fp tb ph0 os rs ph -> trun_spec F st derive a' b' fp tb ph0 os rs ph); [|apply (G PIdle); auto].
  clear os Ha rs t' ph Sp. intros ph0 os rs ph K Ha Sp. revert K Ha. induction Sp as [ph|ph o os r rs ph1 ph2 H1 H2 IH]; intros K Ha; [constructor|].
  inversion Ha as [|? ? ? Ho Hn]; subst. apply ts_cons with (ph1 := ph1).
  - destruct o, ph; try exact H1.
    + destruct H1 as [(x & y & -> & Hs) ->]. split; [|reflexivity]. exists x, y. split; [reflexivity|]. rewrite <- HD; [exact Hs|lia|].
      apply Forall_forall. intros i Hi. apply slice_in in Hi. apply (Permutation_in i K) in Hi. apply in_seq in Hi. lia.
    + destruct H1 as [(x & y & -> & Hs) ->]. split; [|reflexivity]. exists x, y. split; [reflexivity|]. rewrite <- HD; [exact Hs|exact K|].
      apply Forall_forall. intros i Hi. apply slice_in in Hi. apply in_seq in Hi. lia.
  - apply IH; [|apply (Hn a b r ph1 H1)]. destruct o, ph; cbn in H1; try contradiction; cbn in Ho;
      first [destruct H1 as (pm & HP & _ & ->); exact HP | destruct H1 as [_ ->]; first [exact K|apply Ho]].
Qed.
Lemma tshown_ext a b a' b' t h : (forall j, j < f_xw F -> a j = a' j /\ b j = b' j) -> tshown F st derive a b t h -> tshown F st derive a' b' t h.
Proof.
  intros Hab (H1 & H2 & H3). split; [|split].
  - intros fp tb E. apply (tserves_ext a b a' b'); auto.
  - intros mem mf mt fp tb mini t' E. apply (tserves_ext a b a' b'); [exact Hab|]. exact (H2 _ _ _ _ _ _ _ E).
  - intros mf fp t' E. apply (tserves_ext a b a' b'); [exact Hab|]. exact (H3 _ _ _ E).
Qed.

Theorem serves_main t h : thist F st derive t h ->
  (exists a b, tshown F st derive a b t h /\ tshown F st derive a b (deinit4all F t) None) /\
  tshown F st derive (fun _ => 1%R) (fun _ => 0%R) (reset_normalization t) h.
Proof.
  intros H. apply (hist_inv F st derive Q C) in H. split.
  - exists (ca (d_norm t)), (cb (d_norm t)). split; [apply shown_inv; exact H|]. exact (shown_inv _ None (inv_deinit F st Q t h H)).
  - exact (shown_inv _ h (inv_reset F st Q t h H)).
Qed.

(** ** Normalisation *)
Theorem norm_main t h p ibs mok : thist F st derive t h -> tfit F st p ibs h ->
  exists r t' a b, normalize_data F st p ibs mok t = Some (r, t') /\
    (tprepared F st p mok t h \/ should_normalize p = false -> tshown F st derive a b t' h) /\
    (should_normalize p = false -> r = true /\ forall j, a j = 1%R /\ b j = 0%R) /\
    (should_normalize p = true -> tprepared F st p mok t h -> toutcome F p (tbase F st derive p ibs h) r a b) /\
    (should_normalize p = true -> ~ tprepared F st p mok t h -> r = false).
Proof.
  intros H HF. apply (hist_inv F st derive Q C) in H. destruct (norm_data_ok F st derive Q C p ibs mok t h H HF) as (r & t' & E & HI & H1 & H2 & H3).
  unfold tprepared. set (e := fst (fst (init4inference F st (reset_normalization t) (Z.of_nat (Z.to_nat (n_bs p)))))) in *.
  exists r, t', (ca (d_norm t')), (cb (d_norm t')). split; [exact E|].
  assert (HI' : (h <> None \/ e = TfSuccess /\ mok = true) \/ should_normalize p = false -> Inv t' h).
  { intros K. destruct HI as [HI|(-> & -> & N & _)]; [exact HI|]. destruct (should_normalize p) eqn:Es; [|destruct (H1 eq_refl); discriminate].
    apply (H3 eq_refl). intros _. destruct K as [[K|K]|K]; [contradiction|exact K|discriminate]. }
  split; [intros K; apply shown_inv; auto|]. split.
  { intros K. destruct (H1 K) as [-> ->]. split; [reflexivity|]. intros j. split; reflexivity. }
  split; [intros K1 K2; apply (H3 K1); intros ->; tauto|]. intros K1 K2. destruct h as [x|]; [exfalso; apply K2; left; discriminate|].
  apply (H2 K1 eq_refl). destruct e; try (left; discriminate). right. destruct mok; [exfalso; tauto|reflexivity].
Qed.
(** the parts *)
Theorem statistics_main t h p ibs mok : thist F st derive t h -> tfit F st p ibs h -> should_normalize p = true -> tprepared F st p mok t h ->
  let D := tbase F st derive p ibs h in
  exists r t' a b, normalize_data F st p ibs mok t = Some (r, t') /\ tshown F st derive a b t' h /\
    (n_cw p = false -> forall j k, a j = a k /\ b j = b k) /\
    (forall j, j < f_xw F -> (n_dos p = false -> a j = 1%R) /\ (n_doc p = false -> b j = 0%R) /\ ((0 < n_scale p)%R -> (0 < a j)%R)) /\
    (tenough F p D -> positive p -> r = true ->
      (Forall (met p) (tgroups F p (seen_as a b D)) <-> n_cw p = true \/ ~ tdrifts p (flat_map fst D))).
Proof.
  intros H HF Hs Hp D. destruct (norm_main t h p ibs mok H HF) as (r & t' & a & b & E & H1 & _ & H3 & _). exists r, t', a, b. split; [exact E|].
  destruct (H3 Hs Hp) as (O1 & O2 & O3). split; [auto|]. split; [exact O1|]. split; [exact O2|]. intros K1 K2 K3. apply (O3 K1 K2). exact K3.
Qed.
Theorem failure_main t h p ibs mok : thist F st derive t h -> tfit F st p ibs h -> should_normalize p = true -> tprepared F st p mok t h ->
  let D := tbase F st derive p ibs h in tenough F p D -> positive p ->
  exists r t' a b, normalize_data F st p ibs mok t = Some (r, t') /\ tshown F st derive a b t' h /\
    (r = false -> ((forall j, j < f_xw F -> a j = 1%R /\ b j = 0%R) <-> Forall (met p) (tgroups F p D))) /\
    (Forall (met p) (tgroups F p D) -> r = false) /\
    (n_tries p = 1 -> r = false) /\
    (ttries p <= n_tries p -> (r = true <-> ~ Forall (met p) (tgroups F p D))).
Proof.
  intros H HF Hs Hp D He Hpos. destruct (norm_main t h p ibs mok H HF) as (r & t' & a & b & E & H1 & _ & H3 & _). exists r, t', a, b. split; [exact E|].
  destruct (H3 Hs Hp) as (_ & _ & O3). destruct (O3 He Hpos) as (O4 & O5 & O6 & O7 & O8). fold D in O4, O5, O6, O7, O8. split; [auto|].
  split; [intros K; split; [apply O6; exact K|apply O5]|]. split; [apply O5|]. split; [exact O7|]. intros K. split; [|apply O8; exact K].
  intros Kr Hm. destruct (O5 Hm) as [X _]. congruence.
Qed.
Theorem skipped_main t h p ibs mok : thist F st derive t h -> tfit F st p ibs h ->
  exists r t', normalize_data F st p ibs mok t = Some (r, t') /\
    (should_normalize p = false -> r = true /\ tshown F st derive (fun _ => 1%R) (fun _ => 0%R) t' h) /\
    (should_normalize p = true -> ~ tprepared F st p mok t h -> r = false).
Proof.
  intros H HF. destruct (norm_main t h p ibs mok H HF) as (r & t' & a & b & E & H1 & H2 & _ & H4). exists r, t'. split; [exact E|]. split; [|exact H4].
  intros K. destruct (H2 K) as [K1 K2]. split; [exact K1|]. apply (tshown_ext a b); [|auto]. intros j _. apply K2.
Qed.

(** ** Initialisation *)
Notation big := (Nat.max (st_cnt st 0) (st_cnt st 1)).
Lemma granted_ok m n : m mod s = 0 -> negotiate (m / s) n * s = granted m (n * s).
Proof.
  intros Hm. pose proof (cf_sibs _ _ _ _ C) as Hs. pose proof (Nat.div_mod m s ltac:(lia)) as Hd. rewrite Hm, Nat.add_0_r in Hd. unfold negotiate, granted.
  set (q := m / s) in *. destruct (Nat.eqb_spec q 0), (Nat.eqb_spec m 0); try nia; cbn [orb]; try reflexivity; destruct (Nat.ltb_spec n q), (Nat.ltb_spec (n * s) m); nia.
Qed.
Lemma bad_iff z : bad_size F z = false <-> (0 <= z)%Z /\ Z.to_nat z mod s = 0.
Proof.
  pose proof (cf_sibs _ _ _ _ C) as Hs. unfold bad_size. rewrite orb_false_iff, Z.ltb_ge, negb_false_iff, Z.eqb_eq. split; intros [H1 H2]; split; try exact H1.
  - rewrite <- (Nat2Z.id (Z.to_nat z mod s)), Nat2Z.inj_mod, Z2Nat.id by exact H1. rewrite H2. reflexivity.
  - rewrite <- (Z2Nat.id z H1), <- Nat2Z.inj_mod, H2. reflexivity.
Qed.

Theorem init_inference_main t h mf : thist F st derive t h ->
  (forall fp t', init4inference F st t mf = (TfSuccess, Z.of_nat fp, t') ->
     (0 <= mf)%Z /\ Z.to_nat mf mod s = 0 /\ fp = granted (Z.to_nat mf) (big * s) /\ 0 < fp /\ (Z.of_nat fp <= max_vec_len)%Z /\
     forall n, is_initialized4inference F st t' n = if (n <=? fp) && (n mod s =? 0) then Some (if n =? 0 then fp else n) else None) /\
  (st_empty st = false -> st_coherent st = true -> (0 <= mf)%Z -> Z.to_nat mf mod s = 0 -> (Z.of_nat (granted (Z.to_nat mf) (big * s)) <= max_vec_len)%Z ->
     (forall n f, fst (f_init F n f) = true) -> exists fp t', init4inference F st t mf = (TfSuccess, Z.of_nat fp, t')).
Proof.
  intros H. apply (hist_inv F st derive Q C) in H. pose proof (cf_sibs _ _ _ _ C) as Hs. split.
  - intros fp t' E. destruct (init_inf_ok F st derive Q C t h mf fp t' H E) as (I1 & _ & Efp). unfold init4inference in E.
    destruct (base_init_checks F st t mf 0) as [e t0] eqn:Ec. destruct (checks_ok F st derive Q C _ _ _ _ _ Ec) as [(-> & -> & He & P1 & _ & M1 & _)|(-> & ->)]; [|discriminate].
    split; [exact P1|]. split; [exact M1|]. rewrite (granted_ok _ _ M1) in Efp. split; [exact Efp|].
    destruct I1 as (_ & D1 & D2 & _ & M & B & D3 & D4 & _). assert (Hp : 0 < fp) by nia. split; [exact Hp|]. split.
    + cbv zeta in E. destruct (Z.ltb_spec max_vec_len (Z.of_nat (negotiate (Z.to_nat mf / s) (base_biggest F) * s))); [discriminate|].
      destruct (f_init F _ _) as [[] f]; [|discriminate]. injection E as E _. lia.
    + intros n. unfold is_initialized4inference. rewrite D1, He. destruct (Nat.eqb_spec fp 0); [lia|]. cbn [orb]. destruct (Nat.eqb_spec n 0) as [->|Hn].
      * rewrite Nat.ltb_irrefl, Nat.mod_0_l by lia. cbn [Nat.leb andb Nat.eqb orb]. rewrite D3, Nat.mod_mul by lia. reflexivity.
      * destruct (Nat.leb_spec n fp), (Nat.ltb_spec fp n); try lia; cbn [andb orb]; [|reflexivity]. destruct (n mod s =? 0); reflexivity.
  - intros He Hc H0 Hm Hv Hf. unfold init4inference, base_init_checks. rewrite He, Hc. cbn [orb negb]. rewrite (proj2 (bad_iff mf) (conj H0 Hm)).
    change ((0 <? 0)%Z || ((0 <? 0)%Z && bad_size F 0)) with false. cbv zeta. rewrite (biggest_ok F st derive Q C), (granted_ok _ _ Hm).
    destruct (Z.ltb_spec max_vec_len (Z.of_nat (granted (Z.to_nat mf) (big * s)))); [lia|].
    destruct (f_init F _ _) as [ok f] eqn:Ef. pose proof (Hf (negotiate (Z.to_nat mf / s) big) (d_f (with_sizes (deinit4all F t) (granted (Z.to_nat mf) (big * s)) (d_tb (deinit4all F t)) (d_idx (deinit4all F t))))) as Hok.
    rewrite Ef in Hok. cbn [fst] in Hok. subst ok. eexists. eexists. reflexivity.
Qed.

Theorem init_train_main t h mem mf mt : thist F st derive t h ->
  (forall fp tb mini t', init4train F st mem t mf mt = (TfSuccess, Z.of_nat fp, Z.of_nat tb, mini, t') ->
     (0 <= mf)%Z /\ Z.to_nat mf mod s = 0 /\ (0 <= mt)%Z /\ Z.to_nat mt mod s = 0 /\
     fp = granted (Z.to_nat mf) (big * s) /\ tb = granted (Z.to_nat mt) (st_cnt st 0 * s) /\ 0 < tb <= fp /\ (Z.of_nat fp <= max_vec_len)%Z /\
     mini = Some (tb <? st_cnt st 0 * s) /\
     (forall n, is_initialized4inference F st t' n = if (n <=? fp) && (n mod s =? 0) then Some (if n =? 0 then fp else n) else None) /\
     forall n m, is_initialized4train F st t' n m =
       let n' := if n =? 0 then fp else n in let m' := if m =? 0 then tb else m in
       if (n' <=? fp) && (n' mod s =? 0) && (m' <=? tb) && (m' mod s =? 0) && (m' <=? n') then Some (n', m', m' <? st_cnt st 0 * s) else None) /\
  (st_empty st = false -> st_coherent st = true -> mem = true -> (0 <= mf)%Z -> Z.to_nat mf mod s = 0 -> (0 <= mt)%Z -> Z.to_nat mt mod s = 0 ->
     granted (Z.to_nat mt) (st_cnt st 0 * s) <= granted (Z.to_nat mf) (big * s) ->
     (Z.of_nat (granted (Z.to_nat mf) (big * s)) <= max_vec_len)%Z ->
     (forall n f, fst (f_init F n f) = true) -> exists fp tb mini t', init4train F st mem t mf mt = (TfSuccess, Z.of_nat fp, Z.of_nat tb, mini, t')).
Proof.
  intros H. apply (hist_inv F st derive Q C) in H. pose proof (cf_sibs _ _ _ _ C) as Hs.
  assert (Hdm : forall m, m mod s = 0 -> m = m / s * s). { intros m Hm. pose proof (Nat.div_mod m s ltac:(lia)). lia. }
  assert (Hlt : forall m n, m mod s = 0 -> (m / s <? n) = (m <? n * s)). { intros m n Hm. specialize (Hdm m Hm). destruct (Nat.ltb_spec (m / s) n), (Nat.ltb_spec m (n * s)); nia || reflexivity. }
  split.
  - intros fp tb mini t' E. destruct (init_train_ok F st derive Q C t h mem mf mt fp tb mini t' H E) as (I1 & _ & Efp & Etb & Em). unfold init4train in E.
    destruct (base_init_checks F st t mf mt) as [e t0] eqn:Ec. destruct (checks_ok F st derive Q C _ _ _ _ _ Ec) as [(-> & -> & He & P1 & P2 & M1 & M2)|(-> & ->)]; [|discriminate].
    do 4 (split; [assumption|]). pose proof (negotiate_ok (Z.to_nat mt / s) (st_cnt st 0) (cf_stor _ _ _ _ C He 0 ltac:(lia))) as (N1 & _).
    assert (Htm : tb mod s = 0) by (rewrite Etb; apply Nat.mod_mul; lia).
    assert (Emini : mini = Some (tb <? st_cnt st 0 * s)). { rewrite Em. f_equal. rewrite <- Hlt by exact Htm. rewrite Etb, Nat.div_mul by lia. reflexivity. }
    rewrite (granted_ok _ _ M1) in Efp. assert (Htp : 0 < tb) by (rewrite Etb; nia). rewrite (granted_ok _ _ M2) in Etb. do 2 (split; [assumption|]).
    destruct I1 as (_ & D1 & D2 & _ & M & B & D3 & D4 & D5 & D6 & _). assert (Hle : tb <= fp) by nia. split; [lia|]. split.
    { cbv zeta in E. destruct (_ <? _); [discriminate|]. destruct (Z.ltb_spec max_vec_len (Z.of_nat (negotiate (Z.to_nat mf / s) (base_biggest F) * s))); [discriminate|].
      destruct (_ <? _)%Z; [discriminate|]. destruct (negb mem); [discriminate|]. destruct (f_init F _ _) as [[] f]; [|discriminate]. injection E as E _ _ _. lia. }
    split; [exact Emini|].
    assert (Hinf : forall n, is_initialized4inference F st t' n = if (n <=? fp) && (n mod s =? 0) then Some (if n =? 0 then fp else n) else None).
    { intros n. unfold is_initialized4inference. rewrite D1, He. destruct (Nat.eqb_spec fp 0); [lia|]. cbn [orb]. destruct (Nat.eqb_spec n 0) as [->|Hn].
      * rewrite Nat.ltb_irrefl, Nat.mod_0_l by lia. cbn [Nat.leb andb Nat.eqb orb]. rewrite D3, Nat.mod_mul by lia. reflexivity.
      * destruct (Nat.leb_spec n fp), (Nat.ltb_spec fp n); try lia; cbn [andb orb]; [|reflexivity]. destruct (n mod s =? 0); reflexivity. }
    split; [exact Hinf|]. intros n m. cbv zeta. unfold is_initialized4train. rewrite Hinf, D2, (cf_count _ _ _ _ C 0) by lia.
    set (n' := if n =? 0 then fp else n). set (m' := if m =? 0 then tb else m).
    assert (En : (n <=? fp) && (n mod s =? 0) = (n' <=? fp) && (n' mod s =? 0)).
    { unfold n'. destruct (Nat.eqb_spec n 0) as [->|_]; [|reflexivity]. rewrite Nat.leb_refl, Nat.mod_0_l, D3, Nat.mod_mul by lia. reflexivity. }
    rewrite En. destruct ((n' <=? fp) && (n' mod s =? 0)); cbn [andb]; [|reflexivity].
    destruct (Nat.eqb_spec tb 0); [lia|]. cbn [orb]. destruct (Nat.ltb_spec tb m'), (Nat.leb_spec m' tb); try lia; cbn [orb andb]; [reflexivity|].
    destruct (Nat.eqb_spec (m' mod s) 0) as [Z|Z]; cbn [negb orb andb]; [|reflexivity]. rewrite (Hlt m' _ Z). destruct (Nat.ltb_spec n' m'), (Nat.leb_spec m' n'); try lia; reflexivity.
  - intros He Hc -> H0 Hm H0' Hm' Hle Hv Hf. unfold init4train, base_init_checks. rewrite He, Hc. cbn [orb negb]. rewrite (proj2 (bad_iff mf) (conj H0 Hm)), (proj2 (bad_iff mt) (conj H0' Hm')).
    destruct (Z.ltb_spec mt 0); [lia|]. rewrite andb_false_r. cbn [orb]. cbv zeta. rewrite (biggest_ok F st derive Q C), (cf_count _ _ _ _ C 0), !granted_ok by (assumption || lia).
    rewrite <- !granted_ok in Hle by assumption.
    destruct (Nat.ltb_spec (negotiate (Z.to_nat mf / s) big) (negotiate (Z.to_nat mt / s) (st_cnt st 0))); [nia|].
    rewrite !granted_ok in Hle by assumption. destruct (Z.ltb_spec max_vec_len (Z.of_nat (granted (Z.to_nat mf) (big * s)))); [lia|].
    destruct (Z.ltb_spec max_vec_len (Z.of_nat (granted (Z.to_nat mt) (st_cnt st 0 * s)))); [lia|].
    match goal with |- context [f_init F ?n ?f] => pose proof (Hf n f) as Hok; destruct (f_init F n f) as [ok f'] end. cbn [fst] in Hok. subst ok.
    do 4 eexists. reflexivity.
Qed.

(** after a failure *)
Theorem init_train_fails t mem mf mt e fp tb mini t' : init4train F st mem t mf mt = (e, fp, tb, mini, t') -> e <> TfSuccess ->
  if st_empty st || negb (st_coherent st) || bad_size F mf || bad_size F mt then t' = t /\ e = TfOther
  else forall n, is_initialized4inference F st t' n = None.
Proof.
  intros E He. assert (Hd : forall u n, is_initialized4inference F st (deinit4all F u) n = None) by (intros u n; unfold is_initialized4inference; cbn [d_fp deinit4all Nat.eqb]; rewrite orb_true_r; reflexivity).
  unfold init4train, base_init_checks in E. destruct (st_empty st || negb (st_coherent st)); cbn [orb]; [injection E as <- _ _ _ <-; auto|].
  destruct (bad_size F mf); cbn [orb]; [injection E as <- _ _ _ <-; auto|].
  assert (Eb : (mt <? 0)%Z || ((0 <? mt)%Z && bad_size F mt) = bad_size F mt).
  { unfold bad_size. destruct (Z.ltb_spec mt 0); [reflexivity|]. cbn [orb]. destruct (Z.ltb_spec 0 mt); [reflexivity|]. replace mt with 0%Z by lia. cbn. reflexivity. }
  rewrite Eb in E. destruct (bad_size F mt); [injection E as <- _ _ _ <-; auto|]. cbv zeta in E.
  destruct (_ <? _); [injection E as _ _ _ _ <-; apply Hd|]. destruct (_ <? _)%Z; [injection E as _ _ _ _ <-; apply Hd|]. destruct (_ <? _)%Z; [injection E as _ _ _ _ <-; apply Hd|].
  destruct (negb mem); [injection E as _ _ _ _ <-; apply Hd|]. destruct (f_init F _ _) as [[] f]; injection E as <- _ _ _ <-; [contradiction|apply Hd].
Qed.
Theorem init_inference_fails t mf e fp t' : init4inference F st t mf = (e, fp, t') -> e <> TfSuccess ->
  if st_empty st || negb (st_coherent st) || bad_size F mf then t' = t /\ e = TfOther
  else (e = TfTooBigTrainTest /\ forall n, is_initialized4inference F st t' n = None) \/
       (e = TfOther /\ is_initialized4inference F st t' 0 = Some (Z.to_nat fp)).
Proof.
  intros E He. assert (Hd : forall u n, is_initialized4inference F st (deinit4all F u) n = None) by (intros u n; unfold is_initialized4inference; cbn [d_fp deinit4all Nat.eqb]; rewrite orb_true_r; reflexivity).
  pose proof (cf_sibs _ _ _ _ C) as Hs.
  unfold init4inference, base_init_checks in E. destruct (st_empty st || negb (st_coherent st)) eqn:Ee; cbn [orb]; [injection E as <- _ <-; auto|].
  destruct (bad_size F mf); cbn [orb]; [injection E as <- _ <-; auto|]. change ((0 <? 0)%Z || ((0 <? 0)%Z && bad_size F 0)) with false in E. cbv zeta in E.
  destruct (_ <? _)%Z; [injection E as <- _ <-; left; auto|]. destruct (f_init F _ _) as [[] f]; injection E as <- <- <-; [contradiction|]. right. split; [reflexivity|].
  apply orb_false_elim in Ee. destruct Ee as [Ee _]. unfold is_initialized4inference. rewrite Ee. cbn [d_fp with_f with_sizes orb Nat.eqb]. rewrite Nat2Z.id.
  set (m := negotiate _ _) in *. rewrite Nat.ltb_irrefl, Nat.mod_mul by lia. cbn [Nat.eqb negb]. rewrite !orb_false_r.
  assert (0 < m). { unfold m. rewrite (biggest_ok F st derive Q C). pose proof (cf_stor _ _ _ _ C Ee 0 ltac:(lia)). apply negotiate_ok. lia. }
  destruct (Nat.eqb_spec (m * s) 0); [nia|reflexivity].
Qed.
End C.
End P.
