(** Every operation keeps the bias part; cloning. *)
From Verif Require Import Base BaseLemmas Kern_Model Kern_Proofs Smx_Model Smx_Spec Smx_Proofs.

Section P.
Context {A : Type} (one zero nan : A).
Implicit Types (s d : smx A) (me : mem_env A) (l : list A).

Lemma inv_nil s : inv one (s, []) <-> s_bias s = true /\ good one s.
Proof.
  unfold inv. simpl. split.
  - intros (H1 & H2 & _). auto.
  - intros (H1 & H2). split; [exact H1|]. split; [exact H2|]. split; [discriminate|]. split; [congruence|exact I].
Qed.

Lemma good_alloc s : good one s -> empty s = false -> well_alloc s.
Proof. intros [H|[H _]] He; [congruence|exact H]. Qed.

(** Data cells fill the matrix without its bias part. *)
Lemma data_cell_intro s a :
  0 < s_rows s -> a < s_numel s ->
  (s_bias s = true -> s_bir s = true -> a mod s_rows s <> s_rows s - 1) ->
  (s_bias s = true -> s_bir s = false -> a < s_rows s * (s_cols s - 1)) -> data_cell s a.
Proof.
  intros Hr Ha H1 H2. exists (a mod s_rows s), (a / s_rows s).
  assert (Hm : a mod s_rows s < s_rows s) by (apply Nat.mod_upper_bound; lia).
  assert (He : a = a mod s_rows s + s_rows s * (a / s_rows s)).
  { pose proof (Nat.div_mod a (s_rows s)). lia. }
  assert (Hd : a / s_rows s < s_cols s).
  { apply Nat.div_lt_upper_bound; [lia|]. unfold s_numel in Ha. lia. }
  split; [|split; [|exact He]].
  - unfold s_rows_nb, s_bias_row. destruct (s_bias s), (s_bir s); simpl; try lia;
      try (specialize (H1 eq_refl eq_refl)); lia.
  - unfold s_cols_nb, s_bias_col. destruct (s_bias s), (s_bir s); simpl; try lia;
      try (specialize (H2 eq_refl eq_refl); apply Nat.div_lt_upper_bound; lia).
Qed.

(** A fill of the first cells, which are all data cells. *)
Lemma fill_data_step s l v n :
  s_data s = Some l -> n <= length l -> (forall a, a < n -> data_cell s a \/ v = one) ->
  exists l', fill_seq v 0 n l = Some l' /\ data_step one s (with_mem s (Some l')).
Proof.
  intros Hd Hn Hc. destruct (fill_seq_spec v 0 n l) as (l' & E & L & H1 & H2); [lia|].
  exists l'. split; [exact E|]. split; [repeat split|]. exists l, l'.
  split; [exact Hd|]. split; [reflexivity|]. split; [exact L|].
  intros a. destruct (le_lt_dec n a) as [Hge|Hlt].
  - left. apply H2. lia.
  - destruct (Hc a Hlt) as [Hx| ->]; [right; right; exact Hx|]. right. left. apply H1. lia.
Qed.

Lemma data_step_holey s s' h : data_step one s s' -> data_step one s (with_holey s' h).
Proof.
  intros ((K1 & K2 & K3 & K4 & K5) & l & l' & H). split; [repeat split; assumption|]. exists l, l'. exact H.
Qed.

Lemma visible_alloc s hs : inv one (s, hs) -> empty s = false ->
  0 < s_rows s /\ exists l, s_data s = Some l /\ s_numel s <= length l.
Proof.
  intros (IB & IG & _) He. simpl in *. destruct (unhide_fields hs s) as (U1 & U2 & U3 & U4 & U5 & U6).
  apply good_alloc in IG; [|unfold empty in *; rewrite U6; exact He].
  destruct IG as (W1 & W2 & l & D & N). rewrite U1 in W1. rewrite U6 in D. split; [exact W1|].
  exists l. split; [exact D|]. unfold s_numel in *. rewrite U1, U2 in N.
  pose proof (Nat.mul_le_mono_l (s_cols s) (s_cols s + hidden hs) (s_rows s)). lia.
Qed.

Lemma zeros_step s hs : inv one (s, hs) -> empty s = false ->
  exists s', zeros one zero s = Some s' /\ inv one (s', hs).
Proof.
  intros HI He. destruct (visible_alloc _ _ HI He) as (Hr & l & D & N).
  unfold zeros. rewrite D. cbn [obind]. destruct (s_bir s) eqn:Eb; cbn [andb].
  - destruct (s_bias s) eqn:Es; cbn [andb].
    + (* batch in row with biases: everything is zeroed, then the bias row refilled *)
      destruct (fill_seq_spec zero 0 (s_numel s) l) as (l1 & E1 & L1 & H1 & H2); [lia|].
      rewrite E1. cbn [obind]. unfold fill_row_with. cbn [with_mem s_data s_rows s_cols obind].
      destruct (fill_strided_spec one (s_rows s - 1) (s_rows s) (s_cols s) l1) as (l2 & E2 & L2 & H3 & H4).
      { intros i Hi. unfold s_numel in N. nia. }
      rewrite E2. cbn [obind]. eexists. split; [reflexivity|].
      apply (data_step_inv one s); [|exact HI]. split; [repeat split|].
      exists l, l2. split; [exact D|]. split; [reflexivity|]. split; [congruence|].
      intros a. destruct (le_lt_dec (s_numel s) a) as [Hge|Hlt].
      * left. rewrite H4, H2; [reflexivity|lia|]. intros i Hi ->. unfold s_numel in Hge. nia.
      * destruct (Nat.eq_dec (a mod s_rows s) (s_rows s - 1)) as [Em|Em].
        -- right. left. replace a with (s_rows s - 1 + a / s_rows s * s_rows s).
           ++ apply H3. apply Nat.div_lt_upper_bound; [lia|]. unfold s_numel in Hlt. lia.
           ++ rewrite <- Em at 1. pose proof (Nat.div_mod a (s_rows s)). lia.
        -- right. right. apply data_cell_intro; auto. rewrite Eb. discriminate.
    + destruct (fill_data_step s l zero (s_numel s) D N) as (l' & E & HS).
      { intros a Ha. left. apply data_cell_intro; auto; rewrite Es; discriminate. }
      rewrite E. cbn [obind]. eexists. split; [reflexivity|]. eapply data_step_inv; eauto.
  - destruct (fill_data_step s l zero (s_numel_nb s) D) as (l' & E & HS).
    { unfold s_numel_nb, s_numel, s_rows_nb, s_cols_nb in *. nia. }
    { intros a Ha. left. unfold s_numel_nb, s_rows_nb, s_bias_row, s_cols_nb, s_bias_col in Ha.
      rewrite Eb, andb_false_r in Ha. simpl in Ha. rewrite andb_true_r, Nat.sub_0_r in Ha.
      apply data_cell_intro; auto.
      - unfold s_numel. destruct (s_bias s); simpl in Ha; nia.
      - intros _ Hx. congruence.
      - intros Hx _. rewrite Hx in Ha. simpl in Ha. exact Ha. }
    rewrite E. cbn [obind]. eexists. split; [reflexivity|]. eapply data_step_inv; eauto.
Qed.

Lemma nans_step s hs : inv one (s, hs) -> empty s = false -> (s_bias s = true -> s_bir s = false) ->
  exists s', nans_no_bias nan s = Some s' /\ inv one (s', hs).
Proof.
  intros HI He Hb. destruct (visible_alloc _ _ HI He) as (Hr & l & D & N).
  unfold nans_no_bias. rewrite D. cbn [obind].
  destruct (fill_data_step s l nan (s_numel_nb s) D) as (l' & E & HS).
  { unfold s_numel_nb, s_numel, s_rows_nb, s_cols_nb in *. nia. }
  { intros a Ha. left. unfold s_numel_nb, s_rows_nb, s_bias_row, s_cols_nb, s_bias_col in Ha.
    apply data_cell_intro; auto.
    - unfold s_numel. nia.
    - intros Hx Hy. specialize (Hb Hx). congruence.
    - intros Hx Hy. rewrite Hx, Hy in Ha. simpl in Ha. nia. }
  rewrite E. cbn [obind]. eexists. split; [reflexivity|].
  eapply data_step_inv; [|exact HI]. apply data_step_holey. exact HS.
Qed.

Lemma ones_step s hs : inv one (s, hs) -> empty s = false ->
  exists s', ones one s = Some s' /\ inv one (s', hs).
Proof.
  intros HI He. destruct (visible_alloc _ _ HI He) as (Hr & l & D & N).
  unfold ones, fill. rewrite D. cbn [obind].
  destruct (fill_data_step s l one (s_numel s) D N) as (l' & E & HS); [auto|].
  rewrite E. cbn [obind]. eexists. split; [reflexivity|].
  eapply data_step_inv; [|exact HI]. apply data_step_holey. exact HS.
Qed.

Lemma write_step s hs r c v : inv one (s, hs) -> empty s = false ->
  r < s_rows_nb s -> c < s_cols_nb s ->
  exists s', set s r c v = Some s' /\ inv one (s', hs).
Proof.
  intros HI He Hrr Hcc. destruct (visible_alloc _ _ HI He) as (Hr & l & D & N).
  unfold set. rewrite D. cbn [obind].
  destruct (bset_lt l (r + s_rows s * c) v) as [l' E].
  { unfold s_numel, s_rows_nb, s_cols_nb in *.
    assert (r < s_rows s) by lia. assert (c + 1 <= s_cols s) by lia.
    pose proof (Nat.mul_le_mono_l (c + 1) (s_cols s) (s_rows s)). lia. }
  rewrite E. cbn [obind]. eexists. split; [reflexivity|].
  eapply data_step_inv; [|exact HI]. split; [repeat split|].
  destruct (bset_some _ _ _ _ E) as (_ & L & G). exists l, l'.
  split; [exact D|]. split; [reflexivity|]. split; [exact L|].
  intros a. rewrite G. destruct (Nat.eqb_spec a (r + s_rows s * c)) as [->|Hne]; [|left; reflexivity].
  right. right. exists r, c. auto.
Qed.

Lemma copy_data_step src s hs : inv one (s, hs) -> empty s = false -> well_alloc src ->
  s_bir src = s_bir s -> (s_bias s = true -> s_bir s = false) -> (s_bias src = true -> s_bir src = false) ->
  exists b s', s_copy_data_skip_bias src s = Some (b, s') /\ inv one (s', hs).
Proof.
  intros HI He (W1 & W2 & ls & Ds & Ns) Hbir Hb1 Hb2. destruct (visible_alloc _ _ HI He) as (Hr & l & D & N).
  unfold s_copy_data_skip_bias.
  destruct ((s_rows s =? s_rows src) && (s_cols_nb s =? s_cols_nb src)) eqn:E.
  - apply andb_prop in E. destruct E as [E1 E2]. apply Nat.eqb_eq in E1. apply Nat.eqb_eq in E2.
    assert (Hn : s_numel_nb src = s_rows s * s_cols_nb s).
    { unfold s_numel_nb, s_rows_nb, s_bias_row. rewrite <- E1, <- E2.
      destruct (s_bias src) eqn:Es; [rewrite (Hb2 eq_refl)|]; simpl; rewrite Nat.sub_0_r; reflexivity. }
    assert (Hle : s_rows s * s_cols_nb s <= s_numel s).
    { unfold s_numel, s_cols_nb. apply Nat.mul_le_mono_l. lia. }
    destruct (copy_n_spec src (with_bir s (s_bir src)) (s_numel_nb src) ls l)
      as (l' & Ec & Lc & H1 & H2); [exact Ds|exact D| |lia|].
    { rewrite Hn, E1, E2. unfold s_numel, s_cols_nb in *.
      pose proof (Nat.mul_le_mono_l (s_cols src - Nat.b2n (s_bias_col src)) (s_cols src) (s_rows src)). lia. }
    rewrite Ec. cbn [obind]. eexists _, _. split; [reflexivity|].
    eapply data_step_inv; [|exact HI]. split; [repeat split; exact Hbir|].
    exists l, l'. split; [exact D|]. split; [reflexivity|]. split; [exact Lc|].
    intros a. destruct (le_lt_dec (s_numel_nb src) a) as [Hge|Hlt]; [left; apply H2; exact Hge|].
    right. right. rewrite Hn in Hlt. apply data_cell_intro; auto.
    + lia.
    + intros Hx Hy. specialize (Hb1 Hx). congruence.
    + intros Hx Hy. unfold s_cols_nb, s_bias_col in Hlt. rewrite Hx, Hy in Hlt. exact Hlt.
  - eexists _, _. split; [reflexivity|]. exact HI.
Qed.

(** ** Cloning *)
Lemma copy_to_spec s d ls ld :
  s_data s = Some ls -> s_data d = Some ld -> s_numel s <= length ls -> s_numel s <= length ld ->
  s_numel d = s_numel s -> s_bias d = s_bias s ->
  exists l', copy_to s d = Some (true, mkS (s_rows s) (s_cols s) (s_bias s) (s_ext d) (s_holey s) (s_bir s) (Some l')) /\
    length l' = length ld /\ (forall a, a < s_numel s -> bget l' a = bget ls a).
Proof.
  intros Hs Hd N1 N2 E1 E2. unfold copy_to. rewrite E1, Nat.eqb_refl, E2, eqb_reflx. cbn [andb].
  destruct (copy_n_spec s d (s_numel s) ls ld Hs Hd N1 N2) as (l' & Ec & Lc & H1 & _).
  rewrite Ec. cbn [obind]. exists l'. split; [|auto]. cbn [with_mem s_bias s_ext s_data]. rewrite E2. reflexivity.
Qed.

Lemma cell_idx (r c R C : nat) : r < R -> c < C -> r + R * c < R * C.
Proof. intros. nia. Qed.

Lemma copied_same s l' x :
  well_alloc s -> (forall ls, s_data s = Some ls -> forall a, a < s_numel s -> bget l' a = bget ls a) ->
  s_numel s <= length l' ->
  same_matrix s (mkS (s_rows s) (s_cols s) (s_bias s) x (s_holey s) (s_bir s) (Some l')).
Proof.
  intros (W1 & W2 & ls & D & N) H L. unfold same_matrix. cbn [s_rows s_cols s_bias s_bir s_holey].
  do 5 (split; [reflexivity|]). intros r c Hr Hc. unfold cell. cbn [s_data s_rows obind]. rewrite D. cbn [obind].
  assert (Ha : r + s_rows s * c < s_numel s) by (apply cell_idx; assumption).
  rewrite (H ls D _ Ha). split; [reflexivity|].
  destruct (bget_lt ls (r + s_rows s * c)) as [v Ev]; [lia|]. congruence.
Qed.

Lemma clone_to_spec me s d :
  well_alloc s -> alloc_failed d = false -> (empty d = false -> well_alloc d) ->
  (s_ext d = true -> empty d = false) ->
  exists b d', clone_to one me s d = Some (b, d') /\
    (b = true -> same_matrix s d' /\ well_alloc d') /\
    (b = true <-> if s_ext d then s_rows d = s_rows s /\ s_cols d = s_cols s else empty d' = false) /\
    (b = false -> s_ext d = true -> d' = d) /\
    (b = false -> s_ext d = false -> empty d' = true) /\
    (me <> None -> s_ext d = false -> b = true).
Proof.
  intros W Hf Hd Hx. pose proof W as (W1 & W2 & ls & D & N). unfold clone_to. destruct (s_ext d) eqn:Ex.
  - specialize (Hx eq_refl). destruct (Hd Hx) as (V1 & V2 & ld & Dd & Nd).
    destruct ((s_rows d =? s_rows s) && (s_cols d =? s_cols s)) eqn:E.
    + apply andb_prop in E. destruct E as [E1 E2]. apply Nat.eqb_eq in E1. apply Nat.eqb_eq in E2.
      destruct (copy_to_spec s (with_flag d (s_bias s)) ls ld D Dd N) as (l' & Ec & L & H).
      { unfold s_numel in *. rewrite <- E1, <- E2. exact Nd. }
      { unfold s_numel. simpl. rewrite E1, E2. reflexivity. } { reflexivity. }
      rewrite Ec. eexists _, _. split; [reflexivity|]. split; [|split; [|split; [discriminate|split; [discriminate|auto]]]].
      * intros _. assert (Ln : s_numel s <= length l').
        { rewrite L. unfold s_numel in *. rewrite <- E1, <- E2. exact Nd. }
        split.
        -- apply copied_same; [exact W| |exact Ln]. intros ls' Hls a Ha.
           rewrite D in Hls. injection Hls as <-. apply H. exact Ha.
        -- split; [exact W1|]. split; [exact W2|]. exists l'. split; [reflexivity|exact Ln].
      * tauto.
    + eexists _, _. split; [reflexivity|]. split; [discriminate|]. split; [|split; [reflexivity|split; discriminate]].
      split; [discriminate|]. intros [Ha Hb]. rewrite Ha, Hb, !Nat.eqb_refl in E. discriminate.
  - destruct (resize_good one me (with_flag d false) (s_rows s) (s_cols s) Ex W1 W2 Hf Hd)
      as (b & d1 & E1 & R1 & C1 & B1 & I1 & X1 & Hb & W1' & _ & HM).
    rewrite E1. cbn [obind]. cbn [s_bias_row s_bias_col with_flag s_bias andb Nat.b2n] in R1, C1.
    rewrite Nat.add_0_r in R1, C1.
    destruct b.
    + assert (He : empty d1 = false) by (destruct (empty d1); [discriminate|reflexivity]).
      destruct (W1' He) as (V1 & V2 & ld & Dd & Nd).
      destruct (copy_to_spec s (with_flag d1 (s_bias s)) ls ld D Dd N) as (l' & Ec & L & H).
      { unfold s_numel in *. rewrite <- R1, <- C1. exact Nd. }
      { unfold s_numel. simpl. rewrite R1, C1. reflexivity. } { reflexivity. }
      rewrite Ec. eexists _, _. split; [reflexivity|]. split; [|split; [|split; [discriminate|split; [discriminate|auto]]]].
      * intros _. assert (Ln : s_numel s <= length l').
        { rewrite L. unfold s_numel in *. rewrite <- R1, <- C1. exact Nd. }
        split.
        -- apply copied_same; [exact W| |exact Ln]. intros ls' Hls a Ha.
           rewrite D in Hls. injection Hls as <-. apply H. exact Ha.
        -- split; [exact W1|]. split; [exact W2|]. exists l'. split; [reflexivity|exact Ln].
      * split; reflexivity.
    + assert (He : empty d1 = true) by (destruct (empty d1); [reflexivity|discriminate]).
      eexists _, _. split; [reflexivity|]. split; [discriminate|]. split; [|split; [discriminate|split; [intros; exact He|]]].
      2:{ intros Hm _. specialize (HM Hm). discriminate. }
      split; [discriminate|]. congruence.
Qed.

Lemma same_matrix_biases s d : same_matrix s d -> biases_one one s -> biases_one one d.
Proof.
  intros (E1 & E2 & E3 & E4 & E5 & H) HB Hd. rewrite <- E3 in Hd. specialize (HB Hd).
  rewrite <- E4, <- E1, <- E2. destruct (s_bir s).
  - destruct HB as [H1 H2]. split; [exact H1|]. intros c Hc. destruct (H (s_rows s - 1) c) as [Hq _]; [lia|exact Hc|]. rewrite Hq. auto.
  - destruct HB as [H1 H2]. split; [exact H1|]. intros r Hr. destruct (H r (s_cols s - 1)) as [Hq _]; [exact Hr|lia|]. rewrite Hq. auto.
Qed.

(** ** One step *)
Lemma deform_dims_step s r c : inv one (s, []) -> empty s = false -> 0 < r -> 0 < c -> r * c <= cap s ->
  exists s', set_biases one (with_dims s r c) = Some s' /\ inv one (s', []).
Proof.
  intros HI He Hr Hc Hcap. apply inv_nil in HI. destruct HI as [HB HG].
  destruct (empty_false _ He) as [l D]. unfold cap in Hcap. rewrite D in Hcap.
  destruct (set_biases_good one (with_dims s r c)) as (s' & E & K & G).
  { split; [exact Hr|]. split; [exact Hc|]. exists l. split; [exact D|]. exact Hcap. }
  exists s'. split; [exact E|]. apply inv_nil. destruct K as (K1 & K2 & K3 & K4 & K5).
  split; [rewrite K3; exact HB|exact G].
Qed.

Lemma with_dims_same s : with_dims s (s_rows s) (s_cols s) = s.
Proof. destruct s. reflexivity. Qed.

Lemma step_inv o st : inv one st -> pre one o st ->
  exists st', step one zero nan o st = Some st' /\ inv one st'.
Proof.
  destruct st as [s hs]. intros HI HP. destruct o; simpl in HP |- *.
  - (* resize *)
    destruct HP as (-> & Hx & Hr & Hc & Hf). apply inv_nil in HI. destruct HI as [HB HG].
    destruct (resize_good one me s r c Hx Hr Hc Hf (good_alloc s HG))
      as (b & s' & E & R & C & B & I & X & _ & _ & G & _).
    rewrite E. cbn [obind]. eexists. split; [reflexivity|]. apply inv_nil. split; [congruence|exact G].
  - (* smatrix_deform::resize *)
    destruct HP as (-> & Hx & Hr & Hc). apply inv_nil in HI. destruct HI as [HB HG].
    unfold d_resize.
    destruct (resize_good one me (free s) r c Hx Hr Hc eq_refl) as (b & s' & E & R & C & B & I & X & _ & _ & G & _).
    { discriminate. }
    rewrite E. cbn [obind]. eexists. split; [reflexivity|]. apply inv_nil. split; [rewrite B; exact HB|exact G].
  - (* resize_as_dataset *)
    destruct HP as (-> & Hx & Hr & Hc). apply inv_nil in HI. destruct HI as [HB HG].
    unfold d_resize_as_dataset, resize_as_dataset. cbn [free with_mem with_dims s_bir].
    destruct (s_bir s) eqn:Eb;
      [destruct (resize_good one me (free s) w bs Hx Hc Hr eq_refl) as (b & s' & E & R & C & B & I & X & _ & _ & G & _)
      |destruct (resize_good one me (free s) bs w Hx Hr Hc eq_refl) as (b & s' & E & R & C & B & I & X & _ & _ & G & _)];
      try discriminate; rewrite E; cbn [obind]; eexists; (split; [reflexivity|]); apply inv_nil;
      (split; [rewrite B; exact HB|exact G]).
  - (* deform_batch_size_with_biases *)
    destruct HP as (-> & He & Hbs & Hcap). pose proof (proj1 (inv_nil s) HI) as [HB HG].
    destruct (good_alloc s HG He) as (W1 & W2 & l & D & N).
    unfold deform_batch_size_with_biases, deform_batch_size, deform_cols, deform_rows, batch_size.
    destruct (s_bir s) eqn:Eb.
    + destruct (Nat.eqb_spec (s_cols s) bs) as [<-|Hne].
      * rewrite with_dims_same. cbn [obind]. eauto.
      * cbn [with_dims s_bias]. rewrite HB.
        destruct (deform_dims_step s (s_rows s) bs HI He W1 Hbs Hcap) as (s' & E & HI').
        rewrite E. cbn [obind]. eauto.
    + destruct (Nat.eqb_spec (s_rows s) bs) as [<-|Hne].
      * rewrite with_dims_same. cbn [obind]. eauto.
      * cbn [with_dims s_bias]. rewrite HB.
        destruct (deform_dims_step s bs (s_cols s) HI He Hbs W2 Hcap) as (s' & E & HI').
        rewrite E. cbn [obind]. eauto.
  - (* deform_dataset *)
    destruct HP as (-> & He & Hbs & Hss & Hcap). pose proof (proj1 (inv_nil s) HI) as [HB HG].
    unfold deform_dataset. destruct (s_bir s) eqn:Eb.
    + cbn [with_dims s_rows s_cols s_bias]. rewrite HB.
      destruct ((s_rows s =? ss) && (s_cols s =? bs)) eqn:E.
      * apply andb_prop in E. destruct E as [E1 E2]. apply Nat.eqb_eq in E1. apply Nat.eqb_eq in E2.
        subst ss bs. change (do s' <- Some (with_dims s (s_rows s) (s_cols s)); Some (s', [])) with (Some (with_dims s (s_rows s) (s_cols s), @nil (bool * option nat))).
        rewrite with_dims_same. eauto.
      * destruct (deform_dims_step s ss bs HI He Hss Hbs ltac:(lia)) as (s' & E' & HI').
        rewrite E'. cbn [obind]. eauto.
    + cbn [with_dims s_rows s_cols s_bias]. rewrite HB.
      destruct ((s_rows s =? bs) && (s_cols s =? ss)) eqn:E.
      * apply andb_prop in E. destruct E as [E1 E2]. apply Nat.eqb_eq in E1. apply Nat.eqb_eq in E2.
        subst ss bs. change (do s' <- Some (with_dims s (s_rows s) (s_cols s)); Some (s', [])) with (Some (with_dims s (s_rows s) (s_cols s), @nil (bool * option nat))).
        rewrite with_dims_same. eauto.
      * destruct (deform_dims_step s bs ss HI He Hbs Hss Hcap) as (s' & E' & HI').
        rewrite E'. cbn [obind]. eauto.
  - (* set_biases *)
    destruct (s_bias s) eqn:Eb; [|cbn [obind]; eauto].
    destruct (visible_alloc _ _ HI HP) as (Hr & l & D & N).
    assert (Hz : 0 < s_cols s).
    { destruct HI as (IB & IG & IH & IE & IO). destruct hs as [|h hs]; [|apply IE; discriminate].
      destruct (good_alloc s IG HP) as (_ & Hz & _). exact Hz. }
    { destruct (set_biases_spec one s l D Hr Hz N) as (s' & l' & E & K & _ & D' & L & _ & Hu).
      rewrite E. cbn [obind]. eexists. split; [reflexivity|].
      eapply data_step_inv; [|exact HI]. split; [exact K|]. exists l, l'.
      split; [exact D|]. split; [exact D'|]. split; [exact L|]. intros a. destruct (Hu a); auto. }
  - destruct (zeros_step s hs HI HP) as (s' & E & H). rewrite E. cbn [obind]. eauto.
  - destruct (ones_step s hs HI HP) as (s' & E & H). rewrite E. cbn [obind]. eauto.
  - destruct HP as [He Hb]. destruct (nans_step s hs HI He Hb) as (s' & E & H). rewrite E. cbn [obind]. eauto.
  - destruct HP as (He & Hr & Hc). destruct (write_step s hs r c v HI He Hr Hc) as (s' & E & H).
    rewrite E. cbn [obind]. eauto.
  - destruct HP as (He & Hw & H1 & H2 & H3).
    destruct (copy_data_step src s hs HI He Hw H1 H2 H3) as (b & s' & E & H). rewrite E. cbn [obind]. eauto.
  - (* clone *)
    destruct HP as (-> & Hme & Hw & Hb & HB1 & Hf & Hx). apply inv_nil in HI. destruct HI as [HB HG].
    destruct (clone_to_spec me src s Hw Hf (good_alloc s HG) Hx) as (b & s' & E & H1 & H2 & H3 & H4 & H5).
    rewrite E. cbn [obind]. eexists. split; [reflexivity|]. apply inv_nil.
    destruct b.
    + destruct (H1 eq_refl) as [HS HW']. split.
      * destruct HS as (_ & _ & HS & _). congruence.
      * right. split; [exact HW'|]. eapply same_matrix_biases; eauto.
    + destruct (s_ext s) eqn:Ex.
      * rewrite (H3 eq_refl eq_refl). auto.
      * specialize (H5 Hme eq_refl). discriminate.
  - (* hide_biases *)
    destruct HP as [He Hb]. unfold hide_biases. destruct (s_bias s) eqn:Eb.
    + destruct (Hb eq_refl) as [Hbir Hc2]. eexists. split; [reflexivity|].
      destruct HI as (IB & IG & IH & IE & IO). unfold inv. cbn [fst snd unhide] in *. cbn [existsb fst orb hs_ok] in *.
      assert (Es : restore_biases (with_flag (hide_last_col s) false) true = s).
      { unfold restore_biases, with_flag, hide_last_col, restore_last_col, with_dims. simpl.
        destruct s; simpl in *. subst. f_equal. lia. }
      rewrite Es. split; [exact IB|]. split; [exact IG|]. split; [auto|].
      split; [intros _; split; [exact He|simpl; lia]|]. split; [|exact IO]. intros _.
      destruct (existsb fst hs); [|reflexivity]. destruct (IH eq_refl). congruence.
    + eexists. split; [reflexivity|].
      destruct HI as (IB & IG & IH & IE & IO). unfold inv. cbn [fst snd unhide] in *. cbn [existsb fst orb hs_ok] in *.
      split; [exact IB|]. split; [exact IG|]. split; [exact IH|].
      split; [|split; [discriminate|exact IO]]. intros _. split; [exact He|]. destruct hs as [|h hs]; [simpl in IB; congruence|]. apply IE. discriminate.
  - (* hide_last_n_cols *)
    destruct HP as [He Hn]. unfold hide_last_n_cols. eexists. split; [reflexivity|].
    destruct HI as (IB & IG & IH & IE & IO). unfold inv. cbn [fst snd unhide] in *. cbn [existsb fst orb hs_ok] in *.
    remember (s_bias s && negb (s_bir s)) as b eqn:Eb0.
    assert (Es : restore_last_n_cols
        (if b then with_flag (with_dims s (s_rows s) (s_cols s - (n + Nat.b2n b))) false
         else with_dims s (s_rows s) (s_cols s - (n + Nat.b2n b))) b n = s).
    { unfold restore_last_n_cols. assert (n + Nat.b2n b <= s_cols s) by (rewrite Eb0; destruct (s_bias s), (s_bir s); simpl in *; lia).
      destruct b; destruct s; simpl in *.
      - symmetry in Eb0. apply andb_prop in Eb0. destruct Eb0 as [-> _]. unfold with_flag, with_dims. simpl. f_equal; lia.
      - unfold with_dims. simpl. f_equal. lia. }
    rewrite Es. split; [exact IB|]. split; [exact IG|]. split; [|split; [|split; [|exact IO]]].
    3:{ intros Hb. rewrite Hb in Eb0. symmetry in Eb0. apply andb_prop in Eb0. destruct Eb0 as [Eb0 _].
        destruct (existsb fst hs); [|reflexivity]. destruct (IH eq_refl). congruence. }
    + destruct b; simpl.
      * intros _. symmetry in Eb0. apply andb_prop in Eb0. destruct Eb0 as [Eb1 Eb2]. split; [|reflexivity].
        destruct (s_bir s); [discriminate|reflexivity].
      * exact IH.
    + intros _. assert (Nat.b2n b <= Nat.b2n (s_bias s)) by (rewrite Eb0; destruct (s_bias s), (s_bir s); simpl; lia).
      destruct b; simpl in *; (split; [exact He|lia]).
  - (* restore *)
    destruct hs as [|[b [n|]] hs]; [eauto| |]; eexists; (split; [reflexivity|]);
      destruct HI as (IB & IG & IH & IE & IO); unfold inv; simpl in *;
      (split; [exact IB|]); (split; [exact IG|]); (destruct IE as [Ie1 Ie2]; [discriminate|]); destruct IO as [IO1 IO2]; (split; [|split; [|exact IO2]]).
    + intros Hx. rewrite Hx, orb_true_r in IH. destruct (IH eq_refl) as [H1 H2].
      unfold restore_last_n_cols. destruct b; simpl; [|auto]. rewrite (IO1 eq_refl) in Hx. discriminate.
    + intros _. unfold restore_last_n_cols. destruct b; simpl; split; try exact Ie1; lia.
    + intros Hx. rewrite Hx, orb_true_r in IH. destruct (IH eq_refl) as [H1 H2].
      unfold restore_biases. destruct b; simpl; [|auto]. rewrite (IO1 eq_refl) in Hx. discriminate.
    + intros _. unfold restore_biases. destruct b; simpl; split; try exact Ie1; lia.
Qed.
End P.
