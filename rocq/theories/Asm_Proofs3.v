(** Proofs about the placement of activations and about networks of too many layers *)
From Coq Require Import Permutation.
From Verif Require Import Base BaseLemmas Util_Proofs Asm_Model Asm_Spec Asm_Proofs.
Local Open Scope Z_scope.

Lemma place_up_cons : forall m l l2 ls p, place_up m (LsCons l (LsCons l2 ls)) p = place m l None ++ place_up m (LsCons l2 ls) p.
Proof. reflexivity. Qed.
Lemma place_top :
  (forall l m b o t, top l = Some t -> In (t, (b, o, m, lneurons l)) (place m l (Some (b, o)))) /\
  (forall ls m b o t, ltop ls = Some t -> In (t, (b, o, m, last_neurons ls)) (place_up m ls (Some (b, o)))) /\
  (forall ps : phls, True).
Proof.
  apply lay_ind3.
  - intros id n m b o t H. injection H as H. subst t. left. reflexivity.
  - intros id ls IH m b o t H. exact (IH m b o t H).
  - intros id add ps _ m b o t H. injection H as H. subst t. left. reflexivity.
  - intros id k l IH m b o t H. injection H as H. subst t. cbn [place]. apply in_app_iff. right. left. reflexivity.
  - intros m b o t H. discriminate H.
  - intros l IHl ls IHs m b o t H. destruct ls as [|l2 ls].
    + exact (IHl m b o t H).
    + rewrite place_up_cons. apply in_app_iff. right. exact (IHs m b o t H).
  - exact I.
  - intros. exact I.
Qed.

Lemma place_phls_in : forall ps m b o first i l t, nth_error (inner ps) i = Some l -> top l = Some t ->
  In (t, (b, o + m * (first + columns_before i (inner ps)), m, lneurons l)) (place_phls m ps (b, o) first).
Proof.
  induction ps as [|ofs cnt x ps IH]; intros m b o first i l t Hi Ht.
  - destruct i; discriminate Hi.
  - cbn [place_phls inner fst snd]. apply in_app_iff. destruct i as [|i].
    + left. cbn in Hi. injection Hi as Hi. subst x. cbn [columns_before]. rewrite Z.add_0_r. apply (proj1 place_top). exact Ht.
    + right. cbn in Hi. cbn [columns_before]. rewrite Z.add_assoc. apply IH; assumption.
Qed.

Lemma inner_sum : forall ps, sum_neurons ps = columns_before (length (inner ps)) (inner ps).
Proof. induction ps as [|ofs cnt l ps IH]; [reflexivity|]. cbn [sum_neurons inner length columns_before]. lia. Qed.

Lemma columns_tile : forall ls, Forall (fun l => 0 <= lneurons l) ls ->
  forall c, 0 <= c < columns_before (length ls) ls ->
  exists! i, (i < length ls)%nat /\ columns_before i ls <= c < columns_before (S i) ls.
Proof.
  induction ls as [|l ls IH]; intros Hf c Hc; [cbn in Hc; lia|].
  inversion Hf as [|x y H1 H2]; subst. cbn [length] in Hc |- *.
  change (columns_before (S (length ls)) (l :: ls)) with (lneurons l + columns_before (length ls) ls) in Hc.
  assert (Hpos : forall i, 0 <= columns_before i ls).
  { clear - H2. induction H2 as [|x ls Hx H2 IH]; intros [|i]; cbn [columns_before]; try lia. }
  destruct (Z.lt_ge_cases c (lneurons l)) as [Hlt|Hge].
  - exists O. split.
    + split; [lia|]. cbn [columns_before]. destruct ls; cbn [columns_before]; lia.
    + intros i (Hi1 & Hi2). destruct i as [|i]; [reflexivity|]. change (columns_before (S i) (l :: ls)) with (lneurons l + columns_before i ls) in Hi2.
      specialize (Hpos i). lia.
  - destruct (IH H2 (c - lneurons l)) as (i & (Hi1 & Hi2) & Hu); [lia|].
    exists (S i). split.
    + split; [lia|]. change (columns_before (S (S i)) (l :: ls)) with (lneurons l + columns_before (S i) ls).
      change (columns_before (S i) (l :: ls)) with (lneurons l + columns_before i ls). lia.
    + intros j (Hj1 & Hj2). destruct j as [|j].
      * change (columns_before 1 (l :: ls)) with (lneurons l + columns_before 0 ls) in Hj2.
        replace (columns_before 0 ls) with 0 in Hj2 by (destruct ls; reflexivity). lia.
      * change (columns_before (S (S j)) (l :: ls)) with (lneurons l + columns_before (S j) ls) in Hj2.
        change (columns_before (S j) (l :: ls)) with (lneurons l + columns_before j ls) in Hj2.
        f_equal. apply Hu. split; [lia|lia].
Qed.

(** ** More layers than indices *)
Lemma flat_wraps : forall k a inc c objs, c = Z.of_nat a mod 65536 ->
  (forall j, (a <= j < a + k)%nat -> nth_error objs j = Some (65535, 0)) ->
  exists s, preinit_up (flat (seq a k)) inc (mkA c objs) = Ok s /\ a_cnt s = Z.of_nat (a + k) mod 65536 /\
    (forall j, (j < a)%nat -> nth_error (a_objs s) j = nth_error objs j) /\
    (forall j, (a <= j < a + k)%nat -> exists w, nth_error (a_objs s) j = Some (Z.of_nat j mod 65536, w)).
Proof.
  induction k as [|k IH]; intros a inc c objs Hc Hf.
  - exists (mkA c objs). split; [reflexivity|]. split; [cbn [a_cnt]; rewrite Hc; do 2 f_equal; lia|]. split; [reflexivity|].
    intros j Hj. lia.
  - cbn [seq flat preinit_up preinit]. unfold base_preinit, aget. cbn [a_objs]. rewrite (Hf a) by lia.
    cbn [obnd fst snd newIndex a_cnt a_objs].
    change (negb (65535 =? invalid_layer_index) || negb (0 =? 0)) with false. cbv iota.
    cbn [obnd].
    assert (Hlt : (a < length objs)%nat) by (apply nth_error_Some; rewrite (Hf a) by lia; discriminate).
    set (w0 := if negb (c =? 0) then inc else 0).
    destruct (IH (S a) 1 ((c + 1) mod 65536) (upd objs a (c, w0))) as (s & E & C & B & X).
    + rewrite Hc. rewrite Z.add_mod_idemp_l by lia. f_equal. lia.
    + intros j Hj. rewrite upd_nth_error by exact Hlt. destruct (Nat.eqb_spec j a) as [Ej|Ej]; [lia|]. apply Hf. lia.
    + exists s. split; [exact E|]. split; [rewrite C; do 2 f_equal; lia|]. split.
      * intros j Hj. rewrite (B j) by lia. rewrite upd_nth_error by exact Hlt. destruct (Nat.eqb_spec j a) as [Ej|Ej]; [lia|reflexivity].
      * intros j Hj. destruct (Nat.eq_dec j a) as [Ej|Ej].
        -- subst j. exists w0. rewrite (B a) by lia. rewrite upd_nth_error by exact Hlt. rewrite Nat.eqb_refl, Hc. reflexivity.
        -- apply X. lia.
Qed.

(** ** Sizes *)
Lemma lneurons_width :
  (forall l, lneurons l = width l) /\
  (forall ls, (forall d, ls <> LsNil -> last_neurons ls = top_width d ls) /\ last_neurons ls = top_width 0 ls) /\
  (forall ps, sum_neurons ps = all_widths ps).
Proof.
  apply lay_ind3.
  - reflexivity.
  - intros id ls IH. exact (proj2 IH).
  - intros id add ps IH. cbn [lneurons width]. lia.
  - intros id k l IH. cbn [lneurons width]. rewrite IH. lia.
  - split; [intros d H; contradiction|reflexivity].
  - intros l IHl ls IHs.
    assert (X : forall d, last_neurons (LsCons l ls) = top_width d (LsCons l ls)).
    { intro d. destruct ls as [|l2 ls]; [exact IHl|]. change (last_neurons (LsCons l2 ls) = top_width (width l) (LsCons l2 ls)). apply (proj1 IHs (width l)). discriminate. }
    split; [intros d _; exact (X d)|exact (X 0)].
  - reflexivity.
  - intros ofs cnt l IHl ps IHp. cbn [sum_neurons all_widths]. lia.
Qed.

Lemma place_shapes :
  (forall l m p, Permutation (map shape_of (place m l p)) (shapes m l)) /\
  (forall ls m p, Permutation (map shape_of (place_up m ls p)) (lshapes m ls)) /\
  (forall ps m a f, Permutation (map shape_of (place_phls m ps a f)) (pshapes m ps)).
Proof.
  apply lay_ind3.
  - intros id n m p. cbn [place]. destruct (where_ id p). apply Permutation_refl.
  - intros id ls IH m p. exact (IH m p).
  - intros id add ps IH m p. cbn [place shapes]. rewrite (proj1 lneurons_width). destruct (where_ id p) as [b o].
    cbn [map]. apply perm_skip. apply IH.
  - intros id k l IH m p. cbn [place shapes]. rewrite (proj1 lneurons_width). destruct (where_ id p) as [b o].
    rewrite map_app. cbn [map]. eapply Permutation_trans; [apply Permutation_app_comm|]. cbn [app]. apply perm_skip.
    rewrite Z.mul_comm. apply IH.
  - intros m p. apply Permutation_refl.
  - intros l IHl ls IHs m p. destruct ls as [|l2 ls].
    + cbn [lshapes]. rewrite app_nil_r. apply IHl.
    + rewrite place_up_cons, map_app. cbn [lshapes]. apply Permutation_app; [apply IHl|apply (IHs m p)].
  - intros m a f. apply Permutation_refl.
  - intros ofs cnt l IHl ps IHp m a f. cbn [place_phls pshapes]. rewrite map_app. apply Permutation_app; [apply IHl|apply IHp].
Qed.
