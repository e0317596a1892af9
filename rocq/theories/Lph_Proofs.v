(** Proofs about back-propagation through a horizontal pack *)
From Coq Require Import Reals Lra.
From Verif Require Import Base Act_Model Net_Model Net_Proofs Lph_Spec.
Local Open Scope nat_scope.

Lemma bprop_LPH gw m P d e inc h b1 b2 :
  bprop gw m P true d e (LPH inc h b1 b2) =
  (do _ <- guard (shaped m (hneurons h) d && (length P =? m * (inc + 1)));
   do e <- (do _ <- guard (shaped m inc e); put e (repeat 0%R (m * inc)));
   do r <- hbprop gw m inc P true d (hneurons h, e, mkB 0 0 b1, mkB 0 0 b2) h;
   let '(h', (_, e, b1, b2), _) := r in
   Some (LPH inc h' (b_d b1) (b_d b2), d, e, true)).
Proof. reflexivity. Qed.

Lemma bprop_HCons gw m inc P dLdA st ofs cnt l h :
  hbprop gw m inc P true dLdA st (HCons ofs cnt l h) =
  (do r <- hbprop gw m inc P true dLdA st h;
      let '(h', (first, e, b1, b2), P) := r in
      do _ <- guard (neurons l <=? first);
      let first := first - neurons l in
      do b1 <- deform m (neurons l) b1;
      do b1 <- put b1 (slice (m * first) (m * neurons l) (b_d dLdA));
      do b2 <- deform m cnt b2;
      do vP <- part_ctor m inc ofs cnt P;
      do r <- bprop gw m (fst vP) true b1 b2 l;
      let '(l', b1, b2, sw) := r in
      let P := part_dtor m inc ofs cnt (slice (m * (ofs + cnt)) m P) (snd vP) in
      do e <- (let cur := if sw then b2 else b1 in
                 do _ <- guard (shaped m cnt cur);
                 do _ <- guard (m * (ofs + cnt) <=? length (b_d e));
                 Some (mkB (b_r e) (b_c e) (overwrite (m * ofs)
                   (map (fun q => (fst q + snd q)%R) (combine (slice (m * ofs) (m * cnt) (b_d e)) (content cur))) (b_d e))));
      Some (HCons ofs cnt l' h', (first, e, b1, b2), P)).
Proof. reflexivity. Qed.

Lemma ob {A B} (x : option A) (f : A -> option B) y : obind x f = Some y -> exists a, x = Some a /\ f a = Some y.
Proof. destruct x; [intro H; exists a; auto|intro H; discriminate H]. Qed.
Lemma gd b {A} (x : option A) y : (do _ <- guard b; x) = Some y -> b = true /\ x = Some y.
Proof. destruct b; [intro H; split; [reflexivity|exact H]|intro H; discriminate H]. Qed.
Lemma put_content b l b' : put b l = Some b' -> content b' = l /\ b_r b' = b_r b /\ b_c b' = b_c b /\ length (b_d b') = length (b_d b) /\ length l = b_r b * b_c b.
Proof.
  unfold put. intro H. apply gd in H. destruct H as (G & H). apply andb_prop in G. destruct G as (G1 & G2).
  apply Nat.eqb_eq in G1. apply Nat.leb_le in G2. injection H as H. subst b'. unfold content. cbn [b_r b_c b_d].
  split; [|split; [reflexivity|split; [reflexivity|split; [|exact G1]]]].
  - rewrite <- G1. rewrite firstn_app, Nat.sub_diag, firstn_O, app_nil_r. apply firstn_all.
  - rewrite app_length, skipn_length. lia.
Qed.
Lemma deform_shape r c b b' : deform r c b = Some b' -> b_r b' = r /\ b_c b' = c /\ b_d b' = b_d b /\ r * c <= length (b_d b).
Proof. unfold deform. intro H. apply gd in H. destruct H as (G & H). apply Nat.leb_le in G. injection H as H. subst b'. auto. Qed.

Lemma nth_firstn_add (a c : list R) q : length c <= length a -> q < length c ->
  nth q (map (fun p => (fst p + snd p)%R) (combine a c)) 0%R = (nth q a 0 + nth q c 0)%R.
Proof.
  revert c q. induction a as [|x a IH]; intros [|y c] q Hl Hq; cbn in Hl, Hq; try lia.
  destruct q as [|q]; [reflexivity|]. cbn. apply IH; lia.
Qed.

Lemma sub_mul m k r ofs : r < m -> m * ofs <= m * k + r -> m * k + r - m * ofs = m * (k - ofs) + r.
Proof.
  intros Hr H. assert (Hk : ofs <= k). { destruct (Nat.le_gt_cases ofs k) as [E|E]; [exact E|]. assert (m * (k + 1) <= m * ofs) by (apply Nat.mul_le_mono_l; lia). nia. }
  rewrite Nat.mul_sub_distr_l. assert (m * ofs <= m * k) by (apply Nat.mul_le_mono_l; exact Hk). lia.
Qed.

Lemma inb (m r k ofs cnt : nat) : r < m ->
  ((m * ofs <=? m * k + r) && (m * k + r <? m * ofs + m * cnt)) = ((ofs <=? k) && (k <? ofs + cnt)).
Proof.
  intro Hr. destruct (Nat.leb_spec ofs k) as [H1|H1].
  - destruct (Nat.leb_spec (m * ofs) (m * k + r)) as [H2|H2]; [|nia]. cbn [andb].
    destruct (Nat.ltb_spec k (ofs + cnt)) as [H3|H3].
    + destruct (Nat.ltb_spec (m * k + r) (m * ofs + m * cnt)) as [H4|H4]; [reflexivity|].
      assert (m * (k + 1) <= m * (ofs + cnt)) by (apply Nat.mul_le_mono_l; lia). nia.
    + destruct (Nat.ltb_spec (m * k + r) (m * ofs + m * cnt)) as [H4|H4]; [|reflexivity].
      assert (m * (ofs + cnt) <= m * k) by (apply Nat.mul_le_mono_l; lia). nia.
  - destruct (Nat.leb_spec (m * ofs) (m * k + r)) as [H2|H2]; [|reflexivity].
    assert (m * (k + 1) <= m * ofs) by (apply Nat.mul_le_mono_l; lia). nia.
Qed.

Lemma hbprop_sum gw m inc B d : length B = m * inc -> forall h first0 e0 b1 b2 h' first e b1' b2' P',
  hbprop gw m inc (biased m B) true d (first0, e0, b1, b2) h = Some (h', (first, e, b1', b2'), P') ->
  P' = biased m B /\ first + hneurons h = first0 /\ length (b_d e) = length (b_d e0) /\ b_r e = b_r e0 /\ b_c e = b_c e0 /\
  exists cs, Forall2 (answers gw m B d) (members first h) cs /\
    (forall r k, r < m -> nth (m * k + r) (b_d e) 0%R = (nth (m * k + r) (b_d e0) 0 + fold_right Rplus 0 (map (share m r k) (combine (members first h) cs)))%R).
Proof.
  intros HB. induction h as [|ofs cnt l h IH]; intros first0 e0 b1 b2 h' first e b1' b2' P' H.
  - cbn [hbprop] in H. injection H as E1 E2 E3 E4 E5 E6. subst. cbn [hneurons members].
    split; [reflexivity|]. split; [lia|]. split; [reflexivity|]. split; [reflexivity|]. split; [reflexivity|].
    exists []. split; [constructor|]. intros r k Hr. cbn. lra.
  - rewrite bprop_HCons in H. apply ob in H. destruct H as (x & HR & H).
    destruct x as [[hr [[[fr er] b1r] b2r]] Pr].
    destruct (IH _ _ _ _ _ _ _ _ _ _ HR) as (EP & EF & EL & ER & EC & cs & HA & HS). subst Pr.
    apply gd in H. destruct H as (G1 & H). apply Nat.leb_le in G1. cbv zeta in H.
    apply ob in H. destruct H as (bA & D1 & H). apply ob in H. destruct H as (bB & D2 & H).
    apply ob in H. destruct H as (bC & D3 & H). apply ob in H. destruct H as (vP & D4 & H).
    apply ob in H. destruct H as (y & D5 & H). destruct y as [[[l' bD] bE] sw].
    apply ob in H. destruct H as (e2 & D6 & H). injection H as E1 E2 E3 E4 E5 E6. subst h' first e b1' b2'.
    assert (Hr : ofs + cnt <= inc). { unfold part_ctor in D4. apply gd in D4. destruct D4 as (G & _). apply Nat.leb_le in G. exact G. }
    destruct (part_view m inc ofs cnt B HB Hr) as (P1 & V1 & V2). rewrite V1 in D4. injection D4 as D4. subst vP. cbn [fst snd] in *.
    apply gd in D6. destruct D6 as (G2 & D6). apply gd in D6. destruct D6 as (G3 & D6). apply Nat.leb_le in G3.
    apply andb_prop in G2. destruct G2 as (G2a & G2b). apply Nat.eqb_eq in G2a, G2b.
    injection D6 as D6. subst e2. cbn [b_d b_r b_c].
    set (cur := if sw then bE else bD) in *. set (c := content cur) in *.
    assert (Lc : length c <= m * cnt). { unfold c, content. rewrite firstn_length, G2a, G2b. lia. }
    assert (Ls : length (slice (m * ofs) (m * cnt) (b_d er)) = m * cnt) by (apply slice_length; lia).
    set (w := map (fun q => (fst q + snd q)%R) (combine (slice (m * ofs) (m * cnt) (b_d er)) c)).
    assert (Lw : length w = length c). { unfold w. rewrite map_length, combine_length, Ls. lia. }
    assert (Lo : m * ofs + length w <= length (b_d er)) by lia.
    split; [rewrite <- E6; exact V2|]. split; [cbn [hneurons]; lia|].
    split; [rewrite overwrite_length by exact Lo; exact EL|]. split; [exact ER|]. split; [exact EC|].
    exists (c :: cs). cbn [members]. replace (fr - neurons l + neurons l) with fr by lia. split.
    + constructor; [|exact HA]. destruct (deform_shape _ _ _ _ D1) as (S1 & S2 & _ & _).
      destruct (put_content _ _ _ D2) as (T1 & T2 & T3 & _ & _).
      exists bB, bC, l', bD, bE, sw. split; [|split; [exact T1|split; [exact D5|reflexivity]]].
      unfold shaped. rewrite T2, T3, S1, S2, !Nat.eqb_refl. reflexivity.
    + intros r k Hr0. rewrite nth_overwrite by exact Lo. rewrite Lw. cbn [combine map fold_right]. unfold share at 1.
      rewrite <- (inb m r k ofs cnt Hr0). pose proof (HS r k Hr0) as HS'.
      destruct (Nat.leb_spec (m * ofs) (m * k + r)) as [Q1|Q1]; cbn [andb]; [|lra].
      destruct (Nat.ltb_spec (m * k + r) (m * ofs + length c)) as [Q2|Q2].
      * destruct (Nat.ltb_spec (m * k + r) (m * ofs + m * cnt)) as [Q3|Q3]; [|lia].
        assert (Hk : m * k + r - m * ofs = m * (k - ofs) + r) by exact (sub_mul m k r ofs Hr0 Q1).
        unfold w. rewrite nth_firstn_add by (rewrite ?Ls; lia).
        rewrite nth_slice by lia. rewrite Hk. replace (m * ofs + (m * (k - ofs) + r)) with (m * k + r) by lia. lra.
      * destruct (Nat.ltb_spec (m * k + r) (m * ofs + m * cnt)) as [Q3|Q3]; [|lra].
        assert (Hk : m * k + r - m * ofs = m * (k - ofs) + r) by exact (sub_mul m k r ofs Hr0 Q1).
        rewrite (nth_overflow c) by lia. lra.
Qed.

Lemma LPH_gradient gw m inc B d e h b1 b2 l' d' e' sw : length B = m * inc ->
  bprop gw m (biased m B) true d e (LPH inc h b1 b2) = Some (l', d', e', sw) ->
  sw = true /\ d' = d /\ shaped m inc e' = true /\
  exists cs, Forall2 (answers gw m B d) (members 0 h) cs /\
    forall r k, r < m -> k < inc ->
      nth (m * k + r) (content e') 0%R = fold_right Rplus 0%R (map (share m r k) (combine (members 0 h) cs)).
Proof.
  intros HB H. rewrite bprop_LPH in H. apply gd in H. destruct H as (G1 & H). apply ob in H. destruct H as (e0 & E0 & H).
  apply gd in E0. destruct E0 as (G2 & E0). apply ob in H. destruct H as (x & HR & H).
  destruct x as [[hr [[[fr er] b1r] b2r]] Pr]. injection H as H1 H2 H3 H4. subst d' e' sw.
  destruct (hbprop_sum gw m inc B d HB _ _ _ _ _ _ _ _ _ _ _ HR) as (_ & EF & EL & ER & EC & cs & HA & HS).
  assert (fr = 0) by lia. subst fr. destruct (put_content _ _ _ E0) as (T1 & T2 & T3 & T4 & T5).
  unfold shaped in G2. apply andb_prop in G2. destruct G2 as (G2a & G2b). apply Nat.eqb_eq in G2a, G2b.
  split; [reflexivity|]. split; [reflexivity|]. split.
  { unfold shaped. rewrite ER, EC, T2, T3, G2a, G2b, !Nat.eqb_refl. reflexivity. }
  exists cs. split; [exact HA|]. intros r k Hr Hk.
  assert (Hq : m * k + r < m * inc) by nia.
  unfold content. rewrite ER, EC, T2, T3, G2a, G2b. rewrite nth_firstn by exact Hq. rewrite (HS r k Hr).
  assert (Z0 : nth (m * k + r) (b_d e0) 0%R = 0%R).
  { unfold content in T1. rewrite T2, T3, G2a, G2b in T1.
    rewrite <- (nth_firstn _ (m * inc)) by exact Hq. rewrite T1. apply nth_repeat'. exact Hq. }
  rewrite Z0. lra.
Qed.
