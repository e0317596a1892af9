(** The buffers: back-propagation never leaves them and every layer is handed what
    the layer above computed. *)
From Coq Require Import Reals Bool Lra.
From Coquelicot Require Import Coquelicot.
From Verif Require Import Base BaseLemmas Act_Model Act_Spec Net_Model Net_Spec Net_Proofs.
Local Open Scope nat_scope.

Lemma deform_ok r c b : r * c <= length (b_d b) -> deform r c b = Some (mkB r c (b_d b)).
Proof. intros H. unfold deform. rewrite (proj2 (Nat.leb_le _ _) H). reflexivity. Qed.
Lemma put_ok b l : length l = b_r b * b_c b -> length l <= length (b_d b) ->
  exists D, put b l = Some (mkB (b_r b) (b_c b) D) /\ length D = length (b_d b) /\ firstn (b_r b * b_c b) D = l.
Proof.
  intros H1 H2. unfold put. rewrite (proj2 (Nat.eqb_eq _ _) H1), (proj2 (Nat.leb_le _ _) H2). cbn [andb guard obind].
  eexists. split; [reflexivity|]. split.
  - rewrite app_length, skipn_length. lia.
  - rewrite <- H1, firstn_app, Nat.sub_diag. simpl. rewrite app_nil_r. apply firstn_all.
Qed.
Lemma shaped_iff r c b : shaped r c b = true <-> b_r b = r /\ b_c b = c.
Proof. unfold shaped. rewrite andb_true_iff, !Nat.eqb_eq. reflexivity. Qed.
Lemma content_shaped r c b : shaped r c b = true -> content b = firstn (r * c) (b_d b).
Proof. intros H. apply shaped_iff in H. destruct H as [H1 H2]. unfold content. rewrite H1, H2. reflexivity. Qed.
Lemma slice_biased m B i n : i + n <= length B -> slice i n (biased m B) = slice i n B.
Proof.
  intros H. apply nth_ext0; rewrite !slice_length by (rewrite ?biased_length; lia); [reflexivity|].
  intros q Hq. rewrite !nth_slice by assumption. apply nth_biased. lia.
Qed.
Lemma slice_0 n (l : list R) : slice 0 n l = firstn n l.
Proof. reflexivity. Qed.
Lemma firstn_slice i a b (l : list R) : firstn a (slice i (a + b) l) = slice i a l.
Proof. unfold slice. rewrite firstn_firstn. f_equal. lia. Qed.
Lemma skipn_slice i a b (l : list R) : skipn a (slice i (a + b) l) = slice (i + a) b l.
Proof.
  unfold slice. rewrite skipn_firstn_comm. f_equal; [lia|]. 
  revert l. induction i as [|i IH]; intros l; [reflexivity|]. destruct l; [rewrite !skipn_nil; reflexivity|]. apply IH.
Qed.

Lemma nth_comb (f : R -> R -> R) (a b : list R) q : length a = length b -> q < length a ->
  nth q (map (fun p => f (fst p) (snd p)) (combine a b)) 0%R = f (nth q a 0%R) (nth q b 0%R).
Proof.
  revert b q. induction a as [|x a IH]; intros [|y b] q; simpl; try lia. destruct q; [reflexivity|]. intros. apply IH; lia.
Qed.

(** the two gradients of a fully connected layer *)
Lemma dz_eq a m n A (D : list R) : length A = m * n -> m * n <= length D ->
  match a with Identity => firstn (m * n) D | _ => map (fun q => (act_df a (fst q) * snd q)%R) (combine A (firstn (m * n) D)) end =
  map (fun q => (act_df a (nth q A 0) * nth q (firstn (m * n) D) 0)%R) (seq 0 (m * n)).
Proof.
  intros HA HD. assert (Hl : length (firstn (m * n) D) = m * n) by (apply firstn_length_le; assumption).
  assert (G : map (fun q => (act_df a (fst q) * snd q)%R) (combine A (firstn (m * n) D)) =
    map (fun q => (act_df a (nth q A 0) * nth q (firstn (m * n) D) 0)%R) (seq 0 (m * n))).
  { apply nth_ext0.
    - rewrite !map_length, combine_length, seq_length, HA, Hl. lia.
    - rewrite map_length, combine_length, HA, Hl, Nat.min_id. intros q Hq. rewrite nth_map_seq by assumption.
      apply (nth_comb (fun x y => act_df a x * y)%R); congruence. }
  destruct a; try exact G.
  apply nth_ext0; [rewrite map_length, seq_length; exact Hl|]. rewrite Hl. intros q Hq. rewrite nth_map_seq by assumption.
  simpl. ring.
Qed.

Lemma size_key : (forall l, wf l -> forall m M, m <= M -> m * neurons l <= Nat.max (max_dLdA M l) (m * incoming l)) /\
  (forall s, swf s -> forall m M, m <= M -> m * sneurons s <= Nat.max (smax_dLdA M s) (m * sincoming s)) /\
  (forall h, forall inc, hwf inc h -> True).
Proof.
  apply layers_ind; try (intros; exact I).
  - intros. simpl. nia.
  - intros. simpl. lia.
  - intros s IH H m M HM. apply (IH H m M HM).
  - intros. simpl. nia.
  - intros k l _ inn A _ m M HM. simpl. pose proof (Nat.mul_le_mono_r m M (k * neurons l) HM). lia.
  - intros l IH H m M HM. apply (IH H m M HM).
  - intros l IH b IHb (H1 & H2 & H3) m M HM. specialize (IH H1 m M HM). specialize (IHb H2 m M HM). rewrite H3 in IH. simpl in *. lia.
Qed.
Lemma size_key2 : (forall l, wf l -> bottom_id l = false -> forall m M, m <= M -> m * neurons l <= max_dLdA M l) /\
  (forall s, swf s -> sbottom_id s = false -> forall m M, m <= M -> m * sneurons s <= smax_dLdA M s) /\
  (forall h, forall inc, hwf inc h -> True).
Proof.
  destruct size_key as (K1 & K2 & _).
  apply layers_ind; try (intros; exact I).
  - intros. simpl. nia.
  - intros. discriminate.
  - intros s IH H HB m M HM. apply (IH H HB m M HM).
  - intros. simpl. nia.
  - intros k l _ inn A _ _ m M HM. simpl. pose proof (Nat.mul_le_mono_r m M (k * neurons l) HM). lia.
  - intros l IH H HB m M HM. apply (IH H HB m M HM).
  - intros l IH b IHb (H1 & H2 & H3) HB m M HM. specialize (IHb H2 HB m M HM). specialize (K1 l H1 m M HM). rewrite H3 in K1. simpl in *. lia.
Qed.

Lemma bsel_barr idx d e : bsel idx (barr idx d e) = d /\ bsel (negb idx) (barr idx d e) = e.
Proof. destruct idx; auto. Qed.
Lemma bsel_xor idx alt d e : bsel (xorb idx alt) (barr idx d e) = if alt then e else d.
Proof. destruct idx, alt; reflexivity. Qed.
Lemma bsel_xor' idx alt d e : bsel (negb (xorb idx alt)) (barr idx d e) = if alt then d else e.
Proof. destruct idx, alt; reflexivity. Qed.

(** sizes are such that the layer fits into buffers of [c] elements *)
Definition fits (c m M : nat) (hp : bool) (mx n inc : nat) (bot : bool) : Prop :=
  mx <= c /\ m * n <= c /\ (hp = true -> m * inc <= c) /\ (m * inc <= c \/ bot = false).

Lemma add_at_length i w acc : length (add_at i w acc) = length acc.
Proof. unfold add_at. rewrite map_length, seq_length. reflexivity. Qed.

Lemma bprop_ok : (forall l m M B gw hp d e c, (forall id, gw_ok (gw id)) -> wf l -> inited M l -> ready m B l ->
    length B = m * incoming l -> 0 < m -> m <= M -> length (b_d d) = c -> length (b_d e) = c ->
    shaped m (neurons l) d = true -> (hp = true -> shaped m (incoming l) e = true) ->
    fits c m M hp (max_dLdA M l) (neurons l) (incoming l) (bottom_id l) ->
    exists l' d' e' sw, bprop gw m (biased m B) hp d e l = Some (l', d', e', sw) /\
      bare l' = bare (fst (pback gw m (biased m B) (content d) l)) /\ sim l l' /\ length (b_d d') = c /\ length (b_d e') = c /\
      (hp = true -> shaped m (incoming l) (if sw then e' else d') = true /\
        content (if sw then e' else d') = snd (pback gw m (biased m B) (content d) l))) /\
  (forall s m M B gw hp arr idx c, (forall id, gw_ok (gw id)) -> swf s -> sinited M s -> sready m B s ->
    length B = m * sincoming s -> 0 < m -> m <= M -> length (b_d (fst arr)) = c -> length (b_d (snd arr)) = c ->
    shaped m (sneurons s) (bsel idx arr) = true ->
    fits c m M hp (smax_dLdA M s) (sneurons s) (sincoming s) (sbottom_id s) ->
    exists s' arr' idx', sbprop gw m (biased m B) hp arr idx s = Some (s', arr', idx') /\
      sbare s' = sbare (fst (spback gw m (biased m B) (content (bsel idx arr)) s)) /\ ssim s s' /\
      length (b_d (fst arr')) = c /\ length (b_d (snd arr')) = c /\
      (hp = true -> shaped m (sincoming s) (bsel idx' arr') = true /\
        content (bsel idx' arr') = snd (spback gw m (biased m B) (content (bsel idx arr)) s))) /\
  (forall h m M B gw hp inc dL f0 e b1 b2 cap, (forall id, gw_ok (gw id)) -> hwf inc h -> hinited M h -> hready m B h ->
    length B = m * inc -> 0 < m -> m <= M -> m * (f0 + hneurons h) <= length (b_d dL) ->
    (hp = true -> m * inc <= length (b_d e)) -> length (b_d b1) = cap -> length (b_d b2) = cap ->
    hmax_dLdA M h <= cap -> M * maxInc h <= cap ->
    exists h' e' b1' b2', hbprop gw m inc (biased m B) hp dL (f0 + hneurons h, e, b1, b2) h = Some (h', (f0, e', b1', b2'), biased m B) /\
      hbare h' = hbare (fst (hpback gw m inc (biased m B) (slice (m * f0) (m * hneurons h) (b_d dL)) h)) /\ hsim h h' /\
      length (b_d b1') = cap /\ length (b_d b2') = cap /\ length (b_d e') = length (b_d e) /\ b_r e' = b_r e /\ b_c e' = b_c e /\
      (hp = true -> let w := snd (hpback gw m inc (biased m B) (slice (m * f0) (m * hneurons h) (b_d dL)) h) in
        length w = m * inc /\ forall q, q < m * inc -> nth q (b_d e') 0%R = (nth q (b_d e) 0 + nth q w 0)%R)).
Proof.
  destruct fval_length as (L1 & L2 & L3). destruct acts_ready as (A1 & A2 & A3). destruct size_key as (K1 & K2 & _).
  destruct size_key2 as (Q1 & Q2 & _).
  apply layers_ind.
  - (* fully connected *)
    intros id a inc n W G A m M B gw hp d e c Hgw (W1 & W2 & W3 & W4) _ HR HB Hm HM Hd He Sd Se (F1 & F2 & F3 & F4).
    simpl in HB, HR, F1, F2, F3, F4, Sd, Se. cbn [bprop pback incoming neurons fst snd].
    assert (LA : length A = m * n) by (rewrite HR, map_length, gemm_length; reflexivity).
    rewrite Sd, LA, Nat.eqb_refl, biased_length, HB, (proj2 (Nat.eqb_eq _ _) W3).
    replace (m * inc + m) with (m * (inc + 1)) by lia. rewrite Nat.eqb_refl. cbn [andb guard obind].
    rewrite (content_shaped m n d Sd).
    rewrite (dz_eq a m n A (b_d d) LA) by lia.
    set (z := map (fun q => (act_df a (nth q A 0) * nth q (firstn (m * n) (b_d d)) 0)%R) (seq 0 (m * n))).
    set (g := gemm true false n (inc + 1) m (1 / INR m)%R z m (biased m B) m).
    assert (HE : exists e', (if hp then do _ <- guard (shaped m inc e); put e (gemm false false m inc n 1%R z m W n) else Some e) = Some e' /\
      length (b_d e') = c /\ (hp = true -> shaped m inc e' = true /\ content e' = gemm false false m inc n 1%R z m W n)).
    { destruct hp; [|exists e; split; [reflexivity|]; split; [assumption|discriminate]].
      specialize (Se eq_refl). specialize (F3 eq_refl). rewrite Se. cbn [guard obind]. apply shaped_iff in Se. destruct Se as [E1 E2].
      destruct (put_ok e (gemm false false m inc n 1%R z m W n)) as (D & P1 & P2 & P3); rewrite ?gemm_length, ?E1, ?E2; try lia.
      eexists. split; [exact P1|]. split; [simpl; lia|]. intros _. split; [apply shaped_iff; simpl; auto|]. unfold content. simpl. exact P3. }
    destruct HE as (e' & -> & He' & HEP). cbn [obind].
    rewrite deform_ok by lia. cbn [obind].
    assert (LG : length g = n * (inc + 1)) by apply gemm_length.
    destruct (Hgw id W g) as [G1 G2]; [lia|]. destruct (gw id W g) as [W' g'] eqn:Eg. simpl in G1, G2.
    destruct (put_ok (mkB n (inc + 1) (b_d d)) g') as (D & P1 & P2 & P3); [simpl; lia|simpl; lia|].
    rewrite P1. cbn [obind b_r b_c]. rewrite deform_ok by (simpl in *; lia). cbn [obind].
    eexists _, _, _, _. split; [reflexivity|]. split; [reflexivity|]. split; [simpl; auto 8|]. split; [simpl in *; lia|]. split; [assumption|].
    exact HEP.
  - (* identity *)
    intros n A m M B gw hp d e c Hgw Hn _ HR HB Hm HM Hd He Sd Se F. simpl in Sd, HB. cbn [bprop pback fst snd].
    rewrite Sd. cbn [guard obind]. eexists _, _, _, _. split; [reflexivity|]. split; [reflexivity|]. split; [reflexivity|].
    split; [assumption|]. split; [assumption|]. intros _. split; [exact Sd|reflexivity].
  - (* vertical pack *)
    intros s IH m M B gw hp d e c Hgw Hw Hi HR HB Hm HM Hd He Sd Se F. cbn [bprop pback].
    destruct (IH m M B gw hp (d, e) false c Hgw Hw Hi HR HB Hm HM Hd He Sd F) as (s' & [d' e'] & sw & E & E1 & E2 & E3 & E4 & E5).
    rewrite E. cbn [obind fst snd]. cbn [bsel fst] in E1, E5. exists (LPV s'), d', e', sw. split; [reflexivity|].
    destruct (spback gw m (biased m B) (content d) s) as [s2 w]. cbn [fst snd bare sim] in *. rewrite E1.
    split; [reflexivity|]. split; [assumption|]. split; [assumption|]. split; [assumption|]. intros Hhp. destruct (E5 Hhp) as [X1 X2].
    unfold bsel in X1, X2. cbn [fst snd] in X1, X2. cbn [incoming]. split; [exact X1|exact X2].
  - (* horizontal pack *)
    intros inc h IH b1 b2 m M B gw hp d e c Hgw [Hn Hw] (Hb1 & Hb2 & Hi) HR HB Hm HM Hd He Sd Se (F1 & F2 & F3 & F4).
    simpl in HB, Sd, Se, F1, F2, F3, HR. cbn [bprop pback].
    rewrite Sd, biased_length, HB. replace (m * inc + m) with (m * (inc + 1)) by lia. rewrite Nat.eqb_refl. cbn [andb guard obind].
    assert (HE : exists e', (if hp then do _ <- guard (shaped m inc e); put e (repeat 0%R (m * inc)) else Some e) = Some e' /\
      length (b_d e') = c /\ (hp = true -> shaped m inc e' = true /\ forall q, q < m * inc -> nth q (b_d e') 0%R = 0%R)).
    { destruct hp; [|exists e; split; [reflexivity|]; split; [assumption|discriminate]].
      specialize (Se eq_refl). specialize (F3 eq_refl). rewrite Se. cbn [guard obind]. apply shaped_iff in Se. destruct Se as [E1 E2].
      destruct (put_ok e (repeat 0%R (m * inc))) as (D & P1 & P2 & P3); rewrite ?repeat_length, ?E1, ?E2; try lia.
      eexists. split; [exact P1|]. split; [simpl; lia|]. intros _. split; [apply shaped_iff; simpl; auto|].
      intros q Hq. simpl. rewrite <- (nth_firstn D (b_r e * b_c e)) by (rewrite E1, E2; exact Hq). rewrite P3. apply nth_repeat'. exact Hq. }
    destruct HE as (e' & -> & He' & HEP). cbn [obind].
    destruct (IH m M B gw hp inc d 0 e' (mkB 0 0 b1) (mkB 0 0 b2) (inner_cap M h) Hgw Hw Hi HR HB Hm HM)
      as (h' & e2 & b1' & b2' & E & E1 & E2 & E3 & E4 & E5 & E6 & E7 & E8).
    { simpl. lia. } { intros Hhp. rewrite He'. auto. } { exact Hb1. } { exact Hb2. }
    { unfold inner_cap. lia. } { unfold inner_cap. lia. }
    change (0 + hneurons h) with (hneurons h) in E. rewrite E. cbn [obind].
    rewrite Nat.mul_0_r, slice_0 in E1, E8. rewrite (content_shaped _ _ _ Sd).
    destruct (hpback gw m inc (biased m B) (firstn (m * hneurons h) (b_d d)) h) as [h2 w]. cbn [fst snd] in *.
    eexists _, _, _, _. split; [reflexivity|]. cbn [bare sim fst snd incoming]. rewrite E1.
    split; [reflexivity|]. split; [simpl; rewrite E3, E4, Hb1, Hb2; auto|]. split; [assumption|]. split; [congruence|].
    intros Hhp. destruct (HEP Hhp) as [X1 X2]. apply shaped_iff in X1. destruct X1 as [X1 X1'].
    assert (X3 : shaped m inc e2 = true) by (apply shaped_iff; rewrite E6, E7; auto). split; [exact X3|].
    rewrite (content_shaped _ _ _ X3). destruct (E8 Hhp) as [X4 X5].
    apply nth_ext0; rewrite firstn_length_le by (rewrite E5, He'; auto); [congruence|].
    intros q Hq. rewrite nth_firstn, X5, X2 by assumption. ring.
  - (* tiles *)
    intros k l IH inn A m M B gw hp d e c Hgw [Hk Hw] Hi (R1 & R2 & R3) HB Hm HM Hd He Sd Se (F1 & F2 & F3 & F4).
    simpl in HB, Sd, Se, F1, F2, F3, Hi. cbn [bprop pback]. cbn [neurons] in *.
    rewrite Sd. cbn [guard obind].
    assert (C1 : k * m * neurons l <= c) by nia.
    assert (C2 : k * m * incoming l <= c) by (assert (k * m * incoming l <= M * k * incoming l) by nia; lia).
    rewrite deform_ok by lia. cbn [obind].
    destruct (put_ok (mkB (k * m) (neurons l) (b_d e)) (roll m (neurons l) k (b_d d))) as (D & P1 & P2 & P3);
      rewrite ?roll_length; simpl; try lia.
    rewrite P1. cbn [obind b_r b_c b_d] in *.
    set (e1 := mkB (k * m) (neurons l) D).
    assert (Hd1 : exists d1, (if hp then deform (k * m) (incoming l) d else deform 0 0 d) = Some d1 /\ length (b_d d1) = c /\
       (hp = true -> shaped (k * m) (incoming l) d1 = true)).
    { destruct hp; rewrite deform_ok by lia; eexists; (split; [reflexivity|]; split; [exact Hd|]); [|discriminate].
      intros _. apply shaped_iff. auto. }
    destruct Hd1 as (d1 & -> & Hd1 & Sd1). cbn [obind].
    assert (LI : length inn = k * m * incoming l) by (rewrite R1; apply roll_length).
    destruct (IH (k * m) (k * M) inn gw hp e1 d1 c Hgw Hw Hi R3 LI) as (l' & e2 & d2 & sw & E & E1 & E2 & E3 & E4 & E5).
    { nia. } { nia. } { simpl. lia. } { exact Hd1. } { apply shaped_iff. auto. } { exact Sd1. }
    { split; [lia|]. split; [lia|]. split; [intros _; lia|left; lia]. }
    rewrite E. cbn [obind]. cbn [fst snd incoming].
    assert (Er : content e1 = roll m (neurons l) k (content d)).
    { unfold content, e1. cbn [b_r b_c b_d]. rewrite P3. apply roll_ext. intros q Hq.
      apply shaped_iff in Sd. destruct Sd as [-> ->]. rewrite nth_firstn by assumption. reflexivity. }
    rewrite Er in E1, E5.
    destruct (pback gw (k * m) (biased (k * m) inn) (roll m (neurons l) k (content d)) l) as [l2 w]. cbn [fst snd] in *.
    destruct hp.
    + destruct (E5 eq_refl) as [X1 X2].
      destruct sw; rewrite deform_ok by nia; cbn [obind b_r b_c b_d].
      * destruct (put_ok (mkB m (k * incoming l) (b_d e2)) (unroll m (incoming l) k (b_d d2))) as (D2 & Y1 & Y2 & Y3);
          rewrite ?unroll_length; simpl; try lia.
        rewrite Y1. cbn [obind]. simpl in Y2, Y3. eexists _, _, _, _. split; [reflexivity|]. cbn [bare sim b_d b_r b_c]. rewrite E1.
        split; [reflexivity|]. split; [simpl; auto|]. split; [exact E4|]. split; [congruence|]. intros _.
        split; [apply shaped_iff; auto|]. unfold content. cbn [b_d b_r b_c]. rewrite Y3. apply unroll_ext. intros q Hq.
        rewrite <- X2. rewrite (content_shaped _ _ _ X1). rewrite nth_firstn by lia. reflexivity.
      * destruct (put_ok (mkB m (k * incoming l) (b_d d2)) (unroll m (incoming l) k (b_d e2))) as (D2 & Y1 & Y2 & Y3);
          rewrite ?unroll_length; simpl; try lia.
        rewrite Y1. cbn [obind]. simpl in Y2, Y3. eexists _, _, _, _. split; [reflexivity|]. cbn [bare sim b_d b_r b_c]. rewrite E1.
        split; [reflexivity|]. split; [simpl; auto|]. split; [congruence|]. split; [exact E3|]. intros _.
        split; [apply shaped_iff; auto|]. unfold content. cbn [b_d b_r b_c]. rewrite Y3. apply unroll_ext. intros q Hq.
        rewrite <- X2. rewrite (content_shaped _ _ _ X1). rewrite nth_firstn by lia. reflexivity.
    + eexists _, _, _, _. split; [reflexivity|]. cbn [bare sim]. rewrite E1.
      split; [reflexivity|]. split; [simpl; auto|]. split; [assumption|]. split; [assumption|discriminate].
  - (* one layer *)
    intros l IH m M B gw hp arr idx c Hgw Hw Hi HR HB Hm HM H1 H2 Sd (F1 & F2 & F3 & F4).
    simpl in HB, Hw, Hi, HR, Sd, F1, F2, F3, F4. cbn [sbprop spback].
    assert (Hl : forall i, length (b_d (bsel i arr)) = c) by (intros [|]; assumption).
    assert (Hn : exists nxt, (if hp then deform m (incoming l) (bsel (negb idx) arr) else deform 0 0 (bsel (negb idx) arr)) = Some nxt /\
       length (b_d nxt) = c /\ (hp = true -> shaped m (incoming l) nxt = true)).
    { destruct hp; rewrite deform_ok by (rewrite Hl; try specialize (F3 eq_refl); lia); eexists; (split; [reflexivity|]; split; [apply Hl|]); [|discriminate].
      intros _. apply shaped_iff. auto. }
    destruct Hn as (nxt & -> & Hn & Sn). cbn [obind].
    destruct (IH m M B gw hp (bsel idx arr) nxt c Hgw Hw Hi HR HB Hm HM (Hl idx) Hn Sd Sn (conj F1 (conj F2 (conj F3 F4))))
      as (l' & d' & e' & sw & E & E1 & E2 & E3 & E4 & E5).
    rewrite E. cbn [obind].
    destruct (pback gw m (biased m B) (content (bsel idx arr)) l) as [l2 w]. cbn [fst snd] in *.
    eexists _, _, _. split; [reflexivity|]. cbn [sbare ssim]. rewrite E1. split; [reflexivity|]. split; [assumption|].
    split; [destruct idx; assumption|]. split; [destruct idx; assumption|]. intros Hhp. cbn [sincoming]. rewrite bsel_xor. apply E5. exact Hhp.
  - (* layer over a stack *)
    intros l IH b IHb m M B gw hp arr idx c Hgw (W1 & W2 & W3) [I1 I2] [R1 R2] HB Hm HM H1 H2 Sd (F1 & F2 & F3 & F4).
    simpl in HB, Sd, F1, F2, F3, F4. cbn [sbprop spback].
    assert (Hl : forall i, length (b_d (bsel i arr)) = c) by (intros [|]; assumption).
    assert (C : m * sneurons b <= c).
    { destruct F4 as [F4|F4].
      - specialize (K2 b W2 m M HM). lia.
      - specialize (Q2 b W2 F4 m M HM). lia. }
    rewrite deform_ok by (rewrite Hl; exact C). cbn [obind].
    rewrite (A2 _ _ _ R1).
    destruct (IH m M (sval m B b) gw true (bsel idx arr) (mkB m (sneurons b) (b_d (bsel (negb idx) arr))) c Hgw W1 I1 R2)
      as (l' & d' & e' & sw & E & E1 & E2 & E3 & E4 & E5); try assumption.
    { rewrite W3. apply L2; assumption. } { apply Hl. } { apply Hl. }
    { intros _. apply shaped_iff. rewrite W3. auto. }
    { rewrite W3. split; [lia|]. split; [lia|]. split; [intros _; exact C|left; exact C]. }
    rewrite E. cbn [obind]. destruct (E5 eq_refl) as [X1 X2].
    destruct (pback gw m (biased m (sval m B b)) (content (bsel idx arr)) l) as [l2 w]. cbn [fst snd] in *.
    destruct (IHb m M B gw hp (barr idx d' e') (xorb idx sw) c Hgw W2 I2 R1 HB Hm HM)
      as (b' & arr' & idx' & G & G1 & G2 & G3 & G4 & G5).
    { destruct idx; assumption. } { destruct idx; assumption. }
    { rewrite bsel_xor, <- W3. exact X1. }
    { split; [lia|]. split; [exact C|]. split; [exact F3|exact F4]. }
    rewrite G. cbn [obind]. rewrite bsel_xor, X2 in G1, G5.
    destruct (spback gw m (biased m B) w b) as [b2 w']. cbn [fst snd] in *.
    eexists _, _, _. split; [reflexivity|]. cbn [sbare ssim]. rewrite E1, G1. split; [reflexivity|]. split; [split; assumption|].
    split; [assumption|]. split; [assumption|]. exact G5.
  - (* no inner layers left *)
    intros m M B gw hp inc dL f0 e b1 b2 cap Hgw _ _ _ HB Hm HM HdL He H1 H2 _ _. cbn [hbprop hpback hneurons fst snd].
    rewrite Nat.add_0_r. eexists _, _, _, _. split; [reflexivity|].
    do 7 (split; [solve [auto | exact I]|]). intros _. cbv zeta. split; [apply repeat_length|]. intros q Hq. rewrite nth_repeat' by exact Hq. ring.
  - (* an inner layer *)
    intros o cn l IH h IHh m M B gw hp inc dL f0 e b1 b2 cap Hgw (W1 & W2 & W3 & W4) [I1 I2] [R1 R2] HB Hm HM HdL He H1 H2 C1 C2.
    cbn [hneurons hmax_dLdA maxInc] in *. cbn [hbprop hpback].
    replace (f0 + (neurons l + hneurons h)) with ((f0 + neurons l) + hneurons h) by lia.
    destruct (IHh m M B gw hp inc dL (f0 + neurons l) e b1 b2 cap Hgw W4 I2 R2 HB Hm HM)
      as (h' & e1 & b1' & b2' & E & E1 & E2 & E3 & E4 & E5 & E6 & E7 & E8); try assumption; try lia; [nia|].
    rewrite E. cbn [obind]. rewrite (proj2 (Nat.leb_le _ _)) by lia. cbn [guard obind].
    replace (f0 + neurons l - neurons l) with f0 by lia.
    assert (Cn : m * cn <= cap) by nia.
    assert (Cl : m * neurons l <= cap) by (specialize (K1 l W1 m M HM); rewrite W2 in K1; lia).
    rewrite deform_ok by lia. cbn [obind].
    assert (Hs : length (slice (m * f0) (m * neurons l) (b_d dL)) = m * neurons l) by (apply slice_length; nia).
    destruct (put_ok (mkB m (neurons l) (b_d b1')) (slice (m * f0) (m * neurons l) (b_d dL))) as (D & P1 & P2 & P3);
      [rewrite Hs; reflexivity|rewrite Hs; simpl; lia|].
    rewrite P1. cbn [obind b_r b_c b_d] in *.
    assert (Hb2 : exists bb, (if hp then deform m cn b2' else deform 0 0 b2') = Some bb /\ length (b_d bb) = cap /\
       (hp = true -> shaped m cn bb = true)).
    { destruct hp; rewrite deform_ok by lia; eexists; (split; [reflexivity|]; split; [exact E4|]); [|discriminate].
      intros _. apply shaped_iff. auto. }
    destruct Hb2 as (bb & -> & Hbb & Sbb). cbn [obind].
    destruct (part_view m inc o cn B HB W3) as (PP & V1 & V2). rewrite V1. cbn [obind fst snd].
    assert (HsB : length (slice (m * o) (m * cn) B) = m * cn) by (apply slice_length; nia).
    destruct (IH m M (slice (m * o) (m * cn) B) gw hp (mkB m (neurons l) D) bb cap Hgw W1 I1 R1)
      as (l' & d' & e' & sw & G & G1 & G2 & G3 & G4 & G5); try assumption.
    { rewrite W2. exact HsB. } { simpl. lia. } { apply shaped_iff. auto. } { rewrite W2. exact Sbb. }
    { rewrite W2. split; [lia|]. split; [lia|]. split; [intros _; lia|left; lia]. }
    rewrite G. cbn [obind]. rewrite V2. rewrite W2 in G5.
    assert (Ec : content (mkB m (neurons l) D) = slice (m * f0) (m * neurons l) (b_d dL)) by exact P3.
    rewrite Ec in G1, G5.
    replace (slice (m * f0) (m * (neurons l + hneurons h)) (b_d dL)) with (slice (m * f0) (m * neurons l + m * hneurons h) (b_d dL)) by (f_equal; lia).
    rewrite firstn_slice, skipn_slice. replace (m * f0 + m * neurons l) with (m * (f0 + neurons l)) by lia.
    rewrite slice_biased by nia.
    destruct (hpback gw m inc (biased m B) (slice (m * (f0 + neurons l)) (m * hneurons h) (b_d dL)) h) as [h2 acc].
    destruct (pback gw m (biased m (slice (m * o) (m * cn) B)) (slice (m * f0) (m * neurons l) (b_d dL)) l) as [l2 w].
    cbn [fst snd] in *. cbn [hbare]. 
    destruct hp.
    + destruct (G5 eq_refl) as [X1 X2]. destruct (E8 eq_refl) as [X3 X4]. specialize (He eq_refl).
      set (cur := if sw then e' else d') in *. rewrite X1. cbn [guard obind].
      rewrite (proj2 (Nat.leb_le _ _)) by (rewrite E5; nia). cbn [guard obind].
      assert (Lc : length (b_d cur) = cap) by (unfold cur; destruct sw; assumption).
      assert (Lw : length w = m * cn) by (rewrite <- X2, (content_shaped _ _ _ X1), firstn_length_le; lia).
      assert (Lo : m * (o + cn) <= m * inc) by nia.
      set (add := map (fun q => (fst q + snd q)%R) (combine (slice (m * o) (m * cn) (b_d e1)) (content cur))).
      assert (Ls : length (slice (m * o) (m * cn) (b_d e1)) = m * cn) by (apply slice_length; lia).
      assert (La : length add = m * cn) by (unfold add; rewrite map_length, combine_length, Ls, X2, Lw; lia).
      eexists _, _, _, _. split; [reflexivity|]. cbn [hbare]. rewrite E1, G1. split; [reflexivity|]. split; [simpl; auto|].
      split; [assumption|]. split; [assumption|]. cbn [b_d b_r b_c]. rewrite overwrite_length by (rewrite La, E5; lia).
      split; [assumption|]. split; [assumption|]. split; [assumption|]. intros _. cbv zeta. split; [rewrite add_at_length; exact X3|].
      intros q Hq. rewrite nth_overwrite by (rewrite La, E5; lia). rewrite La.
      unfold add_at. rewrite nth_map_seq by lia. rewrite Lw.
      destruct ((m * o <=? q) && (q <? m * o + m * cn)) eqn:Eq.
      * apply andb_true_iff in Eq. destruct Eq as [Q3 Q4]. apply Nat.leb_le in Q3. apply Nat.ltb_lt in Q4.
        unfold add. rewrite (nth_comb Rplus) by (rewrite Ls, ?X2, ?Lw; lia).
        rewrite nth_slice by lia. replace (m * o + (q - m * o)) with q by lia. rewrite X4 by assumption. rewrite X2. ring.
      * rewrite X4 by assumption. ring.
    + cbn [obind]. eexists _, _, _, _. split; [reflexivity|]. cbn [hbare]. rewrite E1, G1. split; [reflexivity|]. split; [simpl; auto|].
      do 5 (split; [solve [auto]|]). discriminate.
Qed.
