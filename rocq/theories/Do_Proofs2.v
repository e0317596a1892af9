(** Proofs about stacks of layers with dropout. *)
From Coq Require Import Reals Lra Bool.
From Coquelicot Require Import Coquelicot.
From Verif Require Import Base BaseLemmas Workers_Model Kern_Model Act_Model Act_Spec Act_Proofs Loss_Proofs Net_Model Net_Spec Net_Proofs Net_Proofs2 Net_Proofs3 Net_Proofs4 Net_Proofs5
  La_Model La_Spec La_Proofs3 La_Proofs4 Drop_Model Drop_Spec Drop_Proofs Pen_Model Pen_Spec Pen_Proofs Pen_Proofs2 Do_Model Do_Spec Do_Proofs.
Local Open Scope nat_scope.

Definition und (s : dstack) : pstack := map (fun h => (h_l h, h_las h)) s.
Notation dwf i s := (pwf i (und s)).
Notation dneur i s := (pneur i (und s)).
Fixpoint dval (m : nat) (B : list R) (s : dstack) : list R :=
  match s with [] => B | h :: b => thin (h_do h) (fval m (dval m B b) (h_l h)) end.
Fixpoint dready (m : nat) (B : list R) (s : dstack) : Prop :=
  match s with [] => True | h :: b => dready m B b /\ ready m (dval m B b) (h_l h) end.
Fixpoint dsmooth (m : nat) (B : list R) (s : dstack) : Prop :=
  match s with [] => True | h :: b => dsmooth m B b /\ smooth_at m (biased m (dval m B b)) (h_l h) end.
Fixpoint dok (t : tmem) (m : nat) (B : list R) (s : dstack) : Prop :=
  match s with
  | [] => True
  | h :: b => dok t m B b /\ pgood t m (neurons (h_l h)) (fval m (dval m B b) (h_l h)) (h_las h) /\ dgood (m * neurons (h_l h)) (h_do h)
  end.
Fixpoint dpen (m : nat) (B : list R) (s : dstack) : R :=
  match s with [] => 0%R | h :: b => (pen_value (h_las h) m (neurons (h_l h)) (fval m (dval m B b) (h_l h)) + dpen m B b)%R end.

Lemma dval_length i m B s : dwf i s -> length B = m * i -> length (dval m B s) = m * dneur i s.
Proof.
  intros Hw HB. induction s as [|h b IH]; [exact HB|]. destruct Hw as (W1 & W2 & W3). cbn [dval und map pneur].
  rewrite thin_length. apply (proj1 fval_length); [exact W1|]. rewrite (IH W2), W3. reflexivity.
Qed.

(** before and after forward propagation, dropout apart *)
Fixpoint dsame (m : nat) (B : list R) (s s1 : dstack) : Prop :=
  match s, s1 with
  | [], [] => True
  | h :: b, h1 :: b1 => dsame m B b b1 /\ same (h_l h) (h_l h1) /\
      Forall2 (kept m (neurons (h_l h)) (fval m (dval m B b) (h_l h))) (h_las h) (h_las h1) /\ h_do h1 = h_do h
  | _, _ => False
  end.
(** ... and dropout applied *)
Fixpoint dmid (m : nat) (s1 s2 : dstack) : Prop :=
  match s1, s2 with
  | [], [] => True
  | h1 :: b1, h2 :: b2 => dmid m b1 b2 /\ h_las h2 = h_las h1 /\
      h_l h2 = (if active (h_do h1) then set_acts m (thin (h_do h1) (acts (h_l h1))) (h_l h1) else h_l h1) /\
      dkept (m * neurons (h_l h1)) (acts (h_l h1)) (h_do h1) (h_do h2)
  | _, _ => False
  end.

Lemma dsame_val m B s : forall s1, dsame m B s s1 -> dval m B s1 = dval m B s.
Proof.
  induction s as [|h b IH]; intros [|h1 b1] H; try contradiction; [reflexivity|].
  destruct H as (H1 & H2 & _ & H3). cbn [dval]. rewrite (IH _ H1), H3. f_equal. apply (proj1 fval_same), H2.
Qed.
Lemma dsame_wf m B i s : forall s1, dsame m B s s1 -> dwf i s -> dwf i s1 /\ dneur i s1 = dneur i s.
Proof.
  induction s as [|h b IH]; intros [|h1 b1] H; try contradiction; [intros _; split; exact I || reflexivity|].
  destruct H as (H1 & H2 & _). intros (W1 & W2 & W3). destruct (IH _ H1 W2) as [I1 I2]. cbn [und map pwf pneur].
  fold (und b1) (und b). rewrite (proj1 same_incoming _ _ H2), I2, (proj1 same_neurons _ _ H2).
  split; [|reflexivity]. split; [exact (proj1 same_wf _ _ H2 W1)|]. split; assumption.
Qed.
Lemma dready_acts i m B h b : dwf i (h :: b) -> length B = m * i -> dready m B (h :: b) ->
  acts (h_l h) = fval m (dval m B b) (h_l h) /\ length (acts (h_l h)) = m * neurons (h_l h) /\ set_acts m (acts (h_l h)) (h_l h) = h_l h.
Proof.
  intros (W1 & W2 & W3) HB [R1 R2]. pose proof (dval_length i m B b W2 HB) as LP. fold (und b) in *.
  assert (LB : length (dval m B b) = m * incoming (h_l h)) by (rewrite LP; f_equal; symmetry; exact W3).
  split; [exact (proj1 acts_ready _ _ _ R2)|]. split.
  - rewrite (proj1 acts_ready _ _ _ R2). apply (proj1 fval_length); assumption.
  - apply (proj1 (set_acts_id m) _ (dval m B b)); assumption.
Qed.
Lemma dmid_neurons m s1 : forall s2, dmid m s1 s2 -> forall i, dneur i s2 = dneur i s1.
Proof.
  destruct s1 as [|h1 b1]; intros [|h2 b2] H i; try contradiction; [reflexivity|]. destruct H as (_ & _ & E & _). cbn [und map pneur]. rewrite E.
  destruct (active (h_do h1)); [apply (proj1 (set_acts_neurons m))|reflexivity].
Qed.
Lemma dbelow_mid i m B s1 s2 : dwf i s1 -> length B = m * i -> dready m B s1 -> dmid m s1 s2 -> dbelow m (biased m B) s2 = biased m (dval m B s1).
Proof.
  destruct s1 as [|h1 b1], s2 as [|h2 b2]; intros Hw HB HR H; try contradiction; [reflexivity|].
  destruct (dready_acts i m B h1 b1 Hw HB HR) as (E1 & E2 & E3). destruct H as (_ & _ & E & _). cbn [dbelow dval]. rewrite E. f_equal.
  rewrite <- E1. destruct (active (h_do h1)) eqn:Ea; [|rewrite thin_inactive by exact Ea; reflexivity].
  apply (proj1 (set_acts_acts m)). rewrite thin_length. exact E2.
Qed.

Section K.
Context (th : lthr) (thd thm : nat) (pool : list prange) (t : tmem).

Lemma dsfprop_ok i m B : 0 < m -> length B = m * i -> forall s, dwf i s -> dok t m B s -> forall post : dstack -> Prop,
  (forall s1 s2, dsame m B s s1 -> dready m B s1 -> dmid m s1 s2 -> post s2) -> dsfprop th thd pool t true m (biased m B) s post.
Proof.
  intros Hm HB s. induction s as [|h b IH]; intros Hw Hp post HP; [apply (HP [] []); exact I|].
  destruct Hw as (W1 & W2 & W3). fold (und b) in *. destruct Hp as (P1 & P2 & P3). cbn [dsfprop]. apply IH; [exact W2|exact P1|].
  intros b1 b2 Sb Rb Mb. destruct (dsame_wf m B i _ _ Sb W2) as [W2' N2'].
  rewrite (dbelow_mid i m B b1 b2 W2' HB Rb Mb). rewrite (dsame_val m B b b1 Sb).
  pose proof (dval_length i m B b W2 HB) as LP.
  destruct (proj1 fprop_ok (h_l h) m (dval m B b) W1) as (l1 & E & S & Rl); [rewrite LP; f_equal; symmetry; exact W3|]. rewrite E. cbv zeta.
  assert (EA : acts l1 = fval m (dval m B b) (h_l h)) by (rewrite (proj1 acts_ready _ _ _ Rl); apply (proj1 fval_same), S).
  pose proof (proj1 same_neurons _ _ S) as EN.
  assert (LF : length (acts l1) = m * neurons l1).
  { rewrite EA, EN. apply (proj1 fval_length); [exact W1|rewrite LP; f_equal; symmetry; exact W3]. }
  pose proof (proj1 wf_pos _ W1) as Hn.
  apply pab_fprop_ok; [lia| |].
  - rewrite EN. intros a Ha He Hf. destruct (P2 a Ha He) as (U & _ & F & _). split; [exact U|]. exact (F Hf).
  - intros las' HF. apply do_apply_ok; [exact Hm|rewrite EN; exact Hn|exact LF|rewrite EN; exact P3|].
    intros d' HK. apply (HP (mkH l1 las' (h_do h) :: b1)).
    + split; [exact Sb|]. cbn [h_l h_las h_do]. split; [exact S|]. split; [rewrite <- EA, <- EN; exact HF|reflexivity].
    + split; [exact Rb|]. cbn [h_l]. rewrite (dsame_val m B b b1 Sb). exact Rl.
    + split; [exact Mb|]. cbn [h_l h_las h_do]. split; [reflexivity|]. split; [reflexivity|exact HK].
Qed.

(** ** Back-propagation without buffers *)
Fixpoint dpback (gw : gworks) (m : nat) (B : list R) (v : list R) (s : dstack) : list layer * list R :=
  match s with
  | [] => ([], v)
  | h :: b =>
      let l := h_l h in
      let v' := map (fun q => (nth q v 0 * dmask (h_do h) q + pgrad (h_las h) m (neurons l) (fval m (dval m B b) l) q)%R) (seq 0 (m * neurons l)) in
      let r := pback gw m (biased m (dval m B b)) v' l in
      let r' := dpback gw m B (snd r) b in (fst r :: fst r', snd r')
  end.

Fixpoint dstored (m : nat) (B : list R) (s : dstack) : Prop :=
  match s with [] => True | h :: b => dstored m B b /\ pheld t m (neurons (h_l h)) (fval m (dval m B b) (h_l h)) (h_las h) end.

Lemma dstored_ok m B s : forall s1, dok t m B s -> dsame m B s s1 -> dstored m B s1.
Proof.
  induction s as [|h b IH]; intros [|h1 b1] HP HS; try contradiction; [exact I|].
  destruct HP as (P1 & P2 & _). destruct HS as (S1 & S2 & S3 & _). split; [apply IH; assumption|].
  rewrite (dsame_val m B b b1 S1), (proj1 fval_same _ _ S2), (proj1 same_neurons _ _ S2).
  clear -S3 P2. revert S3 P2. generalize (h_las h1), (h_las h). intros las' las S3 P2. induction S3 as [|a a1 las las' [(E1 & E2 & E3 & E4 & E5) Hst] HF IH]; [intros a []|].
  assert (IH' := IH (fun a' H' => P2 a' (or_intror H'))).
  intros a2 [<-|Ha] He; [|apply IH'; assumption].
  assert (He0 : enabled a = true) by (unfold enabled in He |- *; rewrite E2 in He; exact He).
  destruct (P2 a (or_introl eq_refl) He0) as (U & N & _ & Rg).
  split; [congruence|]. split; [|split].
  - rewrite E3. destruct (a_fp a) eqn:Ef; [apply Hst; [reflexivity|exact He0]|]. unfold usable in U |- *. rewrite E1. exact U.
  - rewrite E1. intros x k Ek. destruct U as (_ & _ & U). rewrite Ek in U. apply U.
  - unfold regular in Rg |- *. rewrite E1. exact Rg.
Qed.

Lemma dsbprop_ok gw i m M B c : (forall id, gw_ok (gw id)) -> length B = m * i -> 0 < m -> m <= M -> forall s s2, dwf i s -> dstored m B s ->
  dready m B s -> dmid m s s2 -> (forall l las, In (l, las) (und s) -> inited M l /\ max_dLdA M l <= c) -> (m * i <= c \/ pbot (und s) = false) ->
  forall arr idx, length (b_d (fst arr)) = c -> length (b_d (snd arr)) = c -> (s <> [] -> shaped m (dneur i s) (bsel idx arr) = true) ->
  forall post : dstack -> dbuf * dbuf -> Prop,
  (forall s' arr', map bare (map h_l s') = map bare (fst (dpback gw m B (content (bsel idx arr)) s)) -> post s' arr') ->
  dsbprop th thm pool t gw m (biased m B) arr idx s2 post.
Proof.
  intros Hgw HB Hm HM s. induction s as [|h b IH]; intros [|h2 b2] Hw Hp HR HMd HI Hbot arr idx La Lb Hsh post HP; try contradiction.
  - apply HP. reflexivity.
  - assert (Hsz : m * dneur i (h :: b) <= c).
    { apply (psize i m M c _ Hw HM); [|exact Hbot]. intros l1 las1 H1. apply (HI l1 las1 H1). }
    destruct (dready_acts i m B h b Hw HB HR) as (EL & LF & EI).
    destruct Hw as (V1 & V2 & V3). fold (und b) in *. destruct Hp as [P1 P2]. destruct HR as [R1 R2]. destruct HMd as (M1 & M2 & M3 & M4).
    pose proof (dval_length i m B b V2 HB) as LP.
    cbn [dsbprop]. cbv zeta. cbn [und map pneur] in Hsz. fold (und b) in *.
    assert (Ls : length (b_d (bsel idx arr)) = c) by (destruct idx; assumption).
    assert (Lo : length (b_d (bsel (negb idx) arr)) = c) by (destruct idx; assumption).
    pose proof (proj1 wf_pos _ V1) as Hn. cbn [fst] in *.
    assert (Hb : match b with [] => True | _ => m * incoming (h_l h) <= c end).
    { destruct b as [|q b]; [exact I|]. rewrite V3. apply (psize i m M c _ V2 HM); [|exact Hbot]. intros l1 las1 H1. apply (HI l1 las1). right. exact H1. }
    rewrite M3, M2. apply (do_restore_ok thm pool m (h_l h) (h_do h)); [exact Hm|exact Hn|exact LF|lia|exact EI|exact M4|].
    intros D0 LD0 ED0.
    apply (pab_update_ok th pool m (neurons (h_l h)) (acts (h_l h)) (acts (h_l h))); [exact Hm|exact Hn|lia| |lia|].
    + intros a Ha He. rewrite EL. apply (P2 a Ha He).
    + intros D LD OD ED.
      specialize (Hsh ltac:(discriminate)). cbn [und map pneur] in Hsh.
      set (e := match b with [] => mkB 0 0 (b_d (bsel (negb idx) arr)) | _ => mkB m (incoming (h_l h)) (b_d (bsel (negb idx) arr)) end).
      assert (Ee : match b2 with [] => deform 0 0 (bsel (negb idx) arr) | hb :: _ => deform m (neurons (h_l hb)) (bsel (negb idx) arr) end = Some e).
      { unfold e. pose proof (dmid_neurons m b b2 M1 i) as Nm. destruct b as [|hb b], b2 as [|hb2 b2]; try contradiction; [apply deform_ok; lia|].
        cbn [und map pneur] in Nm, V3. rewrite Nm, <- V3. apply deform_ok. lia. }
      rewrite Ee. cbn [obind].
      rewrite (dbelow_mid i m B b b2 V2 HB R1 M1).
      replace (match b2 with [] => false | _ => true end) with (match b with [] => false | _ => true end)
        by (destruct b, b2; try contradiction; reflexivity).
      set (d := mkB (b_r (bsel idx arr)) (b_c (bsel idx arr)) D).
      assert (Shd : shaped m (neurons (h_l h)) d = true) by (apply shaped_iff; unfold d; cbn [b_r b_c]; apply shaped_iff; exact Hsh).
      destruct (HI (h_l h) (h_las h) (or_introl eq_refl)) as [I1 I2].
      destruct (proj1 bprop_ok (h_l h) m M (dval m B b) gw (match b with [] => false | _ => true end) d e c Hgw V1 I1 R2) as (l' & d' & e' & sw & E & E1 & E2 & E3 & E4 & E5).
      { rewrite LP. f_equal. symmetry. exact V3. } { exact Hm. } { exact HM. } { unfold d. cbn [b_d]. lia. }
      { unfold e. destruct b; exact Lo. } { exact Shd. }
      { unfold e. destruct b; [discriminate|]. intros _. apply shaped_iff. cbn [b_r b_c]. auto. }
      { split; [exact I2|]. split; [exact Hsz|].
        split; [destruct b; [discriminate|intros _; exact Hb]|].
        destruct b as [|q b]; [|left; exact Hb]. destruct Hbot as [Hbot|Hbot]; [left; rewrite V3; exact Hbot|right; exact Hbot]. }
      rewrite E.
      assert (Ed : content d = map (fun q => (nth q (content (bsel idx arr)) 0 * dmask (h_do h) q + pgrad (h_las h) m (neurons (h_l h)) (fval m (dval m B b) (h_l h)) q)%R) (seq 0 (m * neurons (h_l h)))).
      { rewrite (content_shaped m (neurons (h_l h)) (bsel idx arr) Hsh), (content_shaped m (neurons (h_l h)) d Shd). apply nth_ext0.
        - rewrite map_length, seq_length. apply firstn_length_le. unfold d. cbn [b_d]. lia.
        - rewrite firstn_length_le by (unfold d; cbn [b_d]; lia). intros q Hq. rewrite nth_map_seq by exact Hq. rewrite !nth_firstn by exact Hq.
          unfold d. cbn [b_d]. rewrite ED by exact Hq. rewrite pen_fold_sum by (intros a Ha He; apply (P2 a Ha He)). rewrite EL, ED0 by exact Hq. reflexivity. }
      rewrite Ed in E1, E5.
      assert (Hcl : forall l1 las1, In (l1, las1) (und b) -> inited M l1 /\ max_dLdA M l1 <= c) by (intros l1 las1 H1; apply (HI l1 las1); right; exact H1).
      destruct b as [|q b].
      * destruct b2; [|contradiction]. cbn [dsbprop]. apply HP. cbn [map h_l dpback fst]. rewrite E1. reflexivity.
      * destruct (E5 eq_refl) as [F1 F2].
        apply IH; [exact V2|exact P1|exact R1|exact M1|exact Hcl|exact Hbot|destruct idx; assumption|destruct idx; assumption| |].
        -- intros _. rewrite bsel_xor. rewrite <- V3. exact F1.
        -- intros s' arr' G1. apply HP.
           rewrite bsel_xor, F2 in G1. cbn [map h_l]. rewrite G1.
           cbn [dpback]. cbv zeta. cbn [fst map]. rewrite E1. reflexivity.
Qed.
End K.

(** ** Values as specified *)
Lemma levels_ok i m B s : dwf i s -> length B = m * i ->
  exists L, levels m (biased m B) s = Some L /\ seen m (biased m B) s L = biased m (dval m B s) /\
    (forall las, map (fun q => pen_value (h_las (fst q)) m (neurons (h_l (fst q))) (snd q)) (combine s L) = las -> sumR las = dpen m B s) /\
    length L = length s /\
    (forall (P : hid -> list R -> Prop), (forall g A, In (g, A) (combine s L) -> P g A) -> forall pre h b, s = pre ++ h :: b -> P h (fval m (dval m B b) (h_l h))).
Proof.
  intros Hw HB. induction s as [|h b IH].
  - exists []. split; [reflexivity|]. split; [reflexivity|]. split; [intros las <-; reflexivity|]. split; [reflexivity|]. intros P _ [|? ?] h0 b0 E; discriminate E.
  - destruct Hw as (W1 & W2 & W3). fold (und b) in *. destruct (IH W2) as (L & E1 & E2 & E3 & E4 & E5). pose proof (dval_length i m B b W2 HB) as LP.
    destruct (proj1 fprop_ok (h_l h) m (dval m B b) W1) as (l1 & E & S & Rl); [rewrite LP; f_equal; symmetry; exact W3|].
    assert (EA : acts l1 = fval m (dval m B b) (h_l h)) by (rewrite (proj1 acts_ready _ _ _ Rl); apply (proj1 fval_same), S).
    exists (acts l1 :: L). cbn [levels]. rewrite E1. cbn [obind]. rewrite E2, E. cbn [obind]. split; [reflexivity|].
    split; [cbn [seen dval]; rewrite EA; reflexivity|]. split; [|split].
    + intros las <-. cbn [combine map fst snd dpen]. specialize (E3 _ eq_refl). unfold sumR in *. cbn [fold_right]. rewrite E3, EA. reflexivity.
    + cbn [length]. rewrite E4. reflexivity.
    + intros P HP [|g pre] h0 b0 Es.
      * injection Es as <- <-. rewrite <- EA. apply HP. left. reflexivity.
      * injection Es as <- Es. apply (E5 P) with (pre := pre); [|exact Es]. intros h1 A1 Hin. apply HP. right. exact Hin.
Qed.
