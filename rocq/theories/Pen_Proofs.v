(** Proofs about networks with penalised activations. *)
From Coq Require Import Reals Lra Bool.
From Coquelicot Require Import Coquelicot.
From Verif Require Import Base BaseLemmas Workers_Model Kern_Model Act_Model Act_Spec Act_Proofs Loss_Proofs Net_Model Net_Spec Net_Proofs Net_Proofs2 Net_Proofs3 Net_Proofs4 Net_Proofs5
  La_Model La_Spec La_Proofs3 La_Proofs4 Pen_Model Pen_Spec.
Local Open Scope nat_scope.

Definition pneur (i : nat) (b : pstack) : nat := match b with [] => i | (l, _) :: _ => neurons l end.
Fixpoint pwf (i : nat) (s : pstack) : Prop :=
  match s with [] => True | (l, _) :: b => wf l /\ pwf i b /\ incoming l = pneur i b end.
Fixpoint pval (m : nat) (B : list R) (s : pstack) : list R :=
  match s with [] => B | (l, _) :: b => fval m (pval m B b) l end.
Fixpoint pready (m : nat) (B : list R) (s : pstack) : Prop :=
  match s with [] => True | (l, _) :: b => pready m B b /\ ready m (pval m B b) l end.
Fixpoint psmooth (m : nat) (B : list R) (s : pstack) : Prop :=
  match s with [] => True | (l, _) :: b => psmooth m B b /\ smooth_at m (biased m (pval m B b)) l end.
Definition pgood (t : tmem) (m n : nat) (A : list R) (las : list adn) : Prop :=
  forall a, In a las -> enabled a = true -> usable a m n t /\ a_nz a = false /\ (a_fp a = true -> m * n <= length (a_mtx a)) /\
    forall q, q < m * n -> regular a (nth q A 0%R).
Fixpoint pok (t : tmem) (m : nat) (B : list R) (s : pstack) : Prop :=
  match s with [] => True | (l, las) :: b => pok t m B b /\ pgood t m (neurons l) (fval m (pval m B b) l) las end.

Lemma pval_length i m B s : pwf i s -> length B = m * i -> length (pval m B s) = m * pneur i s.
Proof.
  intros Hw HB. induction s as [|[l las] b IH]; [exact HB|]. destruct Hw as (W1 & W2 & W3). cbn [pval pneur].
  apply (proj1 fval_length); [exact W1|]. rewrite (IH W2), W3. reflexivity.
Qed.

Fixpoint ppen (m : nat) (B : list R) (s : pstack) : R :=
  match s with [] => 0%R | (l, las) :: b => (pen_value las m (neurons l) (fval m (pval m B b) l) + ppen m B b)%R end.

(** after forward propagation *)
Definition pafter (m : nat) (A : list R) (l l' : layer) (las las' : list adn) : Prop :=
  same l l' /\ Forall2 (kept m (neurons l) A) las las'.
Fixpoint psame (m : nat) (B : list R) (s s' : pstack) : Prop :=
  match s, s' with
  | [], [] => True
  | (l, las) :: b, (l', las') :: b' => psame m B b b' /\ pafter m (fval m (pval m B b) l) l l' las las'
  | _, _ => False
  end.

Lemma psame_val m B s : forall s', psame m B s s' -> pval m B s' = pval m B s.
Proof.
  induction s as [|[l las] b IH]; intros [|[l' las'] b'] H; try contradiction; [reflexivity|].
  destruct H as (H1 & H2 & _). cbn [pval]. rewrite (IH _ H1). apply (proj1 fval_same), H2.
Qed.
Lemma psame_wf m B i s : forall s', psame m B s s' -> pwf i s -> pwf i s' /\ pneur i s' = pneur i s.
Proof.
  induction s as [|[l las] b IH]; intros [|[l' las'] b'] H; try contradiction; [intros _; split; exact I || reflexivity|].
  destruct H as (H1 & H2 & _). intros (W1 & W2 & W3). destruct (IH _ H1 W2) as [I1 I2]. cbn [pwf pneur].
  rewrite (proj1 same_incoming _ _ H2), I2, (proj1 same_neurons _ _ H2). 
  split; [|reflexivity]. split; [exact (proj1 same_wf _ _ H2 W1)|]. split; assumption.
Qed.

Section K.
Context (th : lthr) (pool : list prange) (t : tmem).

Lemma below_ready m B s : pready m B s -> below m (biased m B) s = biased m (pval m B s).
Proof.
  destruct s as [|[l las] b]; [reflexivity|]. intros [_ H]. cbn [below pval]. rewrite (proj1 acts_ready _ _ _ H). reflexivity.
Qed.

Lemma psfprop_ok i m B : length B = m * i -> forall s, pwf i s -> pok t m B s -> forall post : pstack -> Prop,
  (forall s', psame m B s s' -> pready m B s' -> post s') -> psfprop th pool t m (biased m B) s post.
Proof.
  intros HB s. induction s as [|[l las] b IH]; intros Hw Hp post HP; [apply HP; exact I|].
  destruct Hw as (W1 & W2 & W3). destruct Hp as [P1 P2]. cbn [psfprop]. apply IH; [exact W2|exact P1|].
  intros b' Sb Rb. rewrite (below_ready m B b' Rb). rewrite (psame_val m B b b' Sb).
  pose proof (pval_length i m B b W2 HB) as LP.
  destruct (proj1 fprop_ok l m (pval m B b) W1) as (l' & E & S & Rl); [rewrite LP, W3; reflexivity|]. rewrite E.
  rewrite (proj1 acts_ready _ _ _ Rl), (proj1 fval_same _ _ S), (proj1 same_neurons _ _ S).
  assert (LF : length (fval m (pval m B b) l) = m * neurons l) by (apply (proj1 fval_length); [exact W1|rewrite LP, W3; reflexivity]).
  apply pab_fprop_ok; [lia| |].
  - intros a Ha He Hf. destruct (P2 a Ha He) as (U & _ & F & _). split; [exact U|]. exact (F Hf).
  - intros las' HF. apply HP.
    + split; [exact Sb|]. split; [exact S|exact HF].
    + split; [exact Rb|]. rewrite (psame_val m B b b' Sb). exact Rl.
Qed.

Lemma ploss_ok i m B : length B = m * i -> forall s s', pwf i s -> pok t m B s -> psame m B s s' -> pready m B s' ->
  forall post : R -> Prop,
  post (ppen m B s) ->
  calcLossAddendum th pool t m s' post.
Proof.
  intros HB s. induction s as [|[l las] b IH]; intros [|[l' las'] b'] Hw Hp HS HR post HP; try contradiction; [exact HP|].
  destruct Hw as (W1 & W2 & W3). destruct Hp as [P1 P2]. destruct HS as (S1 & S2 & S3). destruct HR as [R1 R2].
  cbn [calcLossAddendum]. apply (IH b' W2 P1 S1 R1).
  assert (EL : acts l' = fval m (pval m B b) l).
  { rewrite (proj1 acts_ready _ _ _ R2), (psame_val m B b b' S1). apply (proj1 fval_same), S2. }
  assert (LP : length (acts l') = m * neurons l).
  { rewrite EL. apply (proj1 fval_length); [exact W1|]. rewrite (pval_length i m B b W2 HB), W3. reflexivity. }
  rewrite (proj1 same_neurons _ _ S2).
  assert (EV : pen_value las' m (neurons l) (acts l') = pen_value las m (neurons l) (acts l')).
  { clear -S3. unfold pen_value. induction S3 as [|a a' las las' [(E1 & E2 & _) _] HF IH]; [reflexivity|].
    cbn [map sumR fold_right]. unfold sumR in IH |- *. cbn [fold_right]. rewrite IH, E1, E2. reflexivity. }
  apply pab_value.
  - intros a' Ha He. clear -Ha He S3 P2.
    induction S3 as [|a a2 las las' [(E1 & E2 & _) _] HF IH]; [contradiction|].
    destruct Ha as [->|Ha]; [|apply IH; [intros a0 H0; apply P2; right; exact H0|exact Ha]].
    destruct (P2 a (or_introl eq_refl)) as (U & _); [unfold enabled in He |- *; rewrite E2 in He; exact He|].
    unfold usable in U |- *. rewrite E1. exact U.
  - lia.
  - rewrite Rplus_0_l, EV, EL. cbn [ppen] in HP. rewrite Rplus_comm. exact HP.
Qed.

(** ** Back-propagation without buffers *)
Fixpoint ppback (gw : gworks) (m : nat) (B : list R) (v : list R) (s : pstack) : list layer * list R :=
  match s with
  | [] => ([], v)
  | (l, las) :: b =>
      let v' := map (fun q => (nth q v 0 + pgrad las m (neurons l) (fval m (pval m B b) l) q)%R) (seq 0 (m * neurons l)) in
      let r := pback gw m (biased m (pval m B b)) v' l in
      let r' := ppback gw m B (snd r) b in (fst r :: fst r', snd r')
  end.

Fixpoint pbot (s : pstack) : bool :=
  match s with [] => true | (l, _) :: b => match b with [] => bottom_id l | _ => pbot b end end.

Lemma psize i m M c s : pwf i s -> m <= M -> (forall l las, In (l, las) s -> max_dLdA M l <= c) -> (m * i <= c \/ pbot s = false) ->
  m * pneur i s <= c.
Proof.
  intros Hw HM. induction s as [|[l las] b IH]; intros HC HB.
  - destruct HB as [HB|HB]; [exact HB|discriminate HB].
  - destruct Hw as (W1 & W2 & W3). cbn [pneur]. pose proof (HC l las (or_introl eq_refl)) as HL.
    pose proof (proj1 size_key l W1 m M HM) as K. destruct b as [|q b].
    + cbn [pneur] in W3. destruct HB as [HB|HB]; [rewrite W3 in K; lia|].
      pose proof (proj1 size_key2 l W1 HB m M HM). lia.
    + assert (X : m * pneur i (q :: b) <= c) by (apply IH; [exact W2|intros; eapply HC; right; eassumption|exact HB]).
      rewrite W3 in K. lia.
Qed.

Lemma wf_pos : (forall l, wf l -> 0 < neurons l) /\ (forall s, swf s -> 0 < sneurons s) /\ (forall h : hpack, True).
Proof.
  apply layers_ind; try (intros; exact I); try (intros; simpl in *; tauto).
  intros k l IH inn A [Hk Hw]. specialize (IH Hw). simpl. nia.
Qed.

(** what is known of penalties after forward propagation *)
Definition pheld (m n : nat) (A : list R) (las : list adn) : Prop :=
  forall a, In a las -> enabled a = true -> a_nz a = false /\ (if a_fp a then stored a m n A else usable a m n t) /\
    (forall l k, a_kind a = KDeCov l k -> 1 < n) /\ forall q, q < m * n -> regular a (nth q A 0%R).
Fixpoint pstored (m : nat) (B : list R) (s : pstack) : Prop :=
  match s with [] => True | (l, las) :: b => pstored m B b /\ pheld m (neurons l) (fval m (pval m B b) l) las end.

Lemma pstored_ok m B s : forall s', pok t m B s -> psame m B s s' -> pstored m B s'.
Proof.
  induction s as [|[l las] b IH]; intros [|[l' las'] b'] HP HS; try contradiction; [exact I|].
  destruct HP as [P1 P2]. destruct HS as (S1 & S2 & S3). split; [apply IH; assumption|].
  rewrite (psame_val m B b b' S1), (proj1 fval_same _ _ S2), (proj1 same_neurons _ _ S2).
  clear -S3 P2. induction S3 as [|a a1 las las' [(E1 & E2 & E3 & E4 & E5) Hst] HF IH]; [intros a []|].
  assert (IH' := IH (fun a' H' => P2 a' (or_intror H'))).
  intros a2 [<-|Ha] He; [|apply IH'; assumption].
  assert (He0 : enabled a = true) by (unfold enabled in He |- *; rewrite E2 in He; exact He).
  destruct (P2 a (or_introl eq_refl) He0) as (U & N & _ & Rg).
  split; [congruence|]. split; [|split].
  - rewrite E3. destruct (a_fp a) eqn:Ef; [apply Hst; [reflexivity|exact He0]|]. unfold usable in U |- *. rewrite E1. exact U.
  - rewrite E1. intros x k Ek. destruct U as (_ & _ & U). rewrite Ek in U. apply U.
  - unfold regular in Rg |- *. rewrite E1. exact Rg.
Qed.

Lemma psbprop_ok gw i m M B c : (forall id, gw_ok (gw id)) -> length B = m * i -> 0 < m -> m <= M -> forall s, pwf i s -> pstored m B s ->
  pready m B s -> (forall l las, In (l, las) s -> inited M l /\ max_dLdA M l <= c) -> (m * i <= c \/ pbot s = false) ->
  forall arr idx, length (b_d (fst arr)) = c -> length (b_d (snd arr)) = c -> (s <> [] -> shaped m (pneur i s) (bsel idx arr) = true) ->
  forall post : pstack -> dbuf * dbuf -> Prop,
  (forall s' arr', map bare (map fst s') = map bare (fst (ppback gw m B (content (bsel idx arr)) s)) -> map snd s' = map snd s ->
     length (b_d (fst arr')) = c -> length (b_d (snd arr')) = c -> post s' arr') ->
  psbprop th pool t gw m (biased m B) arr idx s post.
Proof.
  intros Hgw HB Hm HM s. induction s as [|[l las] b IH]; intros Hw Hp HR HI Hbot arr idx La Lb Hsh post HP.
  - apply HP; [reflexivity|reflexivity|exact La|exact Lb].
  - assert (Hsz : m * pneur i ((l, las) :: b) <= c).
    { apply (psize i m M c _ Hw HM); [|exact Hbot]. intros l1 las1 H1. apply (HI l1 las1 H1). }
    destruct Hw as (V1 & V2 & V3). destruct Hp as [P1 P2]. destruct HR as [R1 R2].
    pose proof (pval_length i m B b V2 HB) as LP.
    pose proof (proj1 acts_ready _ _ _ R2) as EL.
    assert (LF : length (acts l) = m * neurons l).
    { rewrite EL. apply (proj1 fval_length); [exact V1|]. rewrite LP, V3. reflexivity. }
    cbn [psbprop]. cbv zeta. cbn [pneur] in Hsz.
    assert (Ls : length (b_d (bsel idx arr)) = c) by (destruct idx; assumption).
    assert (Lo : length (b_d (bsel (negb idx) arr)) = c) by (destruct idx; assumption).
    pose proof (proj1 wf_pos l V1) as Hn.
    assert (Hb : match b with [] => True | _ => m * incoming l <= c end).
    { destruct b as [|q b]; [exact I|]. rewrite V3. apply (psize i m M c _ V2 HM); [|exact Hbot]. intros l1 las1 H1. apply (HI l1 las1). right. exact H1. }
    apply (pab_update_ok th pool m (neurons l) (acts l) (acts l)); [exact Hm|exact Hn|lia| |lia|].
    + intros a Ha He. rewrite EL. apply (P2 a Ha He).
    + intros D LD OD ED.
      specialize (Hsh ltac:(discriminate)). cbn [pneur] in Hsh.
      set (e := match b with [] => mkB 0 0 (b_d (bsel (negb idx) arr)) | _ => mkB m (incoming l) (b_d (bsel (negb idx) arr)) end).
      assert (Ee : match b with [] => deform 0 0 (bsel (negb idx) arr) | (lb, _) :: _ => deform m (neurons lb) (bsel (negb idx) arr) end = Some e).
      { unfold e. destruct b as [|[lb lasb] b]; [apply deform_ok; lia|]. rewrite V3. cbn [pneur] in *. apply deform_ok. lia. }
      rewrite Ee. cbn [obind].
      rewrite (below_ready m B b R1).
      set (d := mkB (b_r (bsel idx arr)) (b_c (bsel idx arr)) D).
      assert (Shd : shaped m (neurons l) d = true) by (apply shaped_iff; unfold d; cbn [b_r b_c]; apply shaped_iff; exact Hsh).
      destruct (HI l las (or_introl eq_refl)) as [I1 I2].
      destruct (proj1 bprop_ok l m M (pval m B b) gw (match b with [] => false | _ => true end) d e c Hgw V1 I1 R2) as (l' & d' & e' & sw & E & E1 & E2 & E3 & E4 & E5).
      { rewrite LP, V3. reflexivity. } { exact Hm. } { exact HM. } { unfold d. cbn [b_d]. lia. }
      { unfold e. destruct b; exact Lo. } { exact Shd. }
      { unfold e. destruct b; [discriminate|]. intros _. apply shaped_iff. cbn [b_r b_c]. auto. }
      { split; [exact I2|]. split; [exact Hsz|].
        split; [destruct b; [discriminate|intros _; exact Hb]|].
        destruct b as [|q b]; [|left; exact Hb]. destruct Hbot as [Hbot|Hbot]; [left; rewrite V3; exact Hbot|right; exact Hbot]. }
      rewrite E.
      assert (Ed : content d = map (fun q => (nth q (content (bsel idx arr)) 0 + pgrad las m (neurons l) (fval m (pval m B b) l) q)%R) (seq 0 (m * neurons l))).
      { rewrite (content_shaped m (neurons l) (bsel idx arr) Hsh), (content_shaped m (neurons l) d Shd). apply nth_ext0.
        - rewrite map_length, seq_length. apply firstn_length_le. unfold d. cbn [b_d]. lia.
        - rewrite firstn_length_le by (unfold d; cbn [b_d]; lia). intros q Hq. rewrite nth_map_seq by exact Hq. rewrite !nth_firstn by exact Hq.
          unfold d. cbn [b_d]. rewrite ED by exact Hq. rewrite pen_fold_sum by (intros a Ha He; apply (P2 a Ha He)). rewrite EL. reflexivity. }
      rewrite Ed in E1, E5.
      assert (Hcl : forall l1 las1, In (l1, las1) b -> inited M l1 /\ max_dLdA M l1 <= c) by (intros l1 las1 H1; apply (HI l1 las1); right; exact H1).
      destruct b as [|q b].
      * cbn [psbprop]. apply HP.
        -- cbn [map fst ppback]. rewrite E1. reflexivity.
        -- reflexivity.
        -- destruct idx; assumption.
        -- destruct idx; assumption.
      * destruct (E5 eq_refl) as [F1 F2].
        apply IH; [exact V2|exact P1|exact R1|exact Hcl|exact Hbot|destruct idx; assumption|destruct idx; assumption| |].
        -- intros _. rewrite bsel_xor. rewrite <- V3. exact F1.
        -- intros s' arr' G1 G2 G3 G4. apply HP; [|cbn [map snd]; rewrite G2; reflexivity|exact G3|exact G4].
           rewrite bsel_xor, F2 in G1. cbn [map fst]. rewrite G1.
           cbn [ppback]. cbv zeta. cbn [fst map]. rewrite E1. reflexivity.
Qed.
End K.

(** ** The layers as they are shown *)
Fixpoint pshown (m : nat) (B : list R) (s : pstack) (ls : list layer) : Prop :=
  match s, ls with
  | [], [] => True
  | (l, _) :: b, l' :: ls => pshown m B b ls /\ acts l' = fval m (pval m B b) l /\ neurons l' = neurons l
  | _, _ => False
  end.
Lemma shown_ok i m B s : pwf i s -> length B = m * i ->
  match plain s with
  | None => s = []
  | Some p => exists p', sfprop m (biased m B) p = Some p' /\ pshown m B s (layers_of p') /\ sacts p' = pval m B s
  end.
Proof.
  intros Hw HB. induction s as [|[l las] b IH]; [reflexivity|]. destruct Hw as (W1 & W2 & W3). specialize (IH W2).
  pose proof (pval_length i m B b W2 HB) as LP. cbn [plain].
  destruct (proj1 fprop_ok l m (pval m B b) W1) as (l' & E & S & Rl); [rewrite LP, W3; reflexivity|].
  assert (EA : acts l' = fval m (pval m B b) l) by (rewrite (proj1 acts_ready _ _ _ Rl); apply (proj1 fval_same), S).
  destruct (plain b) as [p|].
  - destruct IH as (p' & E1 & E2 & E3). exists (SCons l' p'). cbn [sfprop]. rewrite E1. cbn [obind]. rewrite E3, E. cbn [obind].
    split; [reflexivity|]. split; [|exact EA]. cbn [layers_of pshown]. split; [exact E2|]. split; [exact EA|apply (proj1 same_neurons), S].
  - subst b. cbn [pval] in *. exists (SOne l'). cbn [sfprop]. rewrite E. cbn [obind]. split; [reflexivity|]. split; [|exact EA].
    cbn [layers_of pshown pval]. split; [exact I|]. split; [exact EA|apply (proj1 same_neurons), S].
Qed.

Lemma penalties_eq i m B x : pwf i (p_hid x) -> length B = m * i -> penalties m (biased m B) x = ppen m B (p_hid x).
Proof.
  intros Hw HB. unfold penalties, shown_layers. pose proof (shown_ok i m B (p_hid x) Hw HB) as H.
  destruct (plain (p_hid x)) as [p|]; [|rewrite H; reflexivity].
  destruct H as (p' & -> & H & _). clear Hw. revert H. generalize (layers_of p') as ls. generalize (p_hid x) as s. clear.
  induction s as [|[l las] b IH]; intros [|l' ls] H; try contradiction; [reflexivity|].
  destruct H as (H1 & H2 & H3). cbn [combine map ppen]. unfold sumR in *. cbn [fold_right fst snd]. rewrite (IH ls H1), H2, H3. reflexivity.
Qed.
Lemma pok_of i t m B x : pwf i (p_hid x) -> length B = m * i -> well_penalised t m (biased m B) x -> pok t m B (p_hid x).
Proof.
  intros Hw HB HP. unfold well_penalised, shown_layers in HP. pose proof (shown_ok i m B (p_hid x) Hw HB) as H.
  destruct (plain (p_hid x)) as [p|]; [|rewrite H; exact I].
  destruct H as (p' & E & H & _). rewrite E in HP. clear Hw E. revert H HP. generalize (layers_of p') as ls. generalize (p_hid x) as s. clear.
  induction s as [|[l las] b IH]; intros [|l' ls] H HP; try contradiction; [exact I|].
  destruct H as (H1 & H2 & H3). cbn [pok]. split.
  - apply (IH ls H1). intros las1 l1 a1 Hin. apply HP. right. exact Hin.
  - intros a Ha He. destruct (HP las l' a (or_introl eq_refl) Ha) as (U & N & F & Rg); [apply enabled_scale; exact He|].
    rewrite H2, H3 in *. split; [exact U|]. split; [exact N|]. split; [exact F|exact Rg].
Qed.

Lemma pwf_plain i s : (forall p, plain s = Some p -> swf p /\ sincoming p = i) -> pwf i s /\ (forall p, plain s = Some p -> sneurons p = pneur i s).
Proof.
  induction s as [|[l las] b IH]; intros H; [split; [exact I|discriminate]|].
  cbn [plain] in H. specialize (H _ eq_refl). destruct (plain b) as [p|] eqn:Ep.
  - destruct H as [(W1 & W2 & W3) HI]. cbn [sincoming] in HI. destruct IH as [I1 I2]; [intros q Hq; injection Hq as <-; auto|].
    cbn [pwf pneur plain]. rewrite Ep. split; [|intros q Hq; injection Hq as <-; reflexivity].
    split; [exact W1|]. split; [exact I1|]. rewrite W3. apply I2. reflexivity.
  - assert (b = []) as -> by (destruct b as [|[l0 ?] b]; [reflexivity|discriminate Ep]).
    cbn [pwf pneur plain]. destruct H as [H1 H2]. split; [split; [exact H1|]; split; [exact I|exact H2]|]. intros q Hq. injection Hq as <-. reflexivity.
Qed.
Lemma plain_nil s : plain s = None -> s = [].
Proof. destruct s as [|[l las] b]; [reflexivity|discriminate]. Qed.
