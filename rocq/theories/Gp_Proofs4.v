(** Backward propagation through a gated pack. *)
From Coq Require Import Reals Lra Bool.
From Coquelicot Require Import Coquelicot.
From Verif Require Import Base BaseLemmas Act_Model Act_Spec Act_Proofs Loss_Proofs Net_Model Net_Spec Net_Proofs Net_Proofs2 Net_Proofs3 Net_Proofs4 Gp_Model Gp_Spec Gp_Proofs Gp_Proofs2 Gp_Proofs3.
Local Open Scope nat_scope.

(** the bias column is there, whatever has happened to it *)
Lemma opt_view base n c maxN w V : slice base (n * c) V = w -> length w = n * c -> base + n * (c + 1) <= length V ->
  (n * (c + 1) <= maxN -> slice (base + n * c) n V = repeat 1%R n) ->
  exists V1, opt_ctor base n c maxN V = Some (biased n w, V1) /\ opt_dtor base n c maxN (slice (base + n * c) n V) V1 = V.
Proof.
  intros Hw Lw HV H1. unfold opt_ctor, opt_dtor. rewrite guard_le by exact HV. cbn [obind].
  assert (G : forall V1, length V1 = length V -> slice base (n * c) V1 = w -> slice (base + n * c) n V1 = repeat 1%R n -> slice base (n * (c + 1)) V1 = biased n w).
  { intros V1 L1 Ew E1. unfold biased. rewrite <- Ew, <- E1. apply nth_ext0; [rewrite app_length, !slice_length by nia; nia|].
    intros q Hq. rewrite slice_length in Hq by nia. rewrite nth_slice by exact Hq.
    destruct (Nat.lt_ge_cases q (n * c)) as [H|H].
    - rewrite app_nth1 by (rewrite slice_length by nia; exact H). rewrite nth_slice by exact H. reflexivity.
    - rewrite app_nth2 by (rewrite slice_length by nia; exact H). rewrite slice_length by nia. rewrite nth_slice by nia. f_equal. lia. }
  destruct (Nat.leb_spec (n * (c + 1)) maxN) as [Hle|Hle].
  - exists V. split; [|reflexivity]. rewrite G by (auto). reflexivity.
  - assert (LR : length (repeat 1%R n) = n) by apply repeat_length.
    assert (LO : length (overwrite (base + n * c) (repeat 1%R n) V) = length V) by (apply overwrite_length; rewrite LR; nia).
    exists (overwrite (base + n * c) (repeat 1%R n) V). split.
    + rewrite G; [reflexivity|exact LO| |].
      * rewrite <- Hw. apply slice_ext; [nia|nia|]. intros q Hq. apply nth_overwrite_out; rewrite ?LR; nia.
      * apply slice_overwrite'; [exact LR|nia].
    + pose proof (overwrite_back (base + n * c) (repeat 1%R n) V) as O. rewrite LR in O. apply O. nia.
Qed.

Section Back.
Context (gw : gworks) (m M inc : nat) (Gt B D : list R).

(** dL/dA of one layer at its open samples, what it hands down *)
Definition given (i f0 n : nat) : list R := extract m n (open_rows (gcol m Gt i)) (slice (m * f0) (m * n) D).
Definition down (i f0 o c : nat) (l : layer) : layer * list R := pback gw (nopen m Gt i) (biased (nopen m Gt i) (seen m Gt B i o c)) (given i f0 (neurons l)) l.

Fixpoint backs (i f0 : nat) (ls : list glay) (w : list R) : list R :=
  match ls with
  | [] => w
  | (o, c, l) :: ls => overwrite (m * o) (fill m c (gcol m Gt i) (snd (down i f0 o c l))) (backs (i + 1) (f0 + neurons l) ls w)
  end.
Fixpoint backed (i f0 : nat) (ls ls' : list glay) : Prop :=
  match ls, ls' with
  | (o, c, l) :: ls, (o', c', l') :: ls' => o' = o /\ c' = c /\
      (if 0 <? nopen m Gt i then bare l' = bare (fst (down i f0 o c l)) /\ sim l l' else l' = l) /\ backed (i + 1) (f0 + neurons l) ls ls'
  | [], [] => True
  | _, _ => False
  end.
Lemma backs_length ls : Forall (lok inc) ls -> forall i f0 w, m * inc <= length w -> length (backs i f0 ls w) = length w.
Proof.
  induction ls as [|[[o c] l] ls IH]; intros H i f0 w Hw; [reflexivity|]. inversion H as [|? ? (W1 & W2 & W3) H']; subst. cbn [fst snd] in *.
  cbn [backs]. rewrite overwrite_length; [apply IH; assumption|]. rewrite fill_length, IH by assumption. nia.
Qed.

Lemma gl_bprop_ok (hp : bool) k cap A : (forall id, gw_ok (gw id)) -> length Gt = m * k -> length B = m * inc -> m <= M ->
  (forall q, q < m * k -> nth q A 0%R = nth q Gt 0%R) -> m * k <= length A ->
  forall ls ns i f0 base V e b1 b2, Forall (lok inc) ls -> Forall (fun q => inited M (snd q)) ls ->
    Forall (fun q => max_dLdA M (snd q) <= cap /\ M * incoming (snd q) <= cap) ls ->
    i + length ls = k -> held m M Gt B i base ls ns V -> base + M * (lcount ls + 1) <= length V ->
    m * (f0 + lneurons ls) <= length D -> length (b_d b1) = cap -> length (b_d b2) = cap -> (hp = true -> m * inc <= length (b_d e)) ->
  exists ls' e' b1' b2', gl_bprop gw m M inc hp D A i base ls ns (f0 + lneurons ls, V, e, b1, b2) = Some (ls', (f0, V, e', b1', b2')) /\
    backed i f0 ls ls' /\ length (b_d b1') = cap /\ length (b_d b2') = cap /\ b_r e' = b_r e /\ b_c e' = b_c e /\
    b_d e' = if hp then backs i f0 ls (b_d e) else b_d e.
Proof.
  intros Hgw HG HB HM HA LA. destruct bprop_ok as (BP & _). destruct size_key as (SK & _).
  induction ls as [|[[o c] l] ls IH]; intros ns i f0 base V e b1 b2 Hok Hin Hcap Hi Hh HV HD Hb1 Hb2 He.
  - destruct ns as [|n ns]; [|destruct Hh]. exists [], e, b1, b2. cbn [gl_bprop lneurons fold_right backed backs]. rewrite Nat.add_0_r. repeat split; try assumption. destruct hp; reflexivity.
  - destruct ns as [|n ns]; [destruct Hh|]. cbn [held] in Hh. destruct Hh as (En & Hheld & Hh).
    destruct (Forall_inv Hok) as (W1 & W2 & W3). pose proof (Forall_inv_tail Hok) as Hok'. pose proof (Forall_inv Hin) as Hin1. pose proof (Forall_inv_tail Hin) as Hin'.
    destruct (Forall_inv Hcap) as [C1 C2]. pose proof (Forall_inv_tail Hcap) as Hcap'. subst n.
    cbn [fst snd] in *. cbn [lneurons lcount fold_right fst snd length] in *. fold (lneurons ls) in *. fold (lcount ls) in *.
    set (n := nopen m Gt i) in *.
    assert (Hn : n <= m) by (apply (nopen_le m Gt i _ HG); lia).
    destruct (IH ns (i + 1) (f0 + neurons l) (base + M * c) V e b1 b2) as (ls' & e' & b1' & b2' & IE & I1 & I2 & I3 & I4 & I5 & I6);
      try assumption; try lia; try nia.
    cbn [gl_bprop]. replace (f0 + (neurons l + lneurons ls)) with (f0 + neurons l + lneurons ls) by lia. rewrite IE. cbn [obind].
    assert (Eg : slice (m * i) m A = gcol m Gt i) by (apply slice_ext; [nia|nia|intros q Hq; apply HA; nia]). rewrite Eg.
    rewrite guard_le by lia. cbn [obind]. replace (f0 + neurons l - neurons l) with f0 by lia.
    assert (Le' : hp = true -> m * inc <= length (b_d e')).
    { intros E. rewrite I6, E, backs_length; auto. }
    destruct (Nat.ltb_spec 0 n) as [Hp|Hp].
    + fold (nopen m Gt i). fold n. rewrite guard_eq by reflexivity. cbn [obind].
      assert (S1 := SK l W1 n M ltac:(lia)).
      assert (Cn : n * neurons l <= length (b_d b1')) by (rewrite I2; nia).
      rewrite deform_ok by exact Cn. cbn [obind]. fold (given i f0 (neurons l)).
      assert (Lgv : length (given i f0 (neurons l)) = n * neurons l) by apply extract_length.
      destruct (put_ok (mkB n (neurons l) (b_d b1')) (given i f0 (neurons l))) as (D1 & -> & P2 & P3); [exact Lgv|rewrite Lgv; exact Cn|]. cbn [obind b_r b_c b_d] in *.
      assert (Hb2' : exists b2'', (if hp then deform n c b2' else deform 0 0 b2') = Some b2'' /\ length (b_d b2'') = cap /\ (hp = true -> shaped n c b2'' = true)).
      { destruct hp; (rewrite deform_ok; [|rewrite I3; nia]); eexists; (split; [reflexivity|]); (split; [exact I3|]); intros E; [|discriminate].
        apply shaped_iff. split; reflexivity. }
      destruct Hb2' as (b2'' & -> & L2 & Sh2). cbn [obind].
      destruct (Hheld Hp) as (H1 & H2 & H3).
      destruct (opt_view base n c (M * c) (seen m Gt B i o c) V H1) as (V1 & -> & EV); [apply seen_length|nia|exact H2|]. cbn [obind fst snd].
      destruct (BP l n M (seen m Gt B i o c) gw hp (mkB n (neurons l) D1) b2'' cap) as (l' & d' & e2 & sw & -> & R1 & R2 & R3 & R4 & R5); try assumption.
      * rewrite seen_length, W2. reflexivity.
      * lia.
      * cbn [b_d]. congruence.
      * apply shaped_iff. split; reflexivity.
      * rewrite W2. exact Sh2.
      * split; [exact C1|]. split; [lia|]. split; [intros _; nia|left; nia].
      * cbn [obind]. rewrite EV.
        assert (Ec : content (mkB n (neurons l) D1) = given i f0 (neurons l)) by (unfold content; cbn [b_r b_c b_d]; exact P3).
        rewrite Ec in R1, R5.
        assert (Ed : pback gw n (biased n (seen m Gt B i o c)) (given i f0 (neurons l)) l = down i f0 o c l) by reflexivity. rewrite Ed in R1, R5.
        destruct hp.
        -- destruct (R5 eq_refl) as [R6 R7]. rewrite W2 in R6. rewrite R6. cbn [guard obind]. rewrite R7.
           rewrite store_ok by (rewrite fill_length; specialize (Le' eq_refl); nia). cbn [obind].
           eexists _, _, _, _. split; [reflexivity|]. cbn [b_r b_c b_d backed backs]. fold n. rewrite (proj2 (Nat.ltb_lt _ _) Hp).
           repeat split; try assumption. rewrite I6. reflexivity.
        -- eexists _, _, _, _. split; [reflexivity|]. cbn [b_r b_c b_d backed backs]. fold n. rewrite (proj2 (Nat.ltb_lt _ _) Hp).
           repeat split; try assumption.
    + assert (En0 : nopen m Gt i = 0) by (fold n; lia).
      destruct hp.
      * rewrite store_ok by (rewrite repeat_length; specialize (Le' eq_refl); nia). cbn [obind].
        eexists _, _, _, _. split; [reflexivity|]. cbn [b_r b_c b_d backed backs]. fold n. rewrite (proj2 (Nat.ltb_ge _ _) Hp).
        repeat split; try assumption. rewrite I6. rewrite (fill_closed m Gt c i _ _ HG) by (try exact En0; lia). reflexivity.
      * cbn [obind]. eexists _, _, _, _. split; [reflexivity|]. cbn [b_r b_c b_d backed backs]. fold n. rewrite (proj2 (Nat.ltb_ge _ _) Hp).
        repeat split; try assumption.
Qed.
End Back.

Lemma cap_each M ls n : fold_right (fun q n => Nat.max (max_dLdA M (snd q)) n) 0 ls <= n -> M * fold_right (fun q n => Nat.max (incoming (snd q)) n) 0 ls <= n ->
  Forall (fun q : glay => max_dLdA M (snd q) <= n /\ M * incoming (snd q) <= n) ls.
Proof.
  induction ls as [|q ls IH]; intros H1 H2; [constructor|]. cbn [fold_right] in *. constructor; [split; [lia|nia]|]. apply IH; [lia|nia].
Qed.

(** the pack after both passes *)
Lemma g_bprop_ok gw (hp : bool) m M B x x' d e : (forall id, gw_ok (gw id)) -> g_wf x -> g_inited M x -> length B = m * g_inc x -> m <= M ->
  g_wf x' -> g_inited M x' -> length (g_A x') = m * g_neurons x' -> g_inc x' = g_inc x -> length (g_lay x') = length (g_lay x) ->
  (forall q, q < m * length (g_lay x) -> nth q (g_A x') 0%R = nth q (gates m B x) 0%R) ->
  held m M (gates m B x) B 0 0 (g_lay x') (g_rows x') (g_prev x') ->
  shaped m (g_neurons x') d = true -> m * g_neurons x' <= length (b_d d) -> (hp = true -> shaped m (g_inc x) e = true /\ m * g_inc x <= length (b_d e)) ->
  exists x2 e2, g_bprop gw m hp d e x' = Some (x2, d, e2, true) /\ b_r e2 = b_r e /\ b_c e2 = b_c e /\ g_A x2 = g_A x' /\ g_prev x2 = g_prev x' /\
    backed gw m (gates m B x) B (b_d d) 0 (gneurons (length (g_lay x)) (g_add x')) (g_lay x') (g_lay x2) /\
    b_d e2 = (if hp then overwrite (m * g_gofs x') (repeat 0%R (m * length (g_lay x))) (backs gw m (gates m B x) B (b_d d) 0 (gneurons (length (g_lay x)) (g_add x')) (g_lay x') (b_d e)) else b_d e) /\
    g_inited M x2 /\ g_wf x2.
Proof.
  intros Hgw W I HB HM W' I' LA Ei Ek HG Hh Sd Ld He. unfold g_bprop. rewrite Sd, LA, Nat.eqb_refl. cbn [andb guard obind].
  destruct W' as (W1 & W2 & W3 & W4). destruct I' as (I1 & I2 & I3 & I4 & I5 & I6).
  set (k := length (g_lay x)) in *.
  assert (Hg : guard (negb hp || shaped m (g_inc x') e) = Some tt).
  { destruct hp; [|reflexivity]. rewrite Ei, (proj1 (He eq_refl)). reflexivity. }
  rewrite Hg. cbn [obind]. rewrite I2. unfold g_neurons. rewrite Ek in *.
  assert (Hgk : m * k <= m * g_neurons x') by (unfold g_neurons, gneurons; rewrite Ek; destruct (g_add x'); nia).
  destruct (gl_bprop_ok gw m M (g_inc x') (gates m B x) B (b_d d) hp k (g_cap M x') (g_A x') Hgw (gates_length m B x)) with
    (ls := g_lay x') (ns := g_rows x') (i := 0) (f0 := gneurons k (g_add x')) (base := 0) (V := g_prev x') (e := e) (b1 := mkB 0 0 (g_b1 x')) (b2 := mkB 0 0 (g_b2 x'))
    as (ls' & e' & b1' & b2' & -> & R1 & R2 & R3 & R4 & R5 & R6); try assumption.
  - rewrite Ei. exact HB.
  - lia.
  - apply cap_each; unfold g_cap; nia.
  - cbn [Nat.add]. rewrite I3. lia.
  - unfold g_neurons in Ld. rewrite Ek in Ld. exact Ld.
  - intros E. rewrite Ei. exact (proj2 (He E)).
  - cbn [obind]. rewrite Ei in *.
    assert (Le' : hp = true -> m * g_inc x <= length (b_d e')).
    { intros E. rewrite R6, E, (backs_length gw m (g_inc x)); [exact (proj2 (He E))|exact W1|exact (proj2 (He E))]. }
    assert (Hfin : forall x2, g_lay x2 = ls' -> g_inc x2 = g_inc x' -> g_max x2 = M -> g_prev x2 = g_prev x' -> g_b1 x2 = b_d b1' -> g_b2 x2 = b_d b2' -> g_gofs x2 = g_gofs x' -> g_inited M x2 /\ g_wf x2).
    { intros x2 E1 E2 E3 E4 E5 E6 E7. clear - R1 I1 I3 I6 R2 R3 E1 E2 E3 E4 E5 E6 E7 Ei Ek W1 W2 W3 W4.
      assert (G : forall ls ls' i f0, backed gw m (gates m B x) B (b_d d) i f0 ls ls' ->
        length ls' = length ls /\ lcount ls' = lcount ls /\
        fold_right (fun q n => Nat.max (max_dLdA M (snd q)) n) 0 ls' = fold_right (fun q n => Nat.max (max_dLdA M (snd q)) n) 0 ls /\
        fold_right (fun q n => Nat.max (incoming (snd q)) n) 0 ls' = fold_right (fun q n => Nat.max (incoming (snd q)) n) 0 ls /\
        (Forall (fun q => inited M (snd q)) ls -> Forall (fun q => inited M (snd q)) ls') /\
        (Forall (lok (g_inc x)) ls -> Forall (lok (g_inc x)) ls') /\ (forall q, In q ls -> exists q', In q' ls' /\ fst q' = fst q)).
      { clear. induction ls as [|[[o c] l] ls IH]; intros [|[[o' c'] l'] ls'] i f0; cbn [backed]; try contradiction; [intros _; repeat split; auto; intros q []|].
        intros (-> & -> & H & Hb). destruct (IH _ _ _ Hb) as (J1 & J2 & J3 & J4 & J5 & J6 & J7).
        assert (S : sim l l').
        { destruct (0 <? nopen m (gates m B x) i); [exact (proj2 H)|]. subst l'. apply (proj1 same_sim), (proj1 same_refl). }
        cbn [length lcount fold_right fst snd]. fold (lcount ls') (lcount ls). rewrite J1, J2, J3, J4.
        rewrite (proj1 sim_max _ _ S), (proj1 sim_incoming _ _ S). do 4 (split; [reflexivity|]). split; [|split].
        - intros HF. inversion HF; subst. constructor; [|apply J5; assumption]. cbn [snd] in *. apply (proj1 sim_inited _ _ S). assumption.
        - intros HF. inversion HF as [|? ? (V1 & V2 & V3) V4]; subst. constructor; [|apply J6; assumption]. cbn [fst snd] in *.
          split; [apply (proj1 sim_wf _ _ S); exact V1|]. cbn [fst snd]. rewrite (proj1 sim_incoming _ _ S). split; assumption.
        - intros q [<-|Hq]; [exists (o, c, l'); split; [left; reflexivity|reflexivity]|]. destruct (J7 q Hq) as (q' & Q1 & Q2). exists q'. split; [right; exact Q1|exact Q2]. }
      destruct (G _ _ _ _ R1) as (J1 & J2 & J3 & J4 & J5 & J6 & J7). split.
      - unfold g_inited, no_overlap, g_cap in *. rewrite E1, E2, E3, E4, E5, E6, J1, J2, J3, J4. repeat split; auto.
      - unfold g_wf. rewrite E1, E2, E7, J1, Ek, Ei. split; [apply J6; exact W1|]. split; [exact W2|]. split.
        + intros El. apply W3. rewrite El in J1. destruct (g_lay x'); [reflexivity|discriminate].
        + intros col Hc. destruct (W4 col Hc) as [H|(q & Q1 & Q2)]; [left; exact H|right]. destruct (J7 q Q1) as (q' & P1 & P2).
          exists q'. split; [exact P1|]. rewrite P2. exact Q2. }
    assert (Lz : length (repeat 0%R (m * k)) = m * k) by apply repeat_length.
    destruct hp.
    + rewrite store_ok by (rewrite Lz; specialize (Le' eq_refl); nia). cbn [obind].
      eexists _, _. split; [reflexivity|]. cbn [b_r b_c b_d g_A g_prev g_lay]. rewrite R6. do 6 (split; [first [reflexivity|assumption]|]).
      apply Hfin; cbn; first [reflexivity|assumption|symmetry; assumption].
    + cbn [obind]. eexists _, _. split; [reflexivity|]. cbn [b_r b_c b_d g_A g_prev g_lay]. do 6 (split; [first [reflexivity|assumption]|]).
      apply Hfin; cbn; first [reflexivity|assumption|symmetry; assumption].
Qed.
