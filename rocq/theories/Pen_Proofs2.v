(** Gradients of networks with penalised activations. *)
From Coq Require Import Reals Lra Bool.
From Coquelicot Require Import Coquelicot.
From Verif Require Import Base BaseLemmas Workers_Model Kern_Model Act_Model Act_Spec Act_Proofs Loss_Proofs Net_Model Net_Spec Net_Proofs Net_Proofs2 Net_Proofs3 Net_Proofs4 Net_Proofs5
  La_Model La_Spec La_Proofs3 La_Proofs4 Pen_Model Pen_Spec Pen_Proofs.
Local Open Scope nat_scope.

Definition pwith (f : nat -> list R -> list R) (s : pstack) : pstack := map (fun q => (with_w f (fst q), snd q)) s.
Definition lsum (dW : nat -> nat -> R) (ls : list layer) : R := fold_right (fun l r => (gsum dW l + r)%R) 0%R ls.

Lemma pwith_neur f i s : pneur i (pwith f s) = pneur i s.
Proof. destruct s as [|[l las] b]; [reflexivity|]. apply (proj1 (with_w_neurons f)). Qed.

Section Path.
Context (f : R -> nat -> list R -> list R) (dW : nat -> nat -> R) (x : R).

Lemma padjoint gw t i m B dB : 0 < m -> dpath x (m * i) B dB -> forall s, pwf i s -> Forall (fun q => path f dW x (fst q)) s ->
  pready m (B x) s -> psmooth m (B x) s -> pstored t m (B x) s ->
  exists dA dp, dpath x (m * pneur i s) (fun v => pval m (B v) (pwith (f v) s)) dA /\
    pval m (B x) (pwith (f x) s) = pval m (B x) s /\
    is_derive (fun v => ppen m (B v) (pwith (f v) s)) x dp /\
    forall v, length v = m * pneur i s -> let r := ppback gw m (B x) v s in
      (bs (m * pneur i s) (fun q => nth q v 0 * dA q) + dp = INR m * lsum dW (fst r) + bs (m * i) (fun q => nth q (snd r) 0 * dB q))%R.
Proof.
  intros Hm HD s. induction s as [|[l las] b IH]; intros Hw HP HR HS HT.
  - exists dB, 0%R. split; [exact HD|]. split; [reflexivity|]. split; [apply (d_ext (fun _ => 0%R)); [reflexivity|apply d_const]|].
    intros v Hv. cbn. ring.
  - destruct Hw as (W1 & W2 & W3). apply Forall_cons_iff in HP. destruct HP as [HP1 HP2]. cbn [fst] in HP1.
    destruct HR as [R1 R2]. destruct HS as [S1 S2]. destruct HT as [T1 T2].
    destruct (IH W2 HP2 R1 S1 T1) as (dAb & dpb & D1 & D2 & D3 & D4). clear IH.
    destruct (proj1 (adjoint f dW x gw) l m (fun v => pval m (B v) (pwith (f v) b)) dAb W1 HP1 Hm) as (dA & A1 & A2 & A3).
    { rewrite W3. exact D1. } { rewrite D2. exact R2. } { rewrite D2. exact S2. }
    rewrite D2 in A2, A3. pose proof (path_pen x m (neurons l) _ dA A1 las Hm) as PP.
    exists dA, (bs (m * neurons l) (fun q => pgrad las m (neurons l) (fval m (pval m (B x) b) l) q * dA q) + dpb)%R.
    cbn [pneur pwith map pval]. fold (pwith (f x) b). split; [exact A1|]. cbn [fst snd]. split; [rewrite D2; exact A2|]. split.
    + apply (d_ext (fun v => (pen_value las m (neurons l) (fval m (pval m (B v) (pwith (f v) b)) (with_w (f v) l)) + ppen m (B v) (pwith (f v) b))%R)).
      { intros v. cbn [ppen]. rewrite (proj1 (with_w_neurons (f v))). reflexivity. }
      apply d_plus; [|exact D3].
      eapply d_eq; [apply PP|].
      * intros a Ha He. rewrite D2, A2. destruct (T2 a Ha He) as (_ & _ & K & Rg). split; [exact K|exact Rg].
      * apply bs_ext. intros q Hq. rewrite D2, A2. reflexivity.
    + intros v Hv. cbn [ppback]. cbv zeta. cbn [fst snd lsum fold_right]. fold (lsum dW).
      set (v' := map _ (seq 0 (m * neurons l))).
      assert (Lv : length v' = m * neurons l) by (unfold v'; rewrite map_length, seq_length; reflexivity).
      specialize (A3 v' Lv). cbv zeta in A3.
      set (w := snd (pback gw m (biased m (pval m (B x) b)) v' l)) in *.
      assert (Lw : length w = m * pneur i b) by (unfold w; rewrite <- W3; apply (proj1 (pback_length gw)); assumption).
      specialize (D4 w Lw). cbv zeta in D4.
      assert (EV : bs (m * neurons l) (fun q => nth q v' 0 * dA q)%R =
        (bs (m * neurons l) (fun q => nth q v 0 * dA q) + bs (m * neurons l) (fun q => pgrad las m (neurons l) (fval m (pval m (B x) b) l) q * dA q))%R).
      { rewrite <- bs_plus. apply bs_ext. intros q Hq. unfold v'. rewrite nth_map_seq by exact Hq. ring. }
      rewrite EV, W3 in A3.
      change (lsum dW (fst (ppback gw m (B x) w b))) with (fold_right (fun l r => (gsum dW l + r)%R) 0%R (fst (ppback gw m (B x) w b))) in *.
      unfold lsum in D4. lra.
Qed.
End Path.

(** ** Layers in a row as a stack *)
Lemma plain_same m B s : forall s', psame m B s s' ->
  match plain s, plain s' with None, None => True | Some p, Some p' => ssame p p' | _, _ => False end.
Proof.
  induction s as [|[l las] b IH]; intros [|[l' las'] b'] H; try contradiction; [exact I|]. destruct H as (H1 & H2 & _). specialize (IH _ H1).
  cbn [plain]. destruct (plain b), (plain b'); try contradiction; [split; assumption|exact H2].
Qed.
Lemma plain_with f s : plain (pwith f s) = option_map (swith_w f) (plain s).
Proof. induction s as [|[l las] b IH]; [reflexivity|]. cbn [pwith map plain fst snd]. fold (pwith f b). rewrite IH. destruct (plain b); reflexivity. Qed.
Definition rowfcs (s : pstack) : list (nat * nat * list R) := flat_map (fun q => fcs 1 (fst q)) s.
Lemma plain_fcs s : match plain s with None => [] | Some p => sfcs 1 p end = rowfcs s.
Proof.
  induction s as [|[l las] b IH]; [reflexivity|]. cbn [plain rowfcs flat_map fst]. fold (rowfcs b). rewrite <- IH.
  destruct (plain b); [reflexivity|]. rewrite app_nil_r. reflexivity.
Qed.
Lemma plain_grads s : match plain s with None => [] | Some p => sgrads 1 p end = flat_map (grads 1) (map fst s).
Proof.
  induction s as [|[l las] b IH]; [reflexivity|]. cbn [plain flat_map map fst]. rewrite <- IH.
  destruct (plain b); [reflexivity|]. rewrite app_nil_r. reflexivity.
Qed.
Lemma row_bare ls : flat_map (grads 1) (map bare ls) = flat_map (grads 1) ls.
Proof. induction ls as [|l ls IH]; [reflexivity|]. cbn [map flat_map]. rewrite IH, (proj1 grads_bare). reflexivity. Qed.
Lemma ppback_fcs gw i m B s : forall v, pwf i s -> map tagged (flat_map (grads 1) (fst (ppback gw m B v s))) = map tagged (rowfcs s).
Proof.
  induction s as [|[l las] b IH]; intros v Hw; [reflexivity|]. destruct Hw as (W1 & W2 & W3).
  cbn [ppback]. cbv zeta. cbn [fst flat_map rowfcs]. fold (rowfcs b). rewrite !map_app, IH by exact W2. rewrite (proj1 (grads_fcs gw)) by exact W1. reflexivity.
Qed.
Lemma lsum_grads dW ls : lsum dW ls = sumR (map (gterm dW) (flat_map (grads 1) ls)).
Proof.
  induction ls as [|l ls IH]; [reflexivity|]. cbn [flat_map lsum fold_right]. fold (lsum dW ls). rewrite map_app, sumR_app, <- IH.
  rewrite (proj1 (gsum_grads dW)). simpl INR. ring.
Qed.
Lemma lsum_bare dW ls : lsum dW (map bare ls) = lsum dW ls.
Proof. induction ls as [|l ls IH]; [reflexivity|]. cbn [map lsum fold_right]. fold (lsum dW ls). unfold lsum in IH at 1. rewrite IH, (proj1 (gsum_bare dW)). reflexivity. Qed.
Lemma psmooth_of i m B s : pwf i s -> length B = m * i -> (forall p, plain s = Some p -> ssmooth_at m (biased m B) p) -> psmooth m B s.
Proof.
  intros Hw HB. induction s as [|[l las] b IH]; intros H; [exact I|]. destruct Hw as (W1 & W2 & W3). specialize (IH W2).
  cbn [plain] in H. specialize (H _ eq_refl). pose proof (shown_ok i m B b W2 HB) as HS. destruct (plain b) as [p|].
  - destruct H as [H1 (b' & E & H2)]. destruct HS as (p' & E' & _ & EA). rewrite E' in E. injection E as <-.
    split; [apply IH; intros q Hq; injection Hq as <-; exact H1|]. rewrite <- EA. exact H2.
  - subst b. split; [exact I|]. exact H.
Qed.
Lemma pset_smooth m B s s' : psame m B s s' -> psmooth m B s -> psmooth m B s'.
Proof.
  revert s'. induction s as [|[l las] b IH]; intros [|[l' las'] b'] H HS; try contradiction; [exact I|].
  destruct H as (H1 & H2 & _). destruct HS as [S1 S2]. split; [apply IH; assumption|].
  rewrite (psame_val m B b b' H1). apply (proj1 smooth_same _ _ H2). exact S2.
Qed.
Lemma rowfcs_same m B s : forall s', psame m B s s' -> rowfcs s' = rowfcs s.
Proof.
  induction s as [|[l las] b IH]; intros [|[l' las'] b'] H; try contradiction; [reflexivity|].
  destruct H as (H1 & H2 & _). cbn [rowfcs flat_map fst]. fold (rowfcs b) (rowfcs b'). rewrite (IH _ H1), (proj1 fcs_same _ _ H2). reflexivity.
Qed.
Lemma pinited M s p : plain s = Some p -> sinited M p -> forall l las, In (l, las) s -> inited M l /\ max_dLdA M l <= smax_dLdA M p.
Proof.
  revert p. induction s as [|[l0 las0] b IH]; intros p Hp HI l las Hin; [contradiction|]. cbn [plain] in Hp. injection Hp as <-.
  destruct (plain b) as [q|] eqn:Eq.
  - destruct HI as [H1 H2]. cbn [smax_dLdA]. destruct Hin as [E|Hin]; [injection E as -> ->; split; [exact H1|lia]|].
    destruct (IH q eq_refl H2 l las Hin). split; [assumption|lia].
  - rewrite (plain_nil b Eq) in Hin. destruct Hin as [E|[]]. injection E as -> ->. split; [exact HI|cbn [smax_dLdA]; lia].
Qed.
Lemma pbot_plain s p : plain s = Some p -> pbot s = sbottom_id p.
Proof.
  revert p. induction s as [|[l las] b IH]; intros p Hp; [discriminate Hp|]. cbn [plain] in Hp. injection Hp as <-. cbn [pbot].
  destruct (plain b) as [q|] eqn:Eq.
  - destruct b as [|z b]; [discriminate Eq|]. apply (IH q eq_refl).
  - rewrite (plain_nil b Eq). reflexivity.
Qed.
Lemma pval_plain m B s p : plain s = Some p -> sval m B p = pval m B s.
Proof.
  revert p. induction s as [|[l las] b IH]; intros p Hp; [discriminate Hp|]. cbn [plain] in Hp. injection Hp as <-. cbn [pval].
  destruct (plain b) as [q|] eqn:Eq; [cbn [sval]; rewrite (IH q eq_refl); reflexivity|]. rewrite (plain_nil b Eq). reflexivity.
Qed.
Lemma under_plain m B s : under m B (plain s) = pval m B s.
Proof. destruct (plain s) as [p|] eqn:E; [apply (pval_plain m B s p E)|]. rewrite (plain_nil s E). reflexivity. Qed.
Lemma pinited_same m B M c s : forall s', psame m B s s' -> (forall l las, In (l, las) s -> inited M l /\ max_dLdA M l <= c) ->
  forall l las, In (l, las) s' -> inited M l /\ max_dLdA M l <= c.
Proof.
  induction s as [|[l0 las0] b IH]; intros [|[l' las'] b'] H HI l las Hin; try contradiction.
  destruct H as (H1 & H2 & _). destruct Hin as [E|Hin].
  - injection E as <- <-. destruct (HI l0 las0 (or_introl eq_refl)). rewrite (proj1 same_max _ _ H2). split; [apply (proj1 same_inited _ _ H2); assumption|assumption].
  - apply (IH b' H1) with (las := las); [|exact Hin]. intros l1 las1 H3. apply (HI l1 las1). right. exact H3.
Qed.
Lemma pbot_same m B s : forall s', psame m B s s' -> pbot s' = pbot s.
Proof.
  induction s as [|[l0 las0] b IH]; intros [|[l' las'] b'] H; try contradiction; [reflexivity|].
  destruct H as (H1 & H2 & _). cbn [pbot]. destruct b as [|q b], b' as [|q' b']; try (destruct q; contradiction); try contradiction; [apply (proj1 same_bottom _ _ H2)|apply IH; exact H1].
Qed.

Lemma pval_with m B f s : forall s', psame m B s s' -> pval m B (pwith f s') = pval m B (pwith f s).
Proof.
  induction s as [|[l las] b IH]; intros [|[l' las'] b'] H; try contradiction; [reflexivity|].
  destruct H as (H1 & H2 & _). cbn [pwith map pval fst snd]. fold (pwith f b) (pwith f b'). rewrite (IH _ H1).
  apply (proj1 fval_same), (proj1 (with_w_same f)), H2.
Qed.
Lemma pen_value_kept rows cols V A las las' : Forall2 (kept rows cols V) las las' -> forall r c, pen_value las' r c A = pen_value las r c A.
Proof.
  intros H r c. unfold pen_value, sumR. induction H as [|a a' las las' [(E1 & E2 & _) _] HF IH]; [reflexivity|].
  cbn [map fold_right]. rewrite IH, E1, E2. reflexivity.
Qed.
Lemma ppen_with m B f s : forall s', psame m B s s' -> ppen m B (pwith f s') = ppen m B (pwith f s).
Proof.
  induction s as [|[l las] b IH]; intros [|[l' las'] b'] H; try contradiction; [reflexivity|].
  destruct H as (H1 & H2 & H3). cbn [pwith map ppen fst snd]. fold (pwith f b) (pwith f b'). rewrite (IH _ H1), (pval_with m B f b b' H1).
  rewrite !(proj1 (with_w_neurons f)), (proj1 same_neurons _ _ H2).
  rewrite (proj1 fval_same _ _ (proj1 (with_w_same f) _ _ H2)), (pen_value_kept _ _ _ _ _ _ H3). reflexivity.
Qed.
Lemma pwith_wf f dW x u i s : Forall (fun q => path f dW x (fst q)) s -> pwf i s -> pwf i (pwith (f u) s).
Proof.
  intros HP. induction HP as [|[l las] b HP1 HP2 IH]; intros Hw; [exact I|]. destruct Hw as (W1 & W2 & W3).
  cbn [pwith map pwf fst snd]. fold (pwith (f u) b). rewrite pwith_neur, (proj1 (with_w_incoming (f u))).
  split; [apply (proj1 (with_w_wf f dW x u)); assumption|]. split; [apply IH; exact W2|exact W3].
Qed.
Lemma pwf_swf i s p : pwf i s -> plain s = Some p -> swf p /\ sincoming p = i /\ sneurons p = pneur i s.
Proof.
  revert p. induction s as [|[l las] b IH]; intros p Hw Hp; [discriminate Hp|]. destruct Hw as (W1 & W2 & W3). cbn [plain] in Hp. injection Hp as <-.
  destruct (plain b) as [q|] eqn:Eq.
  - destruct (IH q W2 eq_refl) as (I1 & I2 & I3). cbn [swf sincoming sneurons pneur]. rewrite I3. auto.
  - rewrite (plain_nil b Eq) in *. cbn [swf sincoming sneurons pneur] in *. auto.
Qed.

(** ** The network *)
Section N.
Context (th : lthr) (pool : list prange) (t : tmem).

Lemma pnet_gradient_P gw gwo m M B i Y x : (forall id, gw_ok (gw id)) -> net_wf i (strip x) -> net_inited M (strip x) -> room m M (strip x) ->
  length B = m * i -> length Y = m * p_n x -> 0 < m -> m <= M -> NoDup (map fid (nfcs (strip x))) -> net_smooth m (biased m B) Y (strip x) ->
  well_penalised t m (biased m B) x ->
  forall (P : R -> Prop) (Q : pnet -> Prop), P (penalties m (biased m B) x) ->
  (forall x2, length (p_G x2) = length (p_W x) ->
    (forall j, j < length (p_W x) ->
      is_derive (fun v => objective m (biased m B) Y (pset_out j v x)) (nth j (p_W x) 0%R) (nth j (p_G x2) 0%R)) ->
    (forall id k W, In (id, k, W) (nfcs (strip x)) -> exists G, In (id, k, G) (ngrads (strip x2)) /\ length G = length W /\ forall j, j < length W ->
      is_derive (fun v => objective m (biased m B) Y (pset_hid id j v x)) (nth j W 0%R) (INR k * nth j G 0)%R) -> Q x2) ->
  forall K : pnet -> Prop, (forall x1, calcLossAddendum th pool t m (p_hid x1) P -> pnet_bprop th pool t gw gwo m (biased m B) Y x1 Q -> K x1) ->
  pnet_fprop th pool t m (biased m B) x K.
Proof.
  intros Hgw Hw HI HRm HB HY Hm HM HN (P0 & HS & HD) HWP P Q HPv HQ K HK.
  pose proof Hw as (H1 & H2 & H3 & H4 & H5 & H6). cbn [strip n_hid n_inc n_n n_W n_out n_buf] in *.
  assert (HR : INR m <> 0%R) by (apply not_0_INR; lia).
  destruct (pwf_plain i (p_hid x)) as [PW PN]. { intros p Hp. rewrite Hp in H1. destruct H1 as (G1 & G2 & _). auto. }
  assert (PI : pneur i (p_hid x) = p_inc x).
  { destruct (plain (p_hid x)) as [p|] eqn:Ep; [rewrite <- (PN p eq_refl); apply H1|]. rewrite (plain_nil _ Ep). symmetry. exact H1. }
  assert (PO : pok t m B (p_hid x)) by (apply (pok_of i); assumption).
  assert (SM : psmooth m B (p_hid x)). { apply (psmooth_of i); [exact PW|exact HB|]. intros p Hp. rewrite Hp in HS. apply HS. }
  pose proof (pval_length i m B _ PW HB) as LV. rewrite PI in LV. set (AX := pval m B (p_hid x)) in *.
  assert (EP : P0 = biased m AX).
  { pose proof (shown_ok i m B _ PW HB) as SH. destruct (plain (p_hid x)) as [p|] eqn:Ep.
    - destruct HS as [_ (s' & E & ->)]. destruct SH as (p' & E' & _ & EA). rewrite E' in E. injection E as <-. rewrite EA. reflexivity.
    - unfold AX. rewrite SH in *. exact HS. }
  subst P0.
  unfold pnet_fprop. apply (psfprop_ok th pool t i m B HB _ PW PO). intros h HSm HRd. cbv zeta.
  rewrite (below_ready m B h HRd), (psame_val m B _ _ HSm). fold AX.
  rewrite biased_length, LV. replace (m * p_inc x + m) with (m * (p_inc x + 1)) by lia.
  rewrite Nat.eqb_refl, (proj2 (Nat.eqb_eq _ _) H5). cbn [andb guard].
  apply HK. { cbn [p_hid]. apply (ploss_ok th pool t i m B HB (p_hid x) h PW PO HSm HRd). rewrite <- (penalties_eq i m B x PW HB). exact HPv. }
  destruct (psame_wf m B i _ _ HSm PW) as [PW' PN'].
  assert (PT : pstored t m B h) by (apply (pstored_ok t m B (p_hid x)); assumption).
  set (z := oz m (p_n x) (p_inc x) (p_out x) Y AX (p_W x)).
  set (v := gemm false false m (p_inc x) (p_n x) 1%R z m (p_W x) (p_n x)).
  set (gO := gemm true false (p_n x) (p_inc x + 1) m (1 / INR m)%R z m (biased m AX) m).
  assert (FIN : forall h2 W2 z2 b2, map bare (map fst h2) = map bare (fst (ppback gw m B v h)) ->
    Q (mkPN h2 (p_out x) (p_inc x) (p_n x) W2 gO z2 b2)).
  { intros h2 W2 z2 b2 E2. 
    assert (LG : length gO = length (p_W x)) by (unfold gO; rewrite gemm_length; congruence).
    assert (EGr : ngrads (mkN (plain h2) (p_out x) (p_inc x) (p_n x) W2 gO z2 b2) = flat_map (grads 1) (fst (ppback gw m B v h))).
    { unfold ngrads. cbn [n_hid]. rewrite plain_grads, <- row_bare, E2, row_bare. reflexivity. }
    assert (EFc : nfcs (strip x) = rowfcs (p_hid x)) by (unfold nfcs; cbn [strip n_hid]; apply plain_fcs).
    rewrite EFc in *.
    apply HQ; [exact LG| |]; cbn [p_G].
    - intros j Hj.
      assert (HM1 : moves (one 0 j) (done 0 j) (nth j (p_W x) 0%R) 0 (p_W x)) by (apply one_moves; auto).
      assert (LX : dpath (nth j (p_W x) 0%R) (m * p_inc x) (fun _ : R => AX) (fun _ => 0%R)).
      { split; [intros; exact LV|intros; apply d_const]. }
      eapply d_eq; [eapply d_ext; [|apply (d_plus _ (fun _ => (/ INR m * penalties m (biased m B) x)%R) _ _ _ (oloss_derive m (p_n x) (p_inc x) (p_out x) Y (one 0 j) (done 0 j) (nth j (p_W x) 0%R) 0 (p_W x) (fun _ => AX) (fun _ => 0%R) H6 Hm LX HM1 H5 HD) (d_const _ _))]|].
      + intros u. unfold objective. f_equal.
        * symmetry. rewrite (mean_loss_eq m B i); [|split; [exact H1|]; cbn [strip pset_out n_W n_n n_inc n_out p_W p_n p_inc p_out]; repeat (split; [solve [auto]|]); split; [|exact H6]; rewrite setn_length; assumption|exact HB].
          cbn [strip pset_out n_hid n_n n_inc n_out n_W p_hid p_n p_inc p_out p_W]. rewrite under_plain. reflexivity.
      + cbv beta zeta. fold z. fold gO. rewrite (bs_0 (m * p_inc x)) by (intros; ring).
        rewrite (bs_ext _ _ (fun q => if Nat.eqb q j then nth q gO 0%R else 0%R)).
        * rewrite (bs_single _ j (fun q => nth q gO 0%R)) by congruence. ring.
        * intros q Hq. unfold done. rewrite Nat.eqb_refl. destruct (Nat.eqb q j); ring.
    - unfold strip. cbn [p_hid p_out p_inc p_n p_W p_G p_A p_buf]. rewrite EGr. intros id k W HW.
      pose proof (ppback_fcs gw i m B h v PW') as ET. rewrite (rowfcs_same m B _ _ HSm) in ET.
      assert (Tfid : forall l : list (nat * nat * list R), map fid l = map (fun q : nat * nat * nat => fst (fst q)) (map tagged l))
        by (intros l; rewrite map_map; reflexivity).
      assert (ND : NoDup (map fid (flat_map (grads 1) (fst (ppback gw m B v h))))) by (rewrite Tfid, ET, <- Tfid; exact HN).
      assert (TG : In (tagged (id, k, W)) (map tagged (flat_map (grads 1) (fst (ppback gw m B v h))))) by (rewrite ET; apply in_map; exact HW).
      apply in_map_iff in TG. destruct TG as ([[id' k'] G] & T1 & HG). unfold tagged in T1. cbn [fst snd] in T1. injection T1 as -> -> LGj.
      exists G. split; [exact HG|]. split; [exact LGj|]. intros j Hj.
      assert (Mv : forall s', rowfcs s' = rowfcs (p_hid x) -> Forall (fun q => path (one id j) (done id j) (nth j W 0%R) (fst q)) s').
      { intros s' Es. apply Forall_forall. intros [l las] Hin. apply (proj1 (path_of (one id j) (done id j) (nth j W 0%R)) l 1).
        intros i0 k0 W0 H0. apply one_moves; [|exact Hj]. intros ->.
        assert (In (id, k0, W0) (rowfcs (p_hid x))). { rewrite <- Es. apply in_flat_map. exists (l, las). split; [exact Hin|exact H0]. }
        destruct (nodup_fid _ _ _ _ _ _ HN HW H) as [_ ->]. reflexivity. }
      assert (LB : dpath (nth j W 0%R) (m * i) (fun _ : R => B) (fun _ => 0%R)) by (split; [intros; exact HB|intros; apply d_const]).
      destruct (padjoint (one id j) (done id j) (nth j W 0%R) gw t i m (fun _ => B) (fun _ => 0%R) Hm LB h PW'
        (Mv h (rowfcs_same m B _ _ HSm)) HRd (pset_smooth m B _ _ HSm SM) PT) as (dA & dp & D1 & D2 & D3 & D4).
      rewrite PN', PI in D1, D4. rewrite (psame_val m B _ _ HSm) in D2. fold AX in D2.
      assert (HM0 : moves (fun _ _ W => W) (fun _ _ => 0%R) (nth j W 0%R) 0 (p_W x))
        by (split; [reflexivity|]; split; [reflexivity|]; intros; apply d_const).
      assert (HD' : forall r c, r < m -> c < p_n x -> loss_domain (p_out x) (nth (m * c + r) Y 0%R)
         (net_input m (p_n x) (p_inc x) (biased m (pval m B (pwith (one id j (nth j W 0%R)) h))) (p_W x) r c))
        by (rewrite D2; exact HD).
      pose proof (oloss_derive m (p_n x) (p_inc x) (p_out x) Y (fun _ _ W => W) (fun _ _ => 0%R) (nth j W 0%R) 0 (p_W x)
        (fun u => pval m B (pwith (one id j u) h)) dA H6 Hm D1 HM0 H5 HD') as OD.
      assert (PD : is_derive (fun u => (/ INR m * ppen m B (pwith (one id j u) h))%R) (nth j W 0%R) (/ INR m * dp)%R).
      { eapply d_eq; [apply (d_mult (fun _ => (/ INR m)%R)); [apply d_const|exact D3]|]. ring. }
      eapply d_eq; [eapply d_ext; [|apply (d_plus _ _ _ _ _ OD PD)]|].
      + intros u. assert (PWu : pwf i (pwith (one id j u) (p_hid x))) by (apply (pwith_wf _ (done id j) (nth j W 0%R)); [apply Mv; reflexivity|exact PW]).
        unfold objective. f_equal.
        * symmetry. rewrite (mean_loss_eq m B i); [| |exact HB].
          -- cbn [strip pset_hid n_hid n_n n_inc n_out n_W p_hid p_n p_inc p_out p_W]. rewrite under_plain.
             apply (f_equal (fun A => oloss m (p_n x) (p_inc x) (p_out x) Y A (p_W x))). symmetry. apply (pval_with m B (one id j u) _ _ HSm).
          -- split; [|cbn [strip pset_hid n_inc n_n n_W n_out p_inc p_n p_W p_out]; auto 8].
             cbn [strip pset_hid n_hid n_inc p_hid p_inc]. change (fun i W0 => if i =? id then setn j u W0 else W0) with (one id j u).
             fold (pwith (one id j u) (p_hid x)). destruct (plain (pwith (one id j u) (p_hid x))) as [p|] eqn:Ep.
             ++ destruct (pwf_swf i _ p PWu Ep) as (Q1 & Q2 & Q3). rewrite pwith_neur, PI in Q3. auto.
             ++ rewrite plain_with in Ep. destruct (plain (p_hid x)); [discriminate Ep|exact H1].
        * apply f_equal. symmetry. rewrite (penalties_eq i); [|exact PWu|exact HB]. symmetry. apply (ppen_with m B (one id j u) _ _ HSm).
      + cbv beta zeta. rewrite (bs_0 (p_n x * (p_inc x + 1))) by (intros; ring). rewrite D2. fold z. fold v.
        specialize (D4 v). cbv zeta in D4. specialize (D4 ltac:(unfold v; apply gemm_length)).
        rewrite (bs_0 (m * i)) in D4 by (intros; ring).
        rewrite lsum_grads, (sum_one id j k G _ ND HG) in D4 by congruence.
        apply (Rmult_eq_reg_l (INR m)); [|exact HR]. transitivity (INR m * (INR k * nth j G 0) + 0)%R; [|ring]. rewrite <- D4. field. exact HR. }
  unfold pnet_bprop. cbn [p_hid p_out p_inc p_n p_W p_A p_buf]. cbv zeta.
  rewrite (below_ready m B h HRd), (psame_val m B _ _ HSm). fold AX.
  assert (LA : length (map (act_f (outp_act (p_out x))) (gemm false true m (p_n x) (p_inc x + 1) 1%R (biased m AX) m (p_W x) (p_n x))) = m * p_n x)
    by (rewrite map_length; apply gemm_length).
  rewrite biased_length, LV, LA, HY. replace (m * p_inc x + m) with (m * (p_inc x + 1)) by lia.
  rewrite !Nat.eqb_refl, (proj2 (Nat.eqb_eq _ _) H5). cbn [andb guard obind].
  rewrite (comb_map (outp_dLdZ (p_out x)) Y _ (m * p_n x) HY LA).
  change (map _ (seq 0 (m * p_n x))) with z. cbv zeta.
  pose proof (plain_same m B _ _ HSm) as PS.
  destruct h as [|[l las] b].
  - rewrite deform_ok by (simpl; lia). cbn [obind]. cbn [psbprop]. apply FIN. reflexivity.
  - destruct (plain (p_hid x)) as [p|] eqn:Ep; [|rewrite (plain_nil _ Ep) in HSm; contradiction].
    unfold net_inited, room in *. cbn [strip n_hid n_buf] in HRm, HI. rewrite Ep in HRm, HI. destruct HI as (I1 & I2 & I3).
    pose proof (eq_refl : dLdA_size M p = Nat.max 1 (smax_dLdA M p)) as DS.
    assert (HC : forall l1 las1, In (l1, las1) ((l, las) :: b) -> inited M l1 /\ max_dLdA M l1 <= dLdA_size M p).
    { apply (pinited_same m B M (dLdA_size M p) (p_hid x) _ HSm). intros l1 las1 Hin. destruct (pinited M _ p Ep I1 l1 las1 Hin). split; [assumption|lia]. }
    assert (HBt : m * i <= dLdA_size M p \/ pbot ((l, las) :: b) = false).
    { rewrite (pbot_same m B _ _ HSm), (pbot_plain _ p Ep). destruct (pwf_swf i _ p PW Ep) as (_ & Qi & _). rewrite Qi in HRm. destruct HRm; auto. }
    assert (SZ : m * pneur i ((l, las) :: b) <= dLdA_size M p).
    { apply (psize i m M _ _ PW' HM); [|exact HBt]. intros l1 las1 Hin. apply (HC l1 las1 Hin). }
    rewrite PN', PI in SZ. assert (EN : neurons l = p_inc x) by (rewrite <- PI, <- PN'; reflexivity). rewrite EN.
    rewrite deform_ok by (cbn [b_d]; lia). cbn [obind b_d].
    assert (Sh : shaped m (p_inc x) (mkB m (p_inc x) (fst (p_buf x))) = true) by (apply shaped_iff; auto).
    rewrite Sh. cbn [guard obind]. fold v.
    destruct (put_ok (mkB m (p_inc x) (fst (p_buf x))) v) as (D & P1 & P2 & P3);
      [unfold v; rewrite gemm_length; reflexivity|unfold v; rewrite gemm_length; cbn [b_d]; lia|].
    rewrite P1. cbn [obind b_r b_c b_d] in *.
    apply (psbprop_ok th pool t gw i m M B (dLdA_size M p) Hgw HB Hm HM _ PW' PT HRd HC HBt).
    + cbn [fst b_d]. congruence.
    + cbn [snd b_d]. congruence.
    + intros _. apply shaped_iff. cbn [pneur bsel b_r b_c]. rewrite EN. auto.
    + intros s' arr' G1 G2 G3 G4. apply FIN.
      replace v with (content (bsel false (mkB m (p_inc x) D, mkB 0 0 (snd (p_buf x))))) by exact P3. exact G1.
Qed.
End N.

Lemma pnet_gradient_untiled th pool t gw gwo m M B i Y x :
  (forall id, gw_ok (gw id)) -> net_wf i (strip x) -> net_inited M (strip x) -> room m M (strip x) -> untiled (strip x) -> NoDup (map fid (nfcs (strip x))) ->
  length B = m * i -> length Y = m * p_n x -> 0 < m <= M -> net_smooth m (biased m B) Y (strip x) ->
  well_penalised t m (biased m B) x ->
  pnet_fprop th pool t m (biased m B) x (fun x1 =>
    calcLossAddendum th pool t m (p_hid x1) (fun v => mean_loss m (biased m B) Y (strip x) + v = reported m (biased m B) Y x)%R /\
    pnet_bprop th pool t gw gwo m (biased m B) Y x1 (fun x2 =>
      length (p_G x2) = length (p_W x) /\
      (forall j, j < length (p_W x) ->
        is_derive (fun v => objective m (biased m B) Y (pset_out j v x)) (nth j (p_W x) 0%R) (nth j (p_G x2) 0%R)) /\
      (forall id k W, In (id, k, W) (nfcs (strip x)) -> exists G, In (id, k, G) (ngrads (strip x2)) /\ length G = length W /\ forall j, j < length W ->
        is_derive (fun v => objective m (biased m B) Y (pset_hid id j v x)) (nth j W 0%R) (nth j G 0%R)))).
Proof.
  intros H1 H2 H3 H4 HU H5 H6 H7 [H8 H9] H10 H11. eapply (pnet_gradient_P th pool t gw gwo m M B i Y x H1 H2 H3 H4 H6 H7 H8 H9 H5 H10 H11); [| |intros x1 G1 G2; split; [exact G1|exact G2]].
  - reflexivity.
  - intros x2 E1 E2 E3. split; [exact E1|]. split; [exact E2|]. intros id k W HW. destruct (E3 id k W HW) as (G & G1 & G2 & G3).
    exists G. split; [exact G1|]. split; [exact G2|]. intros j Hj. specialize (G3 j Hj). pose proof (HU id k W HW) as ->. simpl INR in G3.
    eapply d_eq; [exact G3|ring].
Qed.
Lemma pnet_fprop_bprop th pool t gw gwo m M B i Y x : (forall id, gw_ok (gw id)) -> net_wf i (strip x) -> net_inited M (strip x) -> room m M (strip x) ->
  length B = m * i -> length Y = m * p_n x -> 0 < m -> m <= M -> NoDup (map fid (nfcs (strip x))) -> net_smooth m (biased m B) Y (strip x) ->
  well_penalised t m (biased m B) x ->
  forall Q : pnet -> Prop,
  (forall x2, length (p_G x2) = length (p_W x) ->
    (forall j, j < length (p_W x) ->
      is_derive (fun v => objective m (biased m B) Y (pset_out j v x)) (nth j (p_W x) 0%R) (nth j (p_G x2) 0%R)) ->
    (forall id k W, In (id, k, W) (nfcs (strip x)) -> exists G, In (id, k, G) (ngrads (strip x2)) /\ length G = length W /\ forall j, j < length W ->
      is_derive (fun v => objective m (biased m B) Y (pset_hid id j v x)) (nth j W 0%R) (INR k * nth j G 0)%R) -> Q x2) ->
  pnet_fprop th pool t m (biased m B) x (fun x1 => pnet_bprop th pool t gw gwo m (biased m B) Y x1 Q).
Proof.
  intros H1 H2 H3 H4 H6 H7 H8 H9 H5 H10 H11 Q HQ.
  apply (pnet_gradient_P th pool t gw gwo m M B i Y x H1 H2 H3 H4 H6 H7 H8 H9 H5 H10 H11 (fun _ => True) Q); [exact I|exact HQ|]. intros x1 _ H. exact H.
Qed.
