(** Gradients of networks with dropout. *)
From Coq Require Import Reals Lra Bool.
From Coquelicot Require Import Coquelicot.
From Verif Require Import Base BaseLemmas Workers_Model Kern_Model Act_Model Act_Spec Act_Proofs Loss_Proofs Net_Model Net_Spec Net_Proofs Net_Proofs2 Net_Proofs3 Net_Proofs4 Net_Proofs5
  La_Model La_Spec La_Proofs3 La_Proofs4 Drop_Model Drop_Spec Drop_Proofs Pen_Model Pen_Spec Pen_Proofs Pen_Proofs2 Do_Model Do_Spec Do_Proofs Do_Proofs2.
Local Open Scope nat_scope.

Definition dwith (f : nat -> list R -> list R) (s : dstack) : dstack := map (fun h => mkH (with_w f (h_l h)) (h_las h) (h_do h)) s.
Lemma und_with f s : und (dwith f s) = pwith f (und s).
Proof. unfold und, dwith, pwith. rewrite !map_map. reflexivity. Qed.

Section Path.
Context (f : R -> nat -> list R -> list R) (dW : nat -> nat -> R) (x : R).

Lemma dpath_thin n d (F : R -> list R) dF : dpath x n F dF -> dpath x n (fun t => thin d (F t)) (fun q => (dmask d q * dF q)%R).
Proof.
  intros [H1 H2]. split; [intros t; rewrite thin_length; apply H1|]. intros q Hq.
  apply (d_ext (fun t => (dmask d q * nth q (F t) 0 + dshift d q)%R)); [intros t; rewrite nth_thin by (rewrite H1; exact Hq); reflexivity|].
  eapply d_eq; [apply (d_plus _ (fun _ => dshift d q)); [apply (d_mult (fun _ => dmask d q)); [apply d_const|apply H2; exact Hq]|apply d_const]|]. ring.
Qed.

Lemma dadjoint gw t i m B dB : 0 < m -> dpath x (m * i) B dB -> forall s, dwf i s -> Forall (fun h => path f dW x (h_l h)) s ->
  dready m (B x) s -> dsmooth m (B x) s -> dstored t m (B x) s ->
  exists dA dp, dpath x (m * dneur i s) (fun v => dval m (B v) (dwith (f v) s)) dA /\
    dval m (B x) (dwith (f x) s) = dval m (B x) s /\
    is_derive (fun v => dpen m (B v) (dwith (f v) s)) x dp /\
    forall v, length v = m * dneur i s -> let r := dpback gw m (B x) v s in
      (bs (m * dneur i s) (fun q => nth q v 0 * dA q) + dp = INR m * lsum dW (fst r) + bs (m * i) (fun q => nth q (snd r) 0 * dB q))%R.
Proof.
  intros Hm HD s. induction s as [|h b IH]; intros Hw HP HR HS HT.
  - exists dB, 0%R. split; [exact HD|]. split; [reflexivity|]. split; [apply (d_ext (fun _ => 0%R)); [reflexivity|apply d_const]|].
    intros v Hv. cbn. ring.
  - destruct Hw as (W1 & W2 & W3). fold (und b) in *. apply Forall_cons_iff in HP. destruct HP as [HP1 HP2].
    destruct HR as [R1 R2]. destruct HS as [S1 S2]. destruct HT as [T1 T2].
    destruct (IH W2 HP2 R1 S1 T1) as (dAb & dpb & D1 & D2 & D3 & D4). clear IH. set (l := h_l h) in *. set (las := h_las h) in *.
    destruct (proj1 (adjoint f dW x gw) l m (fun v => dval m (B v) (dwith (f v) b)) dAb W1 HP1 Hm) as (dA & A1 & A2 & A3).
    { rewrite W3. exact D1. } { rewrite D2. exact R2. } { rewrite D2. exact S2. }
    rewrite D2 in A2, A3. pose proof (path_pen x m (neurons l) _ dA A1 las Hm) as PP.
    exists (fun q => (dmask (h_do h) q * dA q)%R), (bs (m * neurons l) (fun q => pgrad las m (neurons l) (fval m (dval m (B x) b) l) q * dA q) + dpb)%R.
    cbn [und map pneur dwith dval h_l h_las h_do]. fold l las. fold (dwith (f x) b). fold (und b). split; [apply (dpath_thin (m * neurons l) (h_do h) _ dA A1)|]. split; [rewrite D2, A2; reflexivity|]. split.
    + apply (d_ext (fun v => (pen_value las m (neurons l) (fval m (dval m (B v) (dwith (f v) b)) (with_w (f v) l)) + dpen m (B v) (dwith (f v) b))%R)).
      { intros v. cbn [dpen h_l h_las]. fold (dwith (f v) b). rewrite (proj1 (with_w_neurons (f v))). reflexivity. }
      apply d_plus; [|exact D3].
      eapply d_eq; [apply PP|].
      * intros a Ha He. rewrite D2, A2. destruct (T2 a Ha He) as (_ & _ & K & Rg). split; [exact K|exact Rg].
      * apply bs_ext. intros q Hq. rewrite D2, A2. reflexivity.
    + intros v Hv. cbn [dpback]. cbv zeta. fold l las. cbn [fst snd lsum fold_right]. fold (lsum dW).
      set (v' := map _ (seq 0 (m * neurons l))).
      assert (Lv : length v' = m * neurons l) by (unfold v'; rewrite map_length, seq_length; reflexivity).
      specialize (A3 v' Lv). cbv zeta in A3.
      set (w := snd (pback gw m (biased m (dval m (B x) b)) v' l)) in *.
      assert (Lw : length w = m * dneur i b) by (unfold w; rewrite <- W3; apply (proj1 (pback_length gw)); assumption).
      specialize (D4 w Lw). cbv zeta in D4.
      assert (EV : bs (m * neurons l) (fun q => nth q v' 0 * dA q)%R =
        (bs (m * neurons l) (fun q => nth q v 0 * (dmask (h_do h) q * dA q)) + bs (m * neurons l) (fun q => pgrad las m (neurons l) (fval m (dval m (B x) b) l) q * dA q))%R).
      { rewrite <- bs_plus. apply bs_ext. intros q Hq. unfold v'. rewrite nth_map_seq by exact Hq. ring. }
      rewrite EV, W3 in A3.
      change (lsum dW (fst (dpback gw m (B x) w b))) with (fold_right (fun l r => (gsum dW l + r)%R) 0%R (fst (dpback gw m (B x) w b))) in *.
      unfold lsum in D4. lra.
Qed.
End Path.

Lemma und_same m B s : forall s1, dsame m B s s1 -> rowfcs (und s1) = rowfcs (und s).
Proof.
  induction s as [|h b IH]; intros [|h1 b1] H; try contradiction; [reflexivity|].
  destruct H as (H1 & H2 & _). cbn [und map rowfcs flat_map fst]. fold (und b) (und b1) (rowfcs (und b)) (rowfcs (und b1)). rewrite (IH _ H1), (proj1 fcs_same _ _ H2). reflexivity.
Qed.
Lemma dpback_fcs gw i m B s : forall v, dwf i s -> map tagged (flat_map (grads 1) (fst (dpback gw m B v s))) = map tagged (rowfcs (und s)).
Proof.
  induction s as [|h b IH]; intros v Hw; [reflexivity|]. destruct Hw as (W1 & W2 & W3).
  cbn [dpback]. cbv zeta. cbn [fst flat_map und map rowfcs]. fold (und b) (rowfcs (und b)). rewrite !map_app, IH by exact W2. rewrite (proj1 (grads_fcs gw)) by exact W1. reflexivity.
Qed.
Lemma dset_smooth m B s : forall s1, dsame m B s s1 -> dsmooth m B s -> dsmooth m B s1.
Proof.
  induction s as [|h b IH]; intros [|h1 b1] H HS; try contradiction; [exact I|].
  destruct H as (H1 & H2 & _). destruct HS as [S1 S2]. split; [apply IH; assumption|].
  rewrite (dsame_val m B b b1 H1). apply (proj1 smooth_same _ _ H2). exact S2.
Qed.
Lemma dinited_same m B M c s : forall s1, dsame m B s s1 -> (forall l las, In (l, las) (und s) -> inited M l /\ max_dLdA M l <= c) ->
  forall l las, In (l, las) (und s1) -> inited M l /\ max_dLdA M l <= c.
Proof.
  induction s as [|h b IH]; intros [|h1 b1] H HI l las Hin; try contradiction.
  destruct H as (H1 & H2 & _). destruct Hin as [E|Hin].
  - injection E as <- <-. destruct (HI (h_l h) (h_las h) (or_introl eq_refl)). rewrite (proj1 same_max _ _ H2). split; [apply (proj1 same_inited _ _ H2); assumption|assumption].
  - apply (IH b1 H1) with (las := las); [|exact Hin]. intros l1 las1 H3. apply (HI l1 las1). right. exact H3.
Qed.
Lemma dbot_same m B s : forall s1, dsame m B s s1 -> pbot (und s1) = pbot (und s).
Proof.
  induction s as [|h b IH]; intros [|h1 b1] H; try contradiction; [reflexivity|].
  destruct H as (H1 & H2 & _). specialize (IH b1 H1). destruct b as [|q b], b1 as [|q' b1]; try contradiction; [apply (proj1 same_bottom _ _ H2)|exact IH].
Qed.
Lemma dval_with m B f s : forall s1, dsame m B s s1 -> dval m B (dwith f s1) = dval m B (dwith f s).
Proof.
  induction s as [|h b IH]; intros [|h1 b1] H; try contradiction; [reflexivity|].
  destruct H as (H1 & H2 & _ & H4). cbn [dwith map dval h_l h_do]. fold (dwith f b) (dwith f b1). rewrite (IH _ H1), H4. f_equal.
  apply (proj1 fval_same), (proj1 (with_w_same f)), H2.
Qed.
Lemma dpen_with m B f s : forall s1, dsame m B s s1 -> dpen m B (dwith f s1) = dpen m B (dwith f s).
Proof.
  induction s as [|h b IH]; intros [|h1 b1] H; try contradiction; [reflexivity|].
  destruct H as (H1 & H2 & H3 & _). cbn [dwith map dpen h_l h_las]. fold (dwith f b) (dwith f b1). rewrite (IH _ H1), (dval_with m B f b b1 H1).
  rewrite !(proj1 (with_w_neurons f)), (proj1 same_neurons _ _ H2).
  rewrite (proj1 fval_same _ _ (proj1 (with_w_same f) _ _ H2)), (pen_value_kept _ _ _ _ _ _ H3). reflexivity.
Qed.

Lemma dsmooth_of i m B s : dwf i s -> length B = m * i -> levels_smooth m (biased m B) s -> dsmooth m B s.
Proof.
  intros Hw HB. induction s as [|h b IH]; intros H; [exact I|]. destruct Hw as (W1 & W2 & W3). fold (und b) in *.
  destruct H as (H1 & L & E & H2). destruct (levels_ok i m B b W2 HB) as (L' & E' & ES & _). rewrite E' in E. injection E as <-. rewrite ES in H2.
  split; [apply IH; assumption|exact H2].
Qed.
Lemma dok_of i t m M B x : m <= M -> dwf i (d_hid x) -> length B = m * i -> dwell_penalised t m (biased m B) x -> Forall (drop_ready M) (d_hid x) -> dok t m B (d_hid x).
Proof.
  intros HM Hw HB (L & E & HP) HF. destruct (levels_ok i m B _ Hw HB) as (L' & E' & _ & _ & _ & EP). rewrite E' in E. injection E as <-.
  assert (HG : forall pre h b, d_hid x = pre ++ h :: b -> pgood t m (neurons (h_l h)) (fval m (dval m B b) (h_l h)) (h_las h)).
  { apply (EP (fun h A => pgood t m (neurons (h_l h)) A (h_las h))). intros h A Hin a Ha He. apply (HP h A a Hin Ha). apply enabled_scale. exact He. }
  clear EP HP E' Hw. induction (d_hid x) as [|h b IH]; [exact I|]. apply Forall_cons_iff in HF. destruct HF as [F1 F2].
  split; [|split].
  - apply IH; [exact F2|]. intros pre h0 b0 Es. apply (HG (h :: pre)). rewrite Es. reflexivity.
  - apply (HG []). reflexivity.
  - unfold drop_ready in F1. destruct (h_do h) as [e|]; [|exact I]. destruct F1 as (F1 & F3 & F4 & F5). split; [exact F1|]. split; [exact F3|].
    rewrite F4, F5. split; apply Nat.mul_le_mono_r; exact HM.
Qed.

(** ** The network *)
Section N.
Context (th : lthr) (thd thm : nat) (pool : list prange) (t : tmem).

Lemma dnet_gradient_P gw gwo m M B i Y x : (forall id, gw_ok (gw id)) -> net_wf i (dstrip x) -> net_inited M (dstrip x) -> room m M (dstrip x) ->
  Forall (drop_ready M) (d_hid x) ->
  length B = m * i -> length Y = m * d_n x -> 0 < m -> m <= M -> NoDup (map fid (nfcs (dstrip x))) -> dnet_smooth m (biased m B) Y x ->
  dwell_penalised t m (biased m B) x ->
  forall Q : dnet -> Prop,
  (forall x2, length (d_G x2) = length (d_W x) ->
    (forall j, j < length (d_W x) ->
      is_derive (fun v => dobjective m (biased m B) Y (dset_out j v x)) (nth j (d_W x) 0%R) (nth j (d_G x2) 0%R)) ->
    (forall id k W, In (id, k, W) (nfcs (dstrip x)) -> exists G, In (id, k, G) (ngrads (dstrip x2)) /\ length G = length W /\ forall j, j < length W ->
      is_derive (fun v => dobjective m (biased m B) Y (dset_hid id j v x)) (nth j W 0%R) (INR k * nth j G 0)%R) -> Q x2) ->
  dnet_fprop th thd pool t true m (biased m B) x (fun x1 => dnet_bprop th thm pool t gw gwo m (biased m B) Y x1 Q).
Proof.
  intros Hgw Hw HI HRm HDr HB HY Hm HM HN (HS1 & L0 & HL0 & HS2) HWP Q HQ.
  pose proof Hw as (H1 & H2 & H3 & H4 & H5 & H6). cbn [dstrip n_hid n_inc n_n n_W n_out n_buf] in *. fold (und (d_hid x)) in *.
  assert (HR : INR m <> 0%R) by (apply not_0_INR; lia).
  destruct (pwf_plain i (und (d_hid x))) as [PW PN]. { intros p Hp. rewrite Hp in H1. destruct H1 as (G1 & G2 & _). auto. }
  assert (PI : dneur i (d_hid x) = d_inc x).
  { destruct (plain (und (d_hid x))) as [p|] eqn:Ep; [rewrite <- (PN p eq_refl); apply H1|]. rewrite (plain_nil _ Ep). symmetry. exact H1. }
  assert (PO : dok t m B (d_hid x)) by (apply (dok_of i t m M); assumption).
  assert (SM : dsmooth m B (d_hid x)) by (apply (dsmooth_of i); assumption).
  pose proof (dval_length i m B _ PW HB) as LV. rewrite PI in LV. set (AX := dval m B (d_hid x)) in *.
  destruct (levels_ok i m B _ PW HB) as (L1 & EL1 & ES1 & _). rewrite EL1 in HL0. injection HL0 as <-. rewrite ES1 in HS2. fold AX in HS2.
  destruct HS2 as (P0 & EP & HD). cbn [out_only n_hid n_n n_inc n_out n_W] in EP, HD. subst P0.
  assert (OW : forall u, d_inc u = d_inc x -> d_n u = d_n x -> d_out u = d_out x -> length (d_W u) = length (d_W x) -> net_wf (d_inc x) (out_only u)).
  { intros u E1 E2 E3 E4. split; [exact E1|]. cbn [out_only n_inc n_n n_W n_out]. rewrite E1, E2, E3, E4. auto 8. }
  unfold dnet_fprop. apply (dsfprop_ok th thd pool t i m B Hm HB _ PW PO). intros h h2 HSm HRd HMd. cbv zeta.
  destruct (dsame_wf m B i _ _ HSm PW) as [PW' PN'].
  rewrite (dbelow_mid i m B h h2 PW' HB HRd HMd), (dsame_val m B _ _ HSm). fold AX.
  rewrite biased_length, LV. replace (m * d_inc x + m) with (m * (d_inc x + 1)) by lia.
  rewrite Nat.eqb_refl, (proj2 (Nat.eqb_eq _ _) H5). cbn [andb guard].
  assert (PT : dstored t m B h) by (apply (dstored_ok t m B (d_hid x)); assumption).
  set (z := oz m (d_n x) (d_inc x) (d_out x) Y AX (d_W x)).
  set (v := gemm false false m (d_inc x) (d_n x) 1%R z m (d_W x) (d_n x)).
  set (gO := gemm true false (d_n x) (d_inc x + 1) m (1 / INR m)%R z m (biased m AX) m).
  assert (FIN : forall h3 W2 z2 b2, map bare (map h_l h3) = map bare (fst (dpback gw m B v h)) ->
    Q (mkDN h3 (d_out x) (d_inc x) (d_n x) W2 gO z2 b2)).
  { intros h3 W2 z2 b2 E2. 
    assert (LG : length gO = length (d_W x)) by (unfold gO; rewrite gemm_length; congruence).
    assert (EGr : ngrads (mkN (plain (und h3)) (d_out x) (d_inc x) (d_n x) W2 gO z2 b2) = flat_map (grads 1) (fst (dpback gw m B v h))).
    { unfold ngrads. cbn [n_hid]. rewrite plain_grads, <- row_bare. replace (map fst (und h3)) with (map h_l h3) by (unfold und; rewrite map_map; reflexivity).
      rewrite E2, row_bare. reflexivity. }
    assert (EFc : nfcs (dstrip x) = rowfcs (und (d_hid x))) by (unfold nfcs; cbn [dstrip n_hid]; apply plain_fcs).
    rewrite EFc in *.
    assert (OBJ : forall u, dwf i (d_hid u) -> dneur i (d_hid u) = d_inc x -> d_inc u = d_inc x -> d_n u = d_n x -> d_out u = d_out x -> length (d_W u) = length (d_W x) ->
      dobjective m (biased m B) Y u = (oloss m (d_n x) (d_inc x) (d_out x) Y (dval m B (d_hid u)) (d_W u) + / INR m * dpen m B (d_hid u))%R).
    { intros u Wu Nu E1 E3 E4 E5. destruct (levels_ok i m B _ Wu HB) as (L & EL & ES & EP & _). unfold dobjective, thinned_loss, dpenalties. rewrite EL, ES, (EP _ eq_refl).
      f_equal. rewrite (mean_loss_eq m (dval m B (d_hid u)) (d_inc x)); [cbn [out_only n_hid under n_n n_inc n_out n_W]; rewrite E1, E3, E4; reflexivity|apply OW; assumption|].
      rewrite (dval_length i m B _ Wu HB), Nu. reflexivity. }
    apply HQ; [exact LG| |]; cbn [d_G].
    - intros j Hj.
      assert (HM1 : moves (one 0 j) (done 0 j) (nth j (d_W x) 0%R) 0 (d_W x)) by (apply one_moves; auto).
      assert (LX : dpath (nth j (d_W x) 0%R) (m * d_inc x) (fun _ : R => AX) (fun _ => 0%R)).
      { split; [intros; exact LV|intros; apply d_const]. }
      eapply d_eq; [eapply d_ext; [|apply (d_plus _ (fun _ => (/ INR m * dpen m B (d_hid x))%R) _ _ _ (oloss_derive m (d_n x) (d_inc x) (d_out x) Y (one 0 j) (done 0 j) (nth j (d_W x) 0%R) 0 (d_W x) (fun _ => AX) (fun _ => 0%R) H6 Hm LX HM1 H5 HD) (d_const _ _))]|].
      + intros u. rewrite OBJ; [reflexivity|exact PW|exact PI|reflexivity|reflexivity|reflexivity|]. cbn [dset_out d_W]. apply setn_length; exact Hj.
      + cbv beta zeta. fold z. fold gO. rewrite (bs_0 (m * d_inc x)) by (intros; ring).
        rewrite (bs_ext _ _ (fun q => if Nat.eqb q j then nth q gO 0%R else 0%R)).
        * rewrite (bs_single _ j (fun q => nth q gO 0%R)) by congruence. ring.
        * intros q Hq. unfold done. rewrite Nat.eqb_refl. destruct (Nat.eqb q j); ring.
    - unfold dstrip. cbn [d_hid d_out d_inc d_n d_W d_G d_A d_buf]. fold (und h3). rewrite EGr. intros id k W HW.
      pose proof (dpback_fcs gw i m B h v PW') as ET. rewrite (und_same m B _ _ HSm) in ET.
      assert (Tfid : forall l : list (nat * nat * list R), map fid l = map (fun q : nat * nat * nat => fst (fst q)) (map tagged l))
        by (intros l; rewrite map_map; reflexivity).
      assert (ND : NoDup (map fid (flat_map (grads 1) (fst (dpback gw m B v h))))) by (rewrite Tfid, ET, <- Tfid; exact HN).
      assert (TG : In (tagged (id, k, W)) (map tagged (flat_map (grads 1) (fst (dpback gw m B v h))))) by (rewrite ET; apply in_map; exact HW).
      apply in_map_iff in TG. destruct TG as ([[id' k'] G] & T1 & HG). unfold tagged in T1. cbn [fst snd] in T1. injection T1 as -> -> LGj.
      exists G. split; [exact HG|]. split; [exact LGj|]. intros j Hj.
      assert (Mv : forall s', rowfcs (und s') = rowfcs (und (d_hid x)) -> Forall (fun q => path (one id j) (done id j) (nth j W 0%R) (h_l q)) s').
      { intros s' Es. apply Forall_forall. intros q Hin. apply (proj1 (path_of (one id j) (done id j) (nth j W 0%R)) (h_l q) 1).
        intros i0 k0 W0 H0. apply one_moves; [|exact Hj]. intros ->.
        assert (In (id, k0, W0) (rowfcs (und (d_hid x)))). { rewrite <- Es. apply in_flat_map. exists (h_l q, h_las q). split; [apply (in_map (fun h => (h_l h, h_las h))); exact Hin|exact H0]. }
        destruct (nodup_fid _ _ _ _ _ _ HN HW H) as [_ ->]. reflexivity. }
      assert (LB : dpath (nth j W 0%R) (m * i) (fun _ : R => B) (fun _ => 0%R)) by (split; [intros; exact HB|intros; apply d_const]).
      destruct (dadjoint (one id j) (done id j) (nth j W 0%R) gw t i m (fun _ => B) (fun _ => 0%R) Hm LB h PW'
        (Mv h (und_same m B _ _ HSm)) HRd (dset_smooth m B _ _ HSm SM) PT) as (dA & dp & D1 & D2 & D3 & D4).
      rewrite PN', PI in D1, D4. rewrite (dsame_val m B _ _ HSm) in D2. fold AX in D2.
      assert (HM0 : moves (fun _ _ W => W) (fun _ _ => 0%R) (nth j W 0%R) 0 (d_W x))
        by (split; [reflexivity|]; split; [reflexivity|]; intros; apply d_const).
      assert (HD' : forall r c, r < m -> c < d_n x -> loss_domain (d_out x) (nth (m * c + r) Y 0%R)
         (net_input m (d_n x) (d_inc x) (biased m (dval m B (dwith (one id j (nth j W 0%R)) h))) (d_W x) r c))
        by (rewrite D2; exact HD).
      pose proof (oloss_derive m (d_n x) (d_inc x) (d_out x) Y (fun _ _ W => W) (fun _ _ => 0%R) (nth j W 0%R) 0 (d_W x)
        (fun u => dval m B (dwith (one id j u) h)) dA H6 Hm D1 HM0 H5 HD') as OD.
      assert (PD : is_derive (fun u => (/ INR m * dpen m B (dwith (one id j u) h))%R) (nth j W 0%R) (/ INR m * dp)%R).
      { eapply d_eq; [apply (d_mult (fun _ => (/ INR m)%R)); [apply d_const|exact D3]|]. ring. }
      eapply d_eq; [eapply d_ext; [|apply (d_plus _ _ _ _ _ OD PD)]|].
      + intros u.
        assert (Mp : Forall (fun q => path (one id j) (done id j) (nth j W 0%R) (fst q)) (und (d_hid x))).
        { pose proof (Mv (d_hid x) eq_refl) as F. clear -F. induction F; constructor; assumption. }
        assert (PWu : dwf i (dwith (one id j u) (d_hid x))). { rewrite und_with. apply (pwith_wf _ (done id j) (nth j W 0%R)); [exact Mp|exact PW]. }
        rewrite OBJ; [|exact PWu|cbn [dset_hid d_hid]; change (map _ (d_hid x)) with (dwith (one id j u) (d_hid x)); rewrite und_with, pwith_neur; exact PI|reflexivity|reflexivity|reflexivity|reflexivity].
        cbn [dset_hid d_hid d_W]. change (map _ (d_hid x)) with (dwith (one id j u) (d_hid x)).
        rewrite (dval_with m B (one id j u) _ _ HSm), (dpen_with m B (one id j u) _ _ HSm). reflexivity.
      + cbv beta zeta. rewrite (bs_0 (d_n x * (d_inc x + 1))) by (intros; ring). rewrite D2. fold z. fold v.
        specialize (D4 v). cbv zeta in D4. specialize (D4 ltac:(unfold v; apply gemm_length)).
        rewrite (bs_0 (m * i)) in D4 by (intros; ring).
        rewrite lsum_grads, (sum_one id j k G _ ND HG) in D4 by congruence.
        apply (Rmult_eq_reg_l (INR m)); [|exact HR]. transitivity (INR m * (INR k * nth j G 0) + 0)%R; [|ring]. rewrite <- D4. field. exact HR. }
  unfold dnet_bprop. cbn [d_hid d_out d_inc d_n d_W d_A d_buf]. cbv zeta.
  rewrite (dbelow_mid i m B h h2 PW' HB HRd HMd), (dsame_val m B _ _ HSm). fold AX.
  assert (LA : length (map (act_f (outp_act (d_out x))) (gemm false true m (d_n x) (d_inc x + 1) 1%R (biased m AX) m (d_W x) (d_n x))) = m * d_n x)
    by (rewrite map_length; apply gemm_length).
  rewrite biased_length, LV, LA, HY. replace (m * d_inc x + m) with (m * (d_inc x + 1)) by lia.
  rewrite !Nat.eqb_refl, (proj2 (Nat.eqb_eq _ _) H5). cbn [andb guard obind].
  rewrite (comb_map (outp_dLdZ (d_out x)) Y _ (m * d_n x) HY LA).
  change (map _ (seq 0 (m * d_n x))) with z. cbv zeta.
  destruct h as [|h b], h2 as [|h2 b2]; try contradiction.
  - rewrite deform_ok by (simpl; lia). cbn [obind]. cbn [dsbprop]. apply FIN. reflexivity.
  - destruct (plain (und (d_hid x))) as [p|] eqn:Ep.
    2: { pose proof (plain_nil _ Ep) as En. destruct (d_hid x); [contradiction|discriminate En]. }
    unfold net_inited, room in *. cbn [dstrip n_hid n_buf] in HRm, HI. fold (und (d_hid x)) in *. rewrite Ep in HRm, HI. destruct HI as (I1 & I2 & I3).
    pose proof (eq_refl : dLdA_size M p = Nat.max 1 (smax_dLdA M p)) as DS.
    assert (HC : forall l1 las1, In (l1, las1) (und (h :: b)) -> inited M l1 /\ max_dLdA M l1 <= dLdA_size M p).
    { apply (dinited_same m B M (dLdA_size M p) (d_hid x) _ HSm). intros l1 las1 Hin. destruct (pinited M _ p Ep I1 l1 las1 Hin). split; [assumption|lia]. }
    assert (HBt : m * i <= dLdA_size M p \/ pbot (und (h :: b)) = false).
    { rewrite (dbot_same m B _ _ HSm), (pbot_plain _ p Ep). destruct (pwf_swf i _ p PW Ep) as (_ & Qi & _). rewrite Qi in HRm. destruct HRm; auto. }
    assert (SZ : m * dneur i (h :: b) <= dLdA_size M p).
    { apply (psize i m M _ _ PW' HM); [|exact HBt]. intros l1 las1 Hin. apply (HC l1 las1 Hin). }
    rewrite PN', PI in SZ. assert (EN : neurons (h_l h2) = d_inc x).
    { rewrite <- PI, <- PN'. exact (dmid_neurons m _ _ HMd i). }
    rewrite EN. rewrite deform_ok by (cbn [b_d]; lia). cbn [obind b_d].
    assert (Sh : shaped m (d_inc x) (mkB m (d_inc x) (fst (d_buf x))) = true) by (apply shaped_iff; auto).
    rewrite Sh. cbn [guard obind]. fold v.
    destruct (put_ok (mkB m (d_inc x) (fst (d_buf x))) v) as (D & P1 & P2 & P3);
      [unfold v; rewrite gemm_length; reflexivity|unfold v; rewrite gemm_length; cbn [b_d]; lia|].
    rewrite P1. cbn [obind b_r b_c b_d] in *.
    apply (dsbprop_ok th thm pool t gw i m M B (dLdA_size M p) Hgw HB Hm HM (h :: b) (h2 :: b2) PW' PT HRd HMd HC HBt).
    + cbn [fst b_d]. congruence.
    + cbn [snd b_d]. congruence.
    + intros _. apply shaped_iff. cbn [bsel fst b_r b_c]. rewrite PN', PI. auto.
    + intros s' arr' G1. apply FIN.
      replace v with (content (bsel false (mkB m (d_inc x) D, mkB 0 0 (snd (d_buf x))))) by exact P3. exact G1.
Qed.
End N.

Section F.
Context (th : lthr) (thd thm : nat) (pool : list prange) (t : tmem).

Lemma dnet_forward m M B i x : net_wf i (dstrip x) -> Forall (drop_ready M) (d_hid x) -> length B = m * i -> 0 < m -> m <= M ->
  dwell_penalised t m (biased m B) x ->
  dnet_fprop th thd pool t true m (biased m B) x (fun x1 =>
    exists L, levels m (biased m B) (d_hid x) = Some L /\
      net_fprop m (seen m (biased m B) (d_hid x) L) (out_only x) = Some (out_only x1)).
Proof.
  intros Hw HDr HB Hm HM HWP.
  pose proof Hw as (H1 & H2 & H3 & H4 & H5 & H6). cbn [dstrip n_hid n_inc n_n n_W n_out n_buf] in *. fold (und (d_hid x)) in *.
  destruct (pwf_plain i (und (d_hid x))) as [PW PN]. { intros p Hp. rewrite Hp in H1. destruct H1 as (G1 & G2 & _). auto. }
  assert (PI : dneur i (d_hid x) = d_inc x).
  { destruct (plain (und (d_hid x))) as [p|] eqn:Ep; [rewrite <- (PN p eq_refl); apply H1|]. rewrite (plain_nil _ Ep). symmetry. exact H1. }
  assert (PO : dok t m B (d_hid x)) by (apply (dok_of i t m M); assumption).
  pose proof (dval_length i m B _ PW HB) as LV. rewrite PI in LV.
  destruct (levels_ok i m B _ PW HB) as (L1 & EL1 & ES1 & _).
  unfold dnet_fprop. apply (dsfprop_ok th thd pool t i m B Hm HB _ PW PO). intros h h2 HSm HRd HMd. cbv zeta.
  destruct (dsame_wf m B i _ _ HSm PW) as [PW' PN'].
  rewrite (dbelow_mid i m B h h2 PW' HB HRd HMd), (dsame_val m B _ _ HSm).
  unfold net_fprop. rewrite biased_length, LV. replace (m * d_inc x + m) with (m * (d_inc x + 1)) by lia.
  rewrite Nat.eqb_refl, (proj2 (Nat.eqb_eq _ _) H5). cbn [andb guard]. exists L1. split; [exact EL1|]. rewrite ES1.
  cbn [out_only n_hid n_inc n_n n_W n_out n_G n_buf obind fst snd]. rewrite biased_length, LV. replace (m * d_inc x + m) with (m * (d_inc x + 1)) by lia.
  rewrite Nat.eqb_refl, (proj2 (Nat.eqb_eq _ _) H5). cbn [andb guard obind]. reflexivity.
Qed.

(** evaluation mode *)
Lemma dsfprop_eval i m B : length B = m * i -> forall s, dwf i s -> forall post : dstack -> Prop,
  (forall s1, map h_las s1 = map h_las s -> map h_do s1 = map h_do s ->
     match plain (und s) with
     | None => s1 = []
     | Some p => exists p', sfprop m (biased m B) p = Some p' /\ plain (und s1) = Some p'
     end -> dbelow m (biased m B) s1 = biased m (pval m B (und s)) -> post s1) ->
  dsfprop th thd pool t false m (biased m B) s post.
Proof.
  intros HB s. induction s as [|h b IH]; intros Hw post HP; [apply HP; reflexivity|].
  destruct Hw as (W1 & W2 & W3). fold (und b) in *. cbn [dsfprop]. apply IH; [exact W2|].
  intros b1 Eb1 Eb2 Eb3 Eb4. rewrite Eb4. pose proof (pval_length i m B (und b) W2 HB) as LP.
  destruct (proj1 fprop_ok (h_l h) m (pval m B (und b)) W1) as (l1 & E & S & Rl); [rewrite LP; f_equal; symmetry; exact W3|]. rewrite E. cbv zeta.
  assert (EA : acts l1 = fval m (pval m B (und b)) (h_l h)) by (rewrite (proj1 acts_ready _ _ _ Rl); apply (proj1 fval_same), S).
  assert (K : post (mkH l1 (h_las h) (h_do h) :: b1)).
  { apply HP.
    - cbn [map h_las]. rewrite Eb1. reflexivity.
    - cbn [map h_do]. rewrite Eb2. reflexivity.
    - cbn [und map plain h_l]. fold (und b) (und b1). pose proof (shown_ok i m B (und b) W2 HB) as SH. destruct (plain (und b)) as [p|] eqn:Ep.
      + destruct Eb3 as (p' & F1 & F2). rewrite F2. destruct SH as (p2 & F3 & _ & F4). rewrite F1 in F3. injection F3 as <-.
        exists (SCons l1 p'). cbn [sfprop]. rewrite F1. cbn [obind]. rewrite F4, E. cbn [obind]. split; reflexivity.
      + subst b1. cbn [und map plain]. exists (SOne l1). cbn [sfprop]. assert (EB : pval m B (und b) = B) by (rewrite SH; reflexivity). rewrite EB in E. rewrite E. split; reflexivity.
    - cbn [dbelow h_l und map pval]. fold (und b). rewrite EA. reflexivity. }
  destruct (h_do h) as [e|]; [|exact K]. cbn [do_apply]. destruct (Rlt_dec (d_p e) 1); exact K.
Qed.

Lemma dnet_eval m B i x : net_wf i (dstrip x) -> length B = m * i ->
  dnet_fprop th thd pool t false m (biased m B) x (fun x1 => net_fprop m (biased m B) (dstrip x) = Some (dstrip x1) /\
    map h_las (d_hid x1) = map h_las (d_hid x) /\ map h_do (d_hid x1) = map h_do (d_hid x)).
Proof.
  intros Hw HB. pose proof Hw as (H1 & H2 & H3 & H4 & H5 & H6). cbn [dstrip n_hid n_inc n_n n_W n_out n_buf] in *. fold (und (d_hid x)) in *.
  destruct (pwf_plain i (und (d_hid x))) as [PW PN]. { intros p Hp. rewrite Hp in H1. destruct H1 as (G1 & G2 & _). auto. }
  assert (PI : dneur i (d_hid x) = d_inc x).
  { destruct (plain (und (d_hid x))) as [p|] eqn:Ep; [rewrite <- (PN p eq_refl); apply H1|]. rewrite (plain_nil _ Ep). symmetry. exact H1. }
  pose proof (pval_length i m B _ PW HB) as LV. rewrite PI in LV.
  unfold dnet_fprop. apply (dsfprop_eval i m B HB _ PW). intros s1 E1 E2 E3 E4. cbv zeta. rewrite E4.
  assert (G : length (biased m (pval m B (und (d_hid x)))) = m * (d_inc x + 1)) by (rewrite biased_length, LV; lia).
  rewrite G, Nat.eqb_refl, (proj2 (Nat.eqb_eq _ _) H5). cbn [andb guard].
  split; [|split; assumption].
  unfold net_fprop, dstrip. cbn [n_hid n_inc n_n n_W n_out n_G n_buf d_hid d_out d_inc d_n d_W d_G d_A d_buf]. fold (und (d_hid x)) (und s1).
  pose proof (shown_ok i m B (und (d_hid x)) PW HB) as SH. destruct (plain (und (d_hid x))) as [p|].
  - destruct E3 as (p' & F1 & F2). destruct SH as (p2 & F3 & _ & F4). rewrite F1 in F3. injection F3 as <-. rewrite F1. cbn [obind fst snd]. rewrite F4, G, Nat.eqb_refl.
    rewrite (proj2 (Nat.eqb_eq _ _) H5). cbn [andb guard obind]. rewrite F2. reflexivity.
  - subst s1. cbn [obind fst snd und map plain]. cbn [dbelow] in E4. rewrite E4, G, Nat.eqb_refl, (proj2 (Nat.eqb_eq _ _) H5). reflexivity.
Qed.
End F.
