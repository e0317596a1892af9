(** The gradients of a whole network, continued. *)
From Coq Require Import Reals Bool Lra.
From Coquelicot Require Import Coquelicot.
From Verif Require Import Base BaseLemmas Act_Model Act_Spec Act_Proofs Loss_Proofs Net_Model Net_Spec Net_Proofs Net_Proofs2 Net_Proofs3 Net_Proofs4.
Local Open Scope nat_scope.

(** activations under the output layer *)
Definition under (m : nat) (B : list R) (h : option stack) : list R := match h with None => B | Some s => sval m B s end.
Definition owf (i inc : nat) (h : option stack) : Prop :=
  match h with None => inc = i | Some s => swf s /\ sincoming s = i /\ sneurons s = inc end.

Lemma under_length m B i inc h : owf i inc h -> length B = m * i -> length (under m B h) = m * inc.
Proof.
  destruct h as [s|]; simpl; [|congruence]. intros (H1 & H2 & H3) HB. rewrite <- H3.
  apply (proj1 (proj2 fval_length)); [exact H1|congruence].
Qed.

Lemma net_fprop_ok m B i x : net_wf i x -> length B = m * i ->
  exists h', net_fprop m (biased m B) x = Some (mkN h' (n_out x) (n_inc x) (n_n x) (n_W x) (n_G x)
      (map (act_f (outp_act (n_out x))) (gemm false true m (n_n x) (n_inc x + 1) 1%R (biased m (under m B (n_hid x))) m (n_W x) (n_n x))) (n_buf x)) /\
    match n_hid x, h' with None, None => True | Some s, Some s' => ssame s s' /\ sready m B s' | _, _ => False end.
Proof.
  intros (H1 & H2 & H3 & H4 & H5 & H6) HB.
  assert (HO : owf i (n_inc x) (n_hid x)) by (destruct (n_hid x); exact H1).
  pose proof (under_length m B i _ _ HO HB) as HL. unfold net_fprop.
  destruct (n_hid x) as [s|]; cbn [under owf obind fst snd] in *.
  - destruct HO as (G1 & G2 & G3).
    destruct (proj1 (proj2 fprop_ok) s m B G1) as (s' & E & Q1 & Q2); [congruence|].
    rewrite E. cbn [obind fst snd].
    rewrite (proj1 (proj2 acts_ready) _ _ _ Q2), (proj1 (proj2 fval_same) _ _ Q1).
    rewrite biased_length, HL. replace (m * n_inc x + m) with (m * (n_inc x + 1)) by lia.
    rewrite Nat.eqb_refl, (proj2 (Nat.eqb_eq _ _) H5). cbn [andb guard obind].
    eexists. split; [reflexivity|]. split; assumption.
  - rewrite biased_length, HL. replace (m * n_inc x + m) with (m * (n_inc x + 1)) by lia.
    rewrite Nat.eqb_refl, (proj2 (Nat.eqb_eq _ _) H5). cbn [andb guard obind].
    eexists. split; [reflexivity|]. exact I.
Qed.

Lemma mean_loss_eq m B i Y x : net_wf i x -> length B = m * i ->
  mean_loss m (biased m B) Y x = oloss m (n_n x) (n_inc x) (n_out x) Y (under m B (n_hid x)) (n_W x).
Proof.
  intros Hw HB. unfold mean_loss. destruct (net_fprop_ok m B i x Hw HB) as (h' & -> & _). cbn [n_A]. reflexivity.
Qed.

(** ** Backward pass *)
Lemma gw_ok_fst gw W g : gw_ok gw -> length g = length W -> length (fst (gw W g)) = length W.
Proof. intros H E. apply H. exact E. Qed.

Lemma comb_map (F : R -> R -> R) (a b : list R) n : length a = n -> length b = n ->
  map (fun q => F (fst q) (snd q)) (combine a b) = map (fun q => F (nth q a 0%R) (nth q b 0%R)) (seq 0 n).
Proof.
  intros Ha Hb. apply nth_ext0.
  - rewrite !map_length, combine_length, seq_length. lia.
  - rewrite map_length, combine_length. intros q Hq. rewrite nth_map_seq by lia. apply nth_comb; lia.
Qed.

Lemma net_bprop_ok gw gwo m M B i Y x x1 : (forall id, gw_ok (gw id)) -> net_wf i x -> net_inited M x -> room m M x ->
  length B = m * i -> length Y = m * n_n x -> 0 < m -> m <= M ->
  net_fprop m (biased m B) x = Some x1 ->
  exists x2, net_bprop gw gwo m (biased m B) Y x1 = Some x2 /\
    option_map sbare (n_hid x2) = option_map sbare (net_pback gw m (biased m B) Y x1) /\
    n_G x2 = gemm true false (n_n x) (n_inc x + 1) m (1 / INR m)%R (dLdZ_out Y x1) m (biased m (under m B (n_hid x1))) m /\
    match n_hid x, n_hid x2 with None, None => True | Some s, Some s' => ssim s s' | _, _ => False end /\
    length (fst (n_buf x2)) = length (fst (n_buf x)) /\ length (snd (n_buf x2)) = length (snd (n_buf x)) /\
    n_out x2 = n_out x /\ n_inc x2 = n_inc x /\ n_n x2 = n_n x /\ n_W x2 = fst (gwo (n_W x) (n_G x2)).
Proof.
  intros Hgw Hw HI HRm HB HY Hm HM EF.
  destruct (net_fprop_ok m B i x Hw HB) as (h' & EF2 & HH). rewrite EF2 in EF. injection EF as <-. clear EF2.
  destruct Hw as (H1 & H2 & H3 & H4 & H5 & H6). unfold net_inited, room in *. pose proof (fun M s => eq_refl : dLdA_size M s = Nat.max 1 (smax_dLdA M s)) as DS.
  assert (LA : forall l, length (map (act_f (outp_act (n_out x))) (gemm false true m (n_n x) (n_inc x + 1) 1%R l m (n_W x) (n_n x))) = m * n_n x)
    by (intros; rewrite map_length; apply gemm_length).
  unfold net_bprop, net_pback, dLdZ_out. cbn [n_hid n_out n_inc n_n n_W n_A n_buf].
  destruct (n_hid x) as [s|] eqn:Ex, h' as [s'|]; try contradiction.
  - destruct HH as [Q1 Q2]. destruct H1 as (G1 & G2 & G3). destruct HI as (I1 & I2 & I3).
    destruct same_neurons as (_ & N2 & _). destruct same_incoming as (_ & Ic2 & _). destruct same_max as (_ & X2 & _).
    destruct same_bottom as (_ & B2 & _).
    pose proof (DS M s) as DSs. assert (C : m * sneurons s <= dLdA_size M s).
    { destruct HRm as [HRm|HRm].
      - pose proof (proj1 (proj2 size_key2) s G1 HRm m M HM). lia.
      - pose proof (proj1 (proj2 size_key) s G1 m M HM). lia. }
    cbn [under].
    rewrite (proj1 (proj2 acts_ready) _ _ _ Q2).
    assert (LS : length (sval m B s') = m * n_inc x).
    { rewrite (proj1 (proj2 fval_same) _ _ Q1), <- G3. apply (proj1 (proj2 fval_length)); [exact G1|congruence]. }
    rewrite (N2 _ _ Q1). rewrite deform_ok by (cbn [b_d]; lia). cbn [obind b_d].
    rewrite biased_length, LS, LA, HY. replace (m * n_inc x + m) with (m * (n_inc x + 1)) by lia.
    rewrite !Nat.eqb_refl, (proj2 (Nat.eqb_eq _ _) H5). cbn [andb guard obind].
    rewrite (comb_map (outp_dLdZ (n_out x)) Y _ (m * n_n x) HY (LA _)).
    set (z := map _ (seq 0 (m * n_n x))).
    assert (Sh : shaped m (n_inc x) (mkB m (sneurons s) (fst (n_buf x))) = true) by (apply shaped_iff; auto).
    rewrite Sh. cbn [guard obind].
    destruct (put_ok (mkB m (sneurons s) (fst (n_buf x))) (gemm false false m (n_inc x) (n_n x) 1%R z m (n_W x) (n_n x))) as (D & P1 & P2 & P3);
      [rewrite gemm_length; simpl; congruence|rewrite gemm_length; simpl; rewrite <- G3; lia|].
    rewrite P1. cbn [obind b_r b_c b_d] in *.
    destruct (proj1 (proj2 bprop_ok) s' m M B gw false (mkB m (sneurons s) D, mkB 0 0 (snd (n_buf x))) false (dLdA_size M s) Hgw)
      as (s2 & [a0 a1] & idx & E & E1 & E2 & E3 & E4 & _); try assumption.
    { apply (proj1 (proj2 same_wf) s); assumption. }
    { apply (proj1 (proj2 same_inited) s); assumption. }
    { rewrite (Ic2 _ _ Q1). congruence. }
    { cbn [fst b_d]. congruence. }
    { apply shaped_iff. rewrite (N2 _ _ Q1). auto. }
    { rewrite (X2 _ _ Q1), (N2 _ _ Q1), (Ic2 _ _ Q1), (B2 _ _ Q1). split; [lia|]. split; [exact C|]. split; [discriminate|]. destruct HRm; auto. }
    rewrite E. cbn [obind]. eexists. split; [reflexivity|]. cbn [n_hid n_G n_buf fst snd option_map].
    assert (Ec : content (bsel false (mkB m (sneurons s) D, mkB 0 0 (snd (n_buf x)))) = gemm false false m (n_inc x) (n_n x) 1%R z m (n_W x) (n_n x)) by exact P3.
    rewrite Ec in E1. rewrite E1. split; [reflexivity|]. split; [reflexivity|]. split; [|split; [simpl in *; congruence|]; split; [simpl in *; congruence|auto]].
    assert (Tr : (forall l a b, sim l a -> sim a b -> sim l b) /\ (forall s a b, ssim s a -> ssim a b -> ssim s b) /\ (forall h a b, hsim h a -> hsim a b -> hsim h b)).
    { clear. apply layers_ind.
      - intros id a inc n W G A [] [] K1 K2; try contradiction. simpl in *. intuition congruence.
      - intros n A [] [] K1 K2; try contradiction. simpl in *. congruence.
      - intros s IH [] [] K1 K2; try contradiction. simpl in *. eauto.
      - intros inc h IH b1 b2 [] [] K1 K2; try contradiction. simpl in *. destruct K1 as (-> & ? & -> & ->). destruct K2 as (-> & ? & -> & ->). eauto 8.
      - intros k l IH inn A [] [] K1 K2; try contradiction. simpl in *. destruct K1 as [-> ?]. destruct K2 as [-> ?]. eauto.
      - intros l IH [] [] K1 K2; try contradiction. simpl in *. eauto.
      - intros l IH b IHb [] [] K1 K2; try contradiction. simpl in *. destruct K1, K2. eauto.
      - intros [] [] K1 K2; try contradiction. exact I.
      - intros o c l IH h IHh [] [] K1 K2; try contradiction. simpl in *. destruct K1 as (-> & -> & ? & ?). destruct K2 as (-> & -> & ? & ?). eauto 8. }
    apply (proj1 (proj2 Tr) _ s'); [|exact E2]. apply (proj1 (proj2 same_sim)). exact Q1.
  - cbn [under]. rewrite deform_ok by (simpl; lia). cbn [obind b_d].
    rewrite biased_length, HB, LA, HY, H1. replace (m * i + m) with (m * (i + 1)) by lia.
    rewrite !Nat.eqb_refl. rewrite H1 in H5. rewrite (proj2 (Nat.eqb_eq _ _) H5). cbn [andb guard obind].
    rewrite H1 in LA.
    rewrite (comb_map (outp_dLdZ (n_out x)) Y _ (m * n_n x) HY (LA _)).
    eexists. split; [reflexivity|]. cbn [n_hid n_G n_buf n_out n_inc n_n n_W fst snd]. auto 12.
Qed.

(** ** Gradients *)
Lemma net_gradient gw gwo m M B i Y x : (forall id, gw_ok (gw id)) -> net_wf i x -> net_inited M x -> room m M x ->
  length B = m * i -> length Y = m * n_n x -> 0 < m -> m <= M -> NoDup (map fid (nfcs x)) -> net_smooth m (biased m B) Y x ->
  exists x1 x2, net_fprop m (biased m B) x = Some x1 /\ net_bprop gw gwo m (biased m B) Y x1 = Some x2 /\
    length (n_G x2) = length (n_W x) /\
    (forall j, j < length (n_W x) ->
      is_derive (fun v => mean_loss m (biased m B) Y (set_out j v x)) (nth j (n_W x) 0%R) (nth j (n_G x2) 0%R)) /\
    map tagged (ngrads x2) = map tagged (nfcs x) /\
    (forall id k W G, In (id, k, W) (nfcs x) -> In (id, k, G) (ngrads x2) -> forall j, j < length W ->
      is_derive (fun v => mean_loss m (biased m B) Y (set_hid id j v x)) (nth j W 0%R) (INR k * nth j G 0)%R).
Proof.
  intros Hgw Hw HI HRm HB HY Hm HM HN (P0 & HS & HD).
  destruct (net_fprop_ok m B i x Hw HB) as (h' & EF & HH).
  assert (HO : owf i (n_inc x) (n_hid x)) by (destruct Hw as (H1 & _); destruct (n_hid x); exact H1).
  pose proof Hw as (_ & H2 & H3 & H4 & H5 & H6).
  assert (HR : INR m <> 0%R) by (apply not_0_INR; lia).
  destruct (net_bprop_ok gw gwo m M B i Y x _ Hgw Hw HI HRm HB HY Hm HM EF) as (x2 & EB & EG & EGo & _).
  eexists _, x2. split; [exact EF|]. split; [exact EB|].
  cbn [n_hid n_A] in EGo, EG.
  set (AX := under m B (n_hid x)) in *.
  assert (EU : under m B h' = AX).
  { unfold AX. destruct (n_hid x), h'; try contradiction; [|reflexivity]. simpl. apply (proj1 (proj2 fval_same)). apply HH. }
  rewrite EU in EGo.
  assert (EP : P0 = biased m AX).
  { unfold AX. destruct (n_hid x) as [s|]; [|exact HS]. destruct HS as [_ (s' & E & ->)]. destruct HO as (G1 & G2 & G3).
    destruct (proj1 (proj2 fprop_ok) s m B G1) as (s2 & E' & Q1 & Q2); [congruence|]. rewrite E' in E. injection E as ->.
    rewrite (proj1 (proj2 acts_ready) _ _ _ Q2), (proj1 (proj2 fval_same) _ _ Q1). reflexivity. }
  subst P0.
  set (z := oz m (n_n x) (n_inc x) (n_out x) Y AX (n_W x)).
  assert (EZ : dLdZ_out Y (mkN h' (n_out x) (n_inc x) (n_n x) (n_W x) (n_G x)
     (map (act_f (outp_act (n_out x))) (gemm false true m (n_n x) (n_inc x + 1) 1%R (biased m AX) m (n_W x) (n_n x))) (n_buf x)) = z).
  { unfold dLdZ_out, z, oz. cbn [n_out n_A]. rewrite map_length, gemm_length. reflexivity. }
  rewrite EZ in EGo.
  assert (LB : forall x0, dpath x0 (m * i) (fun _ : R => B) (fun _ => 0%R)) by (intros; split; [intros; exact HB|intros; apply d_const]).
  assert (LG : length (n_G x2) = length (n_W x)) by (rewrite EGo, gemm_length; congruence).
  split; [exact LG|]. split; [|split].
  - intros j Hj.
    assert (HM1 : moves (one 0 j) (done 0 j) (nth j (n_W x) 0%R) 0 (n_W x)) by (apply one_moves; auto).
    assert (LX : dpath (nth j (n_W x) 0%R) (m * n_inc x) (fun _ : R => AX) (fun _ => 0%R)).
    { split; [intros; apply (under_length m B i); assumption|intros; apply d_const]. }
    eapply d_eq; [eapply d_ext; [|apply (oloss_derive m (n_n x) (n_inc x) (n_out x) Y (one 0 j) (done 0 j) (nth j (n_W x) 0%R) 0 (n_W x) (fun _ => AX) (fun _ => 0%R) H6 Hm LX HM1 H5 HD)]|].
    + intros t. symmetry. rewrite (mean_loss_eq m B i); [reflexivity| |exact HB].
      split; [exact (proj1 Hw)|]. repeat (split; [solve [auto]|]). cbn [set_out n_W n_n n_inc n_out]. split; [|exact H6].
      rewrite setn_length; assumption.
    + cbv beta zeta. fold z. rewrite <- EGo. rewrite (bs_0 (m * n_inc x)) by (intros; ring).
      rewrite (bs_ext _ _ (fun q => if Nat.eqb q j then nth q (n_G x2) 0%R else 0%R)).
      * rewrite (bs_single _ j (fun q => nth q (n_G x2) 0%R)) by congruence. ring.
      * intros q Hq. unfold done. rewrite Nat.eqb_refl. destruct (Nat.eqb q j); ring.
  - unfold nfcs, ngrads. unfold net_pback in EG. cbn [n_hid n_inc n_n n_W] in EG. rewrite EZ in EG.
    destruct (n_hid x) as [s|] eqn:Ex, h' as [s'|]; try contradiction.
    + destruct HH as [Q1 Q2]. cbn [option_map] in EG. destruct (n_hid x2) as [s2|]; [|discriminate]. cbn [option_map] in EG. injection EG as EG.
      rewrite <- (proj1 (proj2 grads_bare)), EG, (proj1 (proj2 grads_bare)).
      rewrite (proj1 (proj2 (grads_fcs gw))) by (apply (proj1 (proj2 same_wf) s); [exact Q1|apply HO]).
      rewrite (proj1 (proj2 fcs_same) _ _ Q1). reflexivity.
    + destruct (n_hid x2); [discriminate|]. reflexivity.
  - intros id k W G HW HG j Hj. unfold nfcs in *. unfold ngrads in HG. unfold net_pback in EG. cbn [n_hid n_inc n_n n_W] in EG. rewrite EZ in EG.
    destruct (n_hid x) as [s|] eqn:Ex; [|contradiction]. destruct h' as [s'|]; [|contradiction].
    destruct HH as [Q1 Q2]. cbn [option_map] in EG. destruct (n_hid x2) as [s2|]; [|discriminate]. cbn [option_map] in EG. injection EG as EG.
    destruct HO as (G1 & G2 & G3). destruct HS as [HS _].
    rewrite <- (proj1 (proj2 grads_bare)), EG, (proj1 (proj2 grads_bare)) in HG.
    assert (W' : swf s') by (apply (proj1 (proj2 same_wf) s); assumption).
    set (v := gemm false false m (n_inc x) (n_n x) 1%R z m (n_W x) (n_n x)) in *.
    pose proof (proj1 (proj2 (grads_fcs gw)) s' 1 m (biased m B) v W') as ET. rewrite (proj1 (proj2 fcs_same) _ _ Q1) in ET.
    assert (Tfid : forall l : list (nat * nat * list R), map fid l = map (fun q : nat * nat * nat => fst (fst q)) (map tagged l))
      by (intros l; rewrite map_map; reflexivity).
    assert (ND : NoDup (map fid (sgrads 1 (fst (spback gw m (biased m B) v s'))))) by (rewrite Tfid, ET, <- Tfid; exact HN).
    assert (LGj : length G = length W).
    { assert (T1 : In (tagged (id, k, G)) (map tagged (sfcs 1 s))) by (rewrite <- ET; apply in_map; exact HG).
      apply in_map_iff in T1. destruct T1 as ([[id' k'] W2] & T1 & T2). unfold tagged in T1. cbn [fst snd] in T1. injection T1 as -> -> T3.
      destruct (nodup_fid _ _ _ _ _ _ HN HW T2) as [_ ->]. congruence. }
    assert (HPth : spath (one id j) (done id j) (nth j W 0%R) s').
    { apply (proj1 (proj2 (path_of (one id j) (done id j) (nth j W 0%R))) s' 1). rewrite (proj1 (proj2 fcs_same) _ _ Q1).
      intros i0 k0 W0 H0. apply one_moves; [|exact Hj]. intros ->. destruct (nodup_fid _ _ _ _ _ _ HN HW H0) as [_ ->]. reflexivity. }
    destruct (proj1 (proj2 (adjoint (one id j) (done id j) (nth j W 0%R) gw)) s' m (fun _ => B) (fun _ => 0%R) W' HPth Hm) as (dA & D1 & D2 & D3).
    { rewrite (proj1 (proj2 same_incoming) _ _ Q1), G2. apply LB. } { exact Q2. }
    { apply (proj1 (proj2 smooth_same) s); assumption. }
    rewrite (proj1 (proj2 same_neurons) _ _ Q1), G3 in D1, D3.
    assert (Esv : sval m B s' = AX) by exact EU.
    assert (HM0 : moves (fun _ _ W => W) (fun _ _ => 0%R) (nth j W 0%R) 0 (n_W x))
      by (split; [reflexivity|]; split; [reflexivity|]; intros; apply d_const).
    assert (HD' : forall r c, r < m -> c < n_n x -> loss_domain (n_out x) (nth (m * c + r) Y 0%R)
       (net_input m (n_n x) (n_inc x) (biased m (sval m B (swith_w (one id j (nth j W 0%R)) s'))) (n_W x) r c))
      by (rewrite D2, Esv; exact HD).
    pose proof (oloss_derive m (n_n x) (n_inc x) (n_out x) Y (fun _ _ W => W) (fun _ _ => 0%R) (nth j W 0%R) 0 (n_W x)
      (fun t => sval m B (swith_w (one id j t) s')) dA H6 Hm D1 HM0 H5 HD') as OD.
    eapply d_eq; [eapply d_ext; [|exact OD]|].
    + intros t. symmetry. rewrite (mean_loss_eq m B i); [|split; [|cbn [set_hid n_inc n_n n_W n_out]; auto 8]|exact HB].
      * cbn [set_hid n_hid n_n n_inc n_out n_W option_map under]. rewrite Ex. cbn [option_map under].
        f_equal. symmetry. apply (proj1 (proj2 fval_same)). apply (proj1 (proj2 (with_w_same _))). exact Q1.
      * cbn [set_hid n_hid n_inc]. rewrite Ex. cbn [option_map].
        change (fun i W0 => if i =? id then setn j t W0 else W0) with (one id j t).
        rewrite (proj1 (proj2 (with_w_incoming _))), (proj1 (proj2 (with_w_neurons _))).
        split; [|auto]. apply (proj1 (proj2 (with_w_wf (one id j) (done id j) (nth j W 0%R) t))); [|exact G1].
        apply (proj1 (proj2 (path_of (one id j) (done id j) (nth j W 0%R))) s 1).
        intros i0 k0 W0 H0. apply one_moves; [|exact Hj]. intros ->. destruct (nodup_fid _ _ _ _ _ _ HN HW H0) as [_ ->]. reflexivity.
    + cbv beta zeta. rewrite (bs_0 (n_n x * (n_inc x + 1))) by (intros; ring). rewrite D2, Esv. fold z. fold v.
      specialize (D3 v). cbv zeta in D3. rewrite D3 by (unfold v; apply gemm_length).
      rewrite (bs_0 (m * sincoming s')) by (intros; ring).
      pose proof (proj1 (proj2 (gsum_grads (done id j))) (fst (spback gw m (biased m B) v s')) 1) as GS.
      rewrite (sum_one id j k G _ ND HG) in GS by congruence. simpl INR in GS. rewrite Rmult_1_l in GS. rewrite GS. field. exact HR.
Qed.

(** ** Too small buffers *)
Lemma bprop_none :
  (forall l m M B gw hp d e c, (forall id, gw_ok (gw id)) -> wf l -> inited M l -> ready m B l ->
    length B = m * incoming l -> 0 < m -> m <= M -> length (b_d d) = c -> length (b_d e) = c -> max_dLdA M l <= c ->
    m * neurons l <= c -> bottom_id l = true -> c < m * incoming l -> shaped m (neurons l) d = true ->
    bprop gw m (biased m B) hp d e l = None) /\
  (forall s m M B gw hp arr idx c, (forall id, gw_ok (gw id)) -> swf s -> sinited M s -> sready m B s ->
    length B = m * sincoming s -> 0 < m -> m <= M -> length (b_d (fst arr)) = c -> length (b_d (snd arr)) = c -> smax_dLdA M s <= c ->
    m * sneurons s <= c -> sbottom_id s = true -> c < m * sincoming s -> shaped m (sneurons s) (bsel idx arr) = true ->
    sbprop gw m (biased m B) hp arr idx s = None) /\
  (forall h : hpack, True).
Proof.
  destruct fval_length as (L1 & L2 & L3). destruct acts_ready as (A1 & A2 & A3).
  apply layers_ind; try (intros; exact I).
  - intros. discriminate.
  - intros n A m M B gw hp d e c _ _ _ _ HB Hm HM Hd He F1 F2 _ F3. simpl in *. lia.
  - intros s IH m M B gw hp d e c Hgw Hw Hi HR HB Hm HM Hd He F1 F2 HBt F3 Sd. cbn [bprop].
    rewrite (IH m M B gw hp (d, e) false c); auto.
  - intros. discriminate.
  - intros. discriminate.
  - intros l IH m M B gw hp arr idx c Hgw Hw Hi HR HB Hm HM Hd He F1 F2 HBt F3 Sd. cbn [sbprop].
    assert (Hl : forall i, length (b_d (bsel i arr)) = c) by (intros [|]; assumption).
    destruct (if hp then deform m (incoming l) (bsel (negb idx) arr) else deform 0 0 (bsel (negb idx) arr)) as [nxt|] eqn:E; [|reflexivity].
    cbn [obind]. rewrite (IH m M B gw hp (bsel idx arr) nxt c); auto.
    unfold deform in E. destruct hp; destruct (_ <=? _) in E; cbn [guard obind] in E; try discriminate; injection E as <-; apply Hl.
  - intros l IH b IHb m M B gw hp arr idx c Hgw (W1 & W2 & W3) [I1 I2] [R1 R2] HB Hm HM Hd He F1 F2 HBt F3 Sd.
    cbn [sbprop sneurons sincoming smax_dLdA sbottom_id] in *.
    assert (Hl : forall i, length (b_d (bsel i arr)) = c) by (intros [|]; assumption).
    destruct (Nat.le_gt_cases (m * sneurons b) c) as [C|C].
    + rewrite deform_ok by (rewrite Hl; exact C). cbn [obind]. rewrite (A2 _ _ _ R1).
      destruct (proj1 bprop_ok l m M (sval m B b) gw true (bsel idx arr) (mkB m (sneurons b) (b_d (bsel (negb idx) arr))) c Hgw W1 I1 R2)
        as (l' & d' & e' & sw & E & E1 & E2 & E3 & E4 & E5); try assumption.
      { rewrite W3. apply L2; assumption. } { apply Hl. } { apply Hl. }
      { intros _. apply shaped_iff. rewrite W3. auto. }
      { rewrite W3. split; [lia|]. split; [lia|]. split; [intros _; exact C|left; exact C]. }
      rewrite E. cbn [obind]. destruct (E5 eq_refl) as [X1 X2].
      rewrite (IHb m M B gw hp (barr idx d' e') (xorb idx sw) c); auto; try lia; try (destruct idx; assumption).
      rewrite bsel_xor, <- W3. exact X1.
    + unfold deform. rewrite Hl, (proj2 (Nat.leb_gt _ _) C). reflexivity.
Qed.

Lemma net_bprop_none gw gwo m M B i Y x x1 : (forall id, gw_ok (gw id)) -> net_wf i x -> net_inited M x -> ~ room m M x ->
  length B = m * i -> length Y = m * n_n x -> 0 < m -> m <= M ->
  net_fprop m (biased m B) x = Some x1 -> net_bprop gw gwo m (biased m B) Y x1 = None.
Proof.
  intros Hgw Hw HI HRm HB HY Hm HM EF.
  destruct (net_fprop_ok m B i x Hw HB) as (h' & EF2 & HH). rewrite EF2 in EF. injection EF as <-. clear EF2.
  destruct Hw as (H1 & H2 & H3 & H4 & H5 & H6). unfold net_inited, room in *. pose proof (fun M s => eq_refl : dLdA_size M s = Nat.max 1 (smax_dLdA M s)) as DS.
  destruct (n_hid x) as [s|] eqn:Ex; [|tauto]. destruct h' as [s'|]; [|contradiction].
  destruct HH as [Q1 Q2]. destruct H1 as (G1 & G2 & G3). destruct HI as (I1 & I2 & I3).
  destruct same_neurons as (_ & N2 & _). destruct same_incoming as (_ & Ic2 & _). destruct same_max as (_ & X2 & _).
  destruct same_bottom as (_ & B2 & _).
  assert (Hb : sbottom_id s = true) by (destruct (sbottom_id s); tauto).
  pose proof (DS M s) as DSs. assert (Hc : dLdA_size M s < m * sincoming s) by (destruct (Nat.le_gt_cases (m * sincoming s) (dLdA_size M s)); tauto).
  unfold net_bprop. cbn [n_hid n_out n_inc n_n n_W n_A n_buf].
  rewrite (N2 _ _ Q1).
  destruct (Nat.le_gt_cases (m * sneurons s) (dLdA_size M s)) as [C|C].
  - rewrite deform_ok by (cbn [b_d]; lia). cbn [obind b_d].
    destruct (guard _); [|reflexivity]. cbn [obind].
    assert (Sh : shaped m (n_inc x) (mkB m (sneurons s) (fst (n_buf x))) = true) by (apply shaped_iff; auto).
    rewrite Sh. cbn [guard obind].
    set (v := gemm false false m (n_inc x) (n_n x) 1%R _ m (n_W x) (n_n x)).
    destruct (put_ok (mkB m (sneurons s) (fst (n_buf x))) v) as (D & P1 & P2 & P3);
      [unfold v; rewrite gemm_length; simpl; congruence|unfold v; rewrite gemm_length; simpl; rewrite <- G3; lia|].
    rewrite P1. cbn [obind b_r b_c b_d] in *.
    rewrite (proj1 (proj2 bprop_none) s' m M B gw false (mkB m (sneurons s) D, mkB 0 0 (snd (n_buf x))) false (dLdA_size M s) Hgw); auto.
    + apply (proj1 (proj2 same_wf) s); assumption.
    + apply (proj1 (proj2 same_inited) s); assumption.
    + rewrite (Ic2 _ _ Q1). congruence.
    + cbn [fst b_d]. congruence.
    + rewrite (X2 _ _ Q1). lia.
    + rewrite (N2 _ _ Q1). exact C.
    + rewrite (B2 _ _ Q1). exact Hb.
    + rewrite (Ic2 _ _ Q1). exact Hc.
    + apply shaped_iff. rewrite (N2 _ _ Q1). auto.
  - unfold deform at 1. cbn [b_d]. rewrite (proj2 (Nat.leb_gt _ _)) by lia. reflexivity.
Qed.

(** ** Sessions *)
Lemma net_sim_keep M i x x2 : net_wf i x -> net_inited M x ->
  match n_hid x, n_hid x2 with None, None => True | Some s, Some s' => ssim s s' | _, _ => False end ->
  length (fst (n_buf x2)) = length (fst (n_buf x)) -> length (snd (n_buf x2)) = length (snd (n_buf x)) ->
  n_out x2 = n_out x -> n_inc x2 = n_inc x -> n_n x2 = n_n x -> length (n_W x2) = length (n_W x) ->
  net_wf i x2 /\ net_inited M x2 /\ forall m, room m M x -> room m M x2.
Proof.
  intros (H1 & H2 & H3 & H4 & H5 & H6) HI HH B1 B2 E1 E2 E3 E4. unfold net_wf, net_inited, room, dLdA_size in *. rewrite E1, E2, E3, E4, B1, B2.
  destruct (n_hid x) as [s|], (n_hid x2) as [s2|]; try contradiction; [|auto 9].
  destruct H1 as (G1 & G2 & G3). destruct HI as (I1 & I2 & I3).
  rewrite (proj1 (proj2 sim_incoming) _ _ HH), (proj1 (proj2 sim_neurons) _ _ HH), (proj1 (proj2 sim_max) _ _ HH), (proj1 (proj2 sim_bottom) _ _ HH).
  pose proof (proj1 (proj2 sim_wf) _ _ HH G1). pose proof (proj1 (proj2 sim_inited) _ _ HH M I1). auto 12.
Qed.
Lemma room_le m M x : m <= M -> room M M x -> room m M x.
Proof. intros H. unfold room. destruct (n_hid x); [|auto]. intros [|K]; [auto|]. right. pose proof (Nat.mul_le_mono_r m M (sincoming s) H). lia. Qed.

Lemma session_ok M i steps : forall x, net_wf i x -> net_inited M x -> room M M x -> Forall (step_ok M i (n_n x)) steps ->
  exists x', session steps x = Some x' /\ net_wf i x' /\ net_inited M x'.
Proof.
  induction steps as [|st steps IH]; intros x Hw HI HRm HS; [exists x; auto|].
  inversion HS as [|? ? (S1 & S2 & [S3 S3'] & S4 & S5) HS']; subst. cbn [session].
  destruct (net_fprop_ok (s_m st) (s_X st) i x Hw S4) as (h' & EF & HH).
  destruct (net_bprop_ok (s_gw st) (s_gwo st) (s_m st) M (s_X st) i (s_Y st) x _ S1 Hw HI (room_le _ _ _ S3' HRm) S4 S5 S3 S3' EF)
    as (x2 & EB & _ & EG & K1 & K2 & K3 & K4 & K5 & K6 & K7).
  rewrite EF. cbn [obind]. rewrite EB. cbn [obind].
  assert (LW : length (n_W x2) = length (n_W x)).
  { rewrite K7. apply gw_ok_fst; [exact S2|]. rewrite EG, gemm_length. symmetry. apply Hw. }
  destruct (net_sim_keep M i x x2 Hw HI K1 K2 K3 K4 K5 K6 LW) as (Q1 & Q2 & Q3).
  apply IH; [exact Q1|exact Q2|apply Q3; exact HRm|]. rewrite K6. exact HS'.
Qed.

(** ** Activations without kinks *)
Fixpoint all_smooth (l : layer) : Prop :=
  match l with
  | LFC _ a _ _ _ _ _ => smooth a
  | LI _ _ => True
  | LPV s => sall_smooth s
  | LPH _ h _ _ => hall_smooth h
  | LPT _ l _ _ => all_smooth l
  end
with sall_smooth (s : stack) : Prop := match s with SOne l => all_smooth l | SCons l b => all_smooth l /\ sall_smooth b end
with hall_smooth (h : hpack) : Prop := match h with HNil => True | HCons _ _ l h => all_smooth l /\ hall_smooth h end.

Lemma smooth_all : (forall l m B, wf l -> all_smooth l -> length B = m * incoming l -> smooth_at m (biased m B) l) /\
  (forall s m B, swf s -> sall_smooth s -> length B = m * sincoming s -> ssmooth_at m (biased m B) s) /\
  (forall h m B inc, hwf inc h -> hall_smooth h -> length B = m * inc -> hsmooth_at m inc (biased m B) h).
Proof.
  destruct fval_length as (L1 & L2 & L3). destruct acts_ready as (A1 & A2 & A3). destruct fval_same as (S1 & S2 & S3).
  apply layers_ind.
  - intros id a inc n W G A m B (_ & _ & _ & Ha) Hs _. cbn [smooth_at]. intros r c _ _. eexists. apply smooth_derive; [exact Ha|exact Hs].
  - intros; exact I.
  - intros s IH m B H Hs HB. apply IH; assumption.
  - intros inc h IH b1 b2 m B [_ H] Hs HB. apply IH; assumption.
  - intros k l IH inn A m B [_ H] Hs HB. cbn [smooth_at incoming] in *. apply IH; [exact H|exact Hs|]. rewrite roll_length. lia.
  - intros l IH m B H Hs HB. apply IH; assumption.
  - intros l IH b IHb m B (H1 & H2 & H3) [Hs1 Hs2] HB. cbn [sincoming] in HB. split; [apply IHb; assumption|].
    destruct (proj1 (proj2 fprop_ok) b m B H2 HB) as (b' & E & Q1 & Q2). exists b'. split; [exact E|].
    rewrite (A2 _ _ _ Q2), (S2 _ _ Q1). apply IH; [exact H1|exact Hs1|]. rewrite H3. apply L2; assumption.
  - intros; exact I.
  - intros o c l IH h IHh m B inc (H1 & H2 & H3 & H4) [Hs1 Hs2] HB. split; [|apply IHh; assumption].
    rewrite slice_biased by nia. apply IH; [exact H1|exact Hs1|]. rewrite H2. apply slice_length. nia.
Qed.
Lemma net_smooth_all m B i Y x : net_wf i x -> length B = m * i -> match n_hid x with None => True | Some s => sall_smooth s end ->
  (forall y z, loss_domain (n_out x) y z) -> net_smooth m (biased m B) Y x.
Proof.
  intros (H1 & _) HB Hs HD. unfold net_smooth. destruct (n_hid x) as [s|].
  - destruct H1 as (G1 & G2 & G3).
    destruct (proj1 (proj2 fprop_ok) s m B G1) as (s' & E & _ & _); [congruence|].
    eexists. split; [split; [apply (proj1 (proj2 smooth_all)); [exact G1|exact Hs|congruence]|exists s'; split; [exact E|reflexivity]]|]. intros; apply HD.
  - eexists. split; [reflexivity|]. intros; apply HD.
Qed.

(** ** Forms used for the theorems *)
Lemma net_gradient_tiled gw gwo m M B i Y x :
  (forall id, gw_ok (gw id)) -> net_wf i x -> net_inited M x -> room m M x -> NoDup (map fid (nfcs x)) ->
  length B = m * i -> length Y = m * n_n x -> 0 < m <= M -> net_smooth m (biased m B) Y x ->
  exists x1 x2, net_fprop m (biased m B) x = Some x1 /\ net_bprop gw gwo m (biased m B) Y x1 = Some x2 /\
    forall id k W, In (id, k, W) (nfcs x) -> exists G, In (id, k, G) (ngrads x2) /\ length G = length W /\
      forall j, j < length W ->
        is_derive (fun v => mean_loss m (biased m B) Y (set_hid id j v x)) (nth j W 0%R) (INR k * nth j G 0)%R.
Proof.
  intros H1 H2 H3 H4 H5 H6 H7 [H8 H9] H10.
  destruct (net_gradient gw gwo m M B i Y x H1 H2 H3 H4 H6 H7 H8 H9 H5 H10) as (x1 & x2 & E1 & E2 & _ & _ & ET & E3).
  exists x1, x2. split; [exact E1|]. split; [exact E2|]. intros id k W HW.
  assert (T : In (tagged (id, k, W)) (map tagged (ngrads x2))) by (rewrite ET; apply in_map; exact HW).
  apply in_map_iff in T. destruct T as ([[id' k'] G] & T1 & T2). unfold tagged in T1. cbn [fst snd] in T1. injection T1 as -> -> T3.
  exists G. split; [exact T2|]. split; [exact T3|]. apply (E3 id k W G HW T2).
Qed.

Lemma net_gradient_untiled gw gwo m M B i Y x :
  (forall id, gw_ok (gw id)) -> net_wf i x -> net_inited M x -> room m M x -> untiled x -> NoDup (map fid (nfcs x)) ->
  length B = m * i -> length Y = m * n_n x -> 0 < m <= M -> net_smooth m (biased m B) Y x ->
  exists x1 x2, net_fprop m (biased m B) x = Some x1 /\ net_bprop gw gwo m (biased m B) Y x1 = Some x2 /\
    length (n_G x2) = length (n_W x) /\
    (forall j, j < length (n_W x) ->
      is_derive (fun v => mean_loss m (biased m B) Y (set_out j v x)) (nth j (n_W x) 0%R) (nth j (n_G x2) 0%R)) /\
    (forall id k W, In (id, k, W) (nfcs x) -> exists G, In (id, k, G) (ngrads x2) /\ length G = length W /\
      forall j, j < length W -> is_derive (fun v => mean_loss m (biased m B) Y (set_hid id j v x)) (nth j W 0%R) (nth j G 0%R)).
Proof.
  intros H1 H2 H3 H4 HU H5 H6 H7 [H8 H9] H10.
  destruct (net_gradient gw gwo m M B i Y x H1 H2 H3 H4 H6 H7 H8 H9 H5 H10) as (x1 & x2 & E1 & E2 & E4 & E5 & ET & E3).
  exists x1, x2. split; [exact E1|]. split; [exact E2|]. split; [exact E4|]. split; [exact E5|]. intros id k W HW.
  assert (T : In (tagged (id, k, W)) (map tagged (ngrads x2))) by (rewrite ET; apply in_map; exact HW).
  apply in_map_iff in T. destruct T as ([[id' k'] G] & T1 & T2). unfold tagged in T1. cbn [fst snd] in T1. injection T1 as -> -> T3.
  exists G. split; [exact T2|]. split; [exact T3|]. intros j Hj. eapply d_eq; [apply (E3 id k W G HW T2 j Hj)|].
  rewrite (HU _ _ _ HW). simpl. ring.
Qed.

Lemma net_bprop_chain gw gwo m M B i Y x x1 :
  (forall id, gw_ok (gw id)) -> net_wf i x -> net_inited M x -> room m M x ->
  length B = m * i -> length Y = m * n_n x -> 0 < m <= M ->
  net_fprop m (biased m B) x = Some x1 ->
  exists x2, net_bprop gw gwo m (biased m B) Y x1 = Some x2 /\
    option_map sbare (n_hid x2) = option_map sbare (net_pback gw m (biased m B) Y x1).
Proof.
  intros H1 H2 H3 H4 H5 H6 [H7 H8] E.
  destruct (net_bprop_ok gw gwo m M B i Y x x1 H1 H2 H3 H4 H5 H6 H7 H8 E) as (x2 & E1 & E2 & _). eauto.
Qed.

Lemma net_bprop_iff gw gwo m M B i Y x x1 :
  (forall id, gw_ok (gw id)) -> net_wf i x -> net_inited M x -> length B = m * i -> length Y = m * n_n x -> 0 < m <= M ->
  net_fprop m (biased m B) x = Some x1 ->
  (net_bprop gw gwo m (biased m B) Y x1 <> None <-> room m M x).
Proof.
  intros H1 H2 H3 H5 H6 [H7 H8] E. split.
  - intros HN. unfold room. destruct (n_hid x) as [s|] eqn:Ex; [|exact I].
    destruct (sbottom_id s) eqn:Eb; [|auto]. destruct (Nat.le_gt_cases (m * sincoming s) (dLdA_size M s)) as [C|C]; [auto|].
    exfalso. apply HN. apply (net_bprop_none gw gwo m M B i Y x x1); auto. unfold room. rewrite Ex, Eb. intros [|]; [discriminate|lia].
  - intros HR HN. destruct (net_bprop_ok gw gwo m M B i Y x x1 H1 H2 H3 HR H5 H6 H7 H8 E) as (x2 & E1 & _). congruence.
Qed.
