(** Batches of samples; one step of learning. *)
From Coq Require Import Reals Lra.
From Coquelicot Require Import Coquelicot.
From Verif Require Import Base BaseLemmas Act_Model Act_Spec Kern_Model Smx_Model Smx_Spec TData_Model TData_Spec Train_Model Train_Spec
  Loss_Proofs Net_Model Net_Spec Net_Proofs Net_Proofs2 Net_Proofs3 Net_Proofs4 Net_Proofs5 Fit_Model Fit_Spec Fit_Proofs.
Local Open Scope nat_scope.
Notation slice := Net_Model.slice.

(** ** Batches *)
Lemma nth_firstn_lt (l : list R) n i : i < n -> nth i (firstn n l) 0%R = nth i l 0%R.
Proof. revert l i. induction n as [|n IH]; intros l i H; [lia|]. destruct l as [|a l]; [reflexivity|]. destruct i; cbn; [reflexivity|]. apply IH. lia. Qed.
Lemma holds_rows b src ids l : holds 1%R b src ids -> s_bir src = false -> s_data b = Some l ->
  forall r k, nth_error ids r = Some k -> row (length ids) (sample_size src) r l = sample src k.
Proof.
  intros (H1 & H2 & H3 & H4 & H5 & H6 & H7) Hb Hl r k Hr. apply row_eq; [unfold sample; rewrite map_length, seq_length; reflexivity|].
  intros c Hc. unfold sample. rewrite (nth_map_seq (fun j => match scell src k j with Some v => v | None => 0%R end)) by exact Hc.
  destruct (H7 r k c Hr Hc) as [E N]. rewrite <- E. unfold scell, cell in N |- *. rewrite H3, Hb in N |- *. rewrite Hl in N |- *. cbn [obind] in N |- *.
  unfold bget in *. unfold batch_size in H1. rewrite H3, Hb in H1. rewrite H1 in N |- *. replace (r + length ids * c) with (r + c * length ids) in * by lia.
  destruct (nth_error l (r + c * length ids)) as [v|] eqn:Q; [|contradiction]. apply nth_error_nth with (d := 0%R) in Q. exact Q.
Qed.
Lemma row_firstn m n r l k : r < m -> m * n <= k -> row m n r (firstn k l) = row m n r l.
Proof. intros Hr Hk. unfold row. apply map_ext_in. intros c Hc. apply in_seq in Hc. apply nth_firstn_lt. nia. Qed.

Lemma elems_y b src ids : holds 1%R b src ids -> s_bir src = false -> s_bias src = false ->
  exists Y, elems b = Some Y /\ length Y = length ids * sample_size src /\ 0 < length ids /\
    forall r k, nth_error ids r = Some k -> row (length ids) (sample_size src) r Y = sample src k.
Proof.
  intros H Hb Hs. pose proof H as (H1 & H2 & H3 & H4 & (H5 & H5' & l & Hl & Hn) & H6 & H7).
  pose proof (holds_rows b src ids l H Hb Hl) as HR.
  unfold batch_size in H1. unfold sample_size at 1 in H2. rewrite H3, Hb in H1, H2. unfold s_cols_nb, s_bias_col in H2. rewrite ?H3, ?Hb, ?H4, ?Hs in H2. unfold s_numel in Hn.
  exists (firstn (s_rows b * s_cols b) l). unfold elems. rewrite H3, Hb, Hl. cbn [negb guard obind]. split; [reflexivity|].
  split; [rewrite firstn_length_le; [|exact Hn]; rewrite H1; f_equal; cbn in H2; lia|]. split; [lia|].
  intros r k Hr. rewrite row_firstn; [apply HR; exact Hr|apply nth_error_Some; congruence|]. cbn in H2. nia.
Qed.
Lemma elems_x b src ids : holds 1%R b src ids -> s_bir src = false -> s_bias src = true ->
  exists B, elems b = Some (biased (length ids) B) /\ length B = length ids * sample_size src /\ 0 < length ids /\
    forall r k, nth_error ids r = Some k -> row (length ids) (sample_size src) r B = sample src k.
Proof.
  intros H Hb Hs. pose proof H as (H1 & H2 & H3 & H4 & (H5 & H5' & l & Hl & Hn) & H6 & H7).
  pose proof (holds_rows b src ids l H Hb Hl) as HR. unfold biases_one in H6. rewrite H3, Hb, H4 in H6. destruct (H6 Hs) as [_ H8].
  unfold batch_size in H1. unfold sample_size at 1 in H2. rewrite H3, Hb in H1, H2. unfold s_cols_nb, s_bias_col in H2. rewrite ?H3, ?Hb, ?H4, ?Hs in H2. unfold s_numel in Hn.
  cbn in H2. set (m := length ids) in *. set (n := sample_size src) in *. assert (Hc : s_cols b = n + 1) by lia. rewrite H1, Hc in *.
  exists (firstn (m * n) l). unfold elems. rewrite H3, Hb, Hl. cbn [negb guard obind]. rewrite H1, Hc.
  assert (E : firstn (m * (n + 1)) l = biased m (firstn (m * n) l)).
  { unfold biased. replace (m * (n + 1)) with (m * n + m) by lia.
    assert (L0 : length (firstn (m * n + m) l) = m * n + m) by (apply firstn_length_le; lia).
    apply nth_ext0; [rewrite L0, app_length, firstn_length_le, repeat_length; lia|].
    intros q Hq. rewrite L0 in Hq. rewrite nth_firstn_lt by exact Hq. destruct (Nat.lt_ge_cases q (m * n)) as [G|G].
    - rewrite app_nth1 by (rewrite firstn_length_le; lia). symmetry. apply nth_firstn_lt, G.
    - rewrite app_nth2 by (rewrite firstn_length_le; lia). rewrite firstn_length_le by lia.
      rewrite (nth_indep (repeat 1%R m) 0%R 1%R) by (rewrite repeat_length; lia). rewrite nth_repeat.
      specialize (H8 (q - m * n) ltac:(lia)). unfold cell in H8. rewrite Hl in H8. cbn [obind] in H8. unfold bget in H8. rewrite ?H1 in H8.
      replace (n + 1 - 1) with n in H8 by lia. replace (q - m * n + m * n) with q in H8 by lia. apply nth_error_nth with (d := 0%R) in H8. exact H8. }
  rewrite E. split; [reflexivity|]. split; [apply firstn_length_le; lia|]. split; [lia|].
  intros r k Hr. rewrite row_firstn; [apply HR; exact Hr|apply nth_error_Some; congruence|lia].
Qed.

(** ** Layers without their buffers *)
Lemma neurons_plain : (forall l, neurons (plain l) = neurons l) /\ (forall s, sneurons (splain s) = sneurons s) /\ (forall h, hneurons (hplain h) = hneurons h).
Proof.
  apply layers_ind; intros; simpl; try reflexivity; auto; rewrite ?H, ?H0; reflexivity.
Qed.
Lemma incoming_plain : (forall l, incoming (plain l) = incoming l) /\ (forall s, sincoming (splain s) = sincoming s) /\ (forall h : hpack, True).
Proof. apply layers_ind; intros; simpl; try exact I; try reflexivity; auto; rewrite ?H; reflexivity. Qed.
Lemma wf_plain : (forall l, wf (plain l) <-> wf l) /\ (forall s, swf (splain s) <-> swf s) /\ (forall h inc, hwf inc (hplain h) <-> hwf inc h).
Proof.
  destruct neurons_plain as (N1 & N2 & N3). destruct incoming_plain as (I1 & I2 & _).
  apply layers_ind; intros; simpl; try tauto; rewrite ?N1, ?N2, ?N3, ?I1, ?H, ?H0; tauto.
Qed.
Lemma max_plain : (forall l M, max_dLdA M (plain l) = max_dLdA M l) /\ (forall s M, smax_dLdA M (splain s) = smax_dLdA M s) /\
  (forall h M, hmax_dLdA M (hplain h) = hmax_dLdA M h /\ maxInc (hplain h) = maxInc h).
Proof.
  destruct neurons_plain as (N1 & N2 & N3). destruct incoming_plain as (I1 & I2 & _).
  apply layers_ind; intros; simpl; auto; rewrite ?N1, ?N2, ?N3, ?I1, ?H, ?H0; auto.
  destruct (H0 M) as [E1 E2]. rewrite E1, E2. auto.
Qed.
Lemma bottom_plain : (forall l, bottom_id (plain l) = bottom_id l) /\ (forall s, sbottom_id (splain s) = sbottom_id s) /\ (forall h : hpack, True).
Proof. apply layers_ind; intros; simpl; auto. Qed.
Lemma fcs_plain : (forall l k, fcs k (plain l) = fcs k l) /\ (forall s k, sfcs k (splain s) = sfcs k s) /\ (forall h k, hfcs k (hplain h) = hfcs k h).
Proof. apply layers_ind; intros; simpl; auto; rewrite ?H, ?H0; reflexivity. Qed.
Lemma with_w_plain f : (forall l, plain (with_w f l) = with_w f (plain l)) /\ (forall s, splain (swith_w f s) = swith_w f (splain s)) /\
  (forall h, hplain (hwith_w f h) = hwith_w f (hplain h)).
Proof. apply layers_ind; intros; simpl; auto; rewrite ?H, ?H0; reflexivity. Qed.
Lemma out_plain : (forall l v, out (plain l) v = out l v) /\ (forall s v, sout (splain s) v = sout s v) /\ (forall h v, hout (hplain h) v = hout h v).
Proof.
  destruct incoming_plain as (I1 & I2 & _).
  apply layers_ind; intros; simpl; auto; rewrite ?H, ?H0; auto.
  rewrite !flat_map_concat_map. f_equal. apply map_ext. intros t. rewrite I1. apply H.
Qed.
Lemma kinkless_plain : (forall l v, kinkless (plain l) v <-> kinkless l v) /\ (forall s v, skinkless (splain s) v <-> skinkless s v) /\
  (forall h v, hkinkless (hplain h) v <-> hkinkless h v).
Proof.
  destruct incoming_plain as (I1 & I2 & _). destruct out_plain as (O1 & O2 & O3).
  apply layers_ind; intros; simpl; try tauto; rewrite ?I1, ?O2, ?H, ?H0; try tauto.
  split; intros G t Ht; apply H, G, Ht.
Qed.
Lemma plain_same : (forall l l', same l l' -> plain l' = plain l) /\ (forall s s', ssame s s' -> splain s' = splain s) /\
  (forall h h', hsame h h' -> hplain h' = hplain h).
Proof.
  apply layers_ind.
  - intros id a inc n W G A [] H; try contradiction. simpl in *. destruct H as (-> & -> & -> & -> & -> & ->). reflexivity.
  - intros n A [] H; try contradiction. simpl in *. subst. reflexivity.
  - intros s IH [] H; try contradiction. simpl. rewrite (IH _ H). reflexivity.
  - intros inc h IH b1 b2 [] H; try contradiction. simpl in *. destruct H as (-> & H & _). rewrite (IH _ H). reflexivity.
  - intros k l IH inn A [] H; try contradiction. simpl in *. destruct H as [-> H]. rewrite (IH _ H). reflexivity.
  - intros l IH [] H; try contradiction. simpl. rewrite (IH _ H). reflexivity.
  - intros l IH b IHb [] H; try contradiction. destruct H as [H1 H2]. simpl. rewrite (IH _ H1), (IHb _ H2). reflexivity.
  - intros [] H; try contradiction. reflexivity.
  - intros o c l IH h IHh [] H; try contradiction. destruct H as (-> & -> & H1 & H2). simpl. rewrite (IH _ H1), (IHh _ H2). reflexivity.
Qed.
Lemma plain_bare : (forall l, plain (bare l) = plain l) /\ (forall s, splain (sbare s) = splain s) /\ (forall h, hplain (hbare h) = hplain h).
Proof. apply layers_ind; intros; simpl; auto; rewrite ?H, ?H0; reflexivity. Qed.
Lemma plain_up blk : (forall l, forall M, plain (mem_up M blk l) = plain l) /\ (forall s, forall M, splain (smem_up M blk s) = splain s) /\
  (forall h, forall M, hplain (hmem_up M blk h) = hplain h).
Proof. apply layers_ind; intros; simpl; auto; rewrite ?H, ?H0; reflexivity. Qed.
Lemma plain_down : (forall l, plain (mem_down l) = plain l) /\ (forall s, splain (smem_down s) = splain s) /\ (forall h, hplain (hmem_down h) = hplain h).
Proof. apply layers_ind; intros; simpl; auto; rewrite ?H, ?H0; reflexivity. Qed.
Lemma inited_up blk : (forall n, length (blk n) = n) -> (forall l, forall M, inited M (mem_up M blk l)) /\ (forall s, forall M, sinited M (smem_up M blk s)) /\
  (forall h, forall M, hinited M (hmem_up M blk h)).
Proof.
  intros HB. apply layers_ind; intros; simpl; auto.
  rewrite !HB. unfold inner_cap. destruct (proj2 (proj2 max_plain) (hmem_up M blk h) M) as [E1 E2].
  rewrite (proj2 (proj2 (plain_up blk))) in E1, E2. destruct (proj2 (proj2 max_plain) h M) as [E3 E4]. rewrite <- E1, <- E2, E3, E4. auto.
Qed.

(** ** Weights *)
Lemma sim_with_w f : (forall l k, (forall id k' W, In (id, k', W) (fcs k l) -> length (f id W) = length W) -> sim l (with_w f l)) /\
  (forall s k, (forall id k' W, In (id, k', W) (sfcs k s) -> length (f id W) = length W) -> ssim s (swith_w f s)) /\
  (forall h k, (forall id k' W, In (id, k', W) (hfcs k h) -> length (f id W) = length W) -> hsim h (hwith_w f h)).
Proof.
  apply layers_ind; simpl; auto.
  - intros id a inc n W G A k H. rewrite (H id k W) by auto. auto 8.
  - intros inc h IH b1 b2 k H. specialize (IH k H). auto.
  - intros k0 l IH inn A k H. specialize (IH _ H). auto.
  - intros l IH b IHb k H. split; [apply (IH k)|apply (IHb k)]; intros id k' W HI; apply (H id k'), in_or_app; auto.
  - intros o c l IH h IHh k H. do 2 (split; [reflexivity|]). split; [apply (IH k)|apply (IHh k)]; intros id k' W HI; apply (H id k'), in_or_app; auto.
Qed.
Definition retag (f : nat -> list R -> list R) (q : nat * nat * list R) : nat * nat * list R := (fst q, f (fid q) (snd q)).
Lemma fcs_with_w f : (forall l k, fcs k (with_w f l) = map (retag f) (fcs k l)) /\ (forall s k, sfcs k (swith_w f s) = map (retag f) (sfcs k s)) /\
  (forall h k, hfcs k (hwith_w f h) = map (retag f) (hfcs k h)).
Proof. apply layers_ind; intros; simpl; auto; rewrite ?H, ?H0, ?map_app; reflexivity. Qed.

Lemma plain_pback gw Gf : (forall l k m P v, (forall id k' G, In (id, k', G) (grads k (fst (pback gw m P v l))) -> Gf id = G) ->
    plain (fst (pback gw m P v l)) = with_w (fun id W => fst (gw id W (Gf id))) (plain l)) /\
  (forall s k m P v, (forall id k' G, In (id, k', G) (sgrads k (fst (spback gw m P v s))) -> Gf id = G) ->
    splain (fst (spback gw m P v s)) = swith_w (fun id W => fst (gw id W (Gf id))) (splain s)) /\
  (forall h k m inc P v, (forall id k' G, In (id, k', G) (hgrads k (fst (hpback gw m inc P v h))) -> Gf id = G) ->
    hplain (fst (hpback gw m inc P v h)) = hwith_w (fun id W => fst (gw id W (Gf id))) (hplain h)).
Proof.
  apply layers_ind.
  - intros id a inc n W G A k m P v H. cbn [pback fst grads plain with_w] in *. rewrite (H id k _ (or_introl eq_refl)). reflexivity.
  - reflexivity.
  - intros s IH k m P v. cbn [pback]. specialize (IH k m P v). destruct (spback gw m P v s). cbn [fst grads plain with_w] in *. intros H. rewrite (IH H). reflexivity.
  - intros inc h IH b1 b2 k m P v. cbn [pback]. specialize (IH k m inc P v). destruct (hpback gw m inc P v h). cbn [fst grads plain with_w] in *. intros H. rewrite (IH H). reflexivity.
  - intros j l IH inn A k m P v. cbn [pback].
    specialize (IH (k * j) (j * m) (biased (j * m) inn) (roll m (neurons l) j v)). destruct (pback gw (j * m) _ _ l). cbn [fst grads plain with_w] in *. intros H. rewrite (IH H). reflexivity.
  - intros l IH k m P v. cbn [spback]. specialize (IH k m P v). destruct (pback gw m P v l). cbn [fst sgrads splain swith_w] in *. intros H. rewrite (IH H). reflexivity.
  - intros l IH b IHb k m P v. cbn [spback]. specialize (IH k m (biased m (sacts b)) v).
    destruct (pback gw m (biased m (sacts b)) v l) as [l' w]. specialize (IHb k m P w). destruct (spback gw m P w b).
    cbn [fst sgrads splain swith_w] in *. intros H. rewrite IH, IHb; [reflexivity|..]; intros; eapply H; apply in_or_app; eauto.
  - reflexivity.
  - intros o c l IH h IHh k m inc P v. cbn [hpback]. specialize (IHh k m inc P (skipn (m * neurons l) v)).
    destruct (hpback gw m inc P (skipn (m * neurons l) v) h) as [h' acc].
    specialize (IH k m (biased m (slice (m * o) (m * c) P)) (firstn (m * neurons l) v)).
    destruct (pback gw m (biased m (slice (m * o) (m * c) P)) (firstn (m * neurons l) v) l) as [l' w].
    cbn [fst hgrads hplain hwith_w] in *. intros H. rewrite IH, IHh; [reflexivity|..]; intros; eapply H; apply in_or_app; eauto.
Qed.

(** the gradient of the layer with identifier [id] *)
Definition pick (l : list (nat * nat * list R)) (id : nat) : list R := match find (fun q => fid q =? id) l with Some q => snd q | None => [] end.
Lemma pick_in l id k G : NoDup (map fid l) -> In (id, k, G) l -> pick l id = G.
Proof.
  intros HN HI. unfold pick. destruct (find _ l) as [[[id' k'] G']|] eqn:Q.
  - apply find_some in Q. destruct Q as [Q1 Q2]. apply Nat.eqb_eq in Q2. cbn in Q2. subst id'. cbn. destruct (nodup_fid _ _ _ _ _ _ HN Q1 HI) as [_ ->]. reflexivity.
  - apply (find_none _ _ Q) in HI. cbn in HI. rewrite Nat.eqb_refl in HI. discriminate.
Qed.
Lemma tagged_fid l l' : map tagged l = map tagged l' -> map fid l = map fid l'.
Proof.
  intros H. assert (G : forall l, map fid l = map (fun q => fst (fst q)) (map tagged l)) by (intros l0; rewrite map_map; reflexivity).
  rewrite !G, H. reflexivity.
Qed.

(** ** Networks *)
Lemma model_hid x : n_hid (model x) = option_map splain (n_hid x).
Proof. reflexivity. Qed.
Lemma model_reweight f g x : model (reweight f g x) = reweight f g (model x).
Proof.
  unfold model, reweight. cbn. f_equal. destruct (n_hid x); [|reflexivity]. cbn. rewrite (proj1 (proj2 (with_w_plain f))). reflexivity.
Qed.
Lemma model_set_hid id j v x : model (set_hid id j v x) = set_hid id j v (model x).
Proof. unfold model, set_hid. cbn. f_equal. destruct (n_hid x); [|reflexivity]. cbn. rewrite (proj1 (proj2 (with_w_plain _))). reflexivity. Qed.
Lemma model_set_out j v x : model (set_out j v x) = set_out j v (model x).
Proof. reflexivity. Qed.
Lemma model_wf i x : net_wf i (model x) <-> net_wf i x.
Proof.
  unfold net_wf. cbn [model n_hid n_out n_inc n_n n_W]. destruct (n_hid x) as [s|]; cbn [option_map]; [|tauto].
  rewrite (proj1 (proj2 wf_plain)), (proj1 (proj2 incoming_plain)), (proj1 (proj2 neurons_plain)). tauto.
Qed.
Lemma model_nfcs x : nfcs (model x) = nfcs x.
Proof. unfold nfcs. cbn. destruct (n_hid x) as [s|]; cbn; [|reflexivity]. apply fcs_plain. Qed.
Lemma model_room m M x : room m M (model x) <-> room m M x.
Proof.
  unfold room. cbn. destruct (n_hid x) as [s|]; cbn; [|tauto]. unfold dLdA_size.
  rewrite (proj1 (proj2 bottom_plain)), (proj1 (proj2 incoming_plain)), (proj1 (proj2 max_plain)). tauto.
Qed.
Lemma model_hidden x v : hidden (model x) v = hidden x v.
Proof. unfold hidden. cbn. destruct (n_hid x) as [s|]; cbn; [|reflexivity]. apply out_plain. Qed.
Lemma model_fun x v : net_fun (model x) v = net_fun x v.
Proof. unfold net_fun. rewrite model_hidden. reflexivity. Qed.
Lemma model_loss S x id i : loss_at S (model x) id i = loss_at S x id i.
Proof. unfold loss_at, sample_loss. rewrite model_fun. reflexivity. Qed.
Lemma model_risk S x ids : risk S (model x) ids = risk S x ids.
Proof.
  unfold risk, mean_over. f_equal. unfold sum_over. induction ids as [|k ids IH]; [reflexivity|]. cbn [fold_right]. rewrite IH, model_loss. reflexivity.
Qed.
Lemma model_kinkless x v y : net_kinkless (model x) v y <-> net_kinkless x v y.
Proof.
  unfold net_kinkless. rewrite model_hidden. cbn. destruct (n_hid x) as [s|]; cbn; [|tauto]. rewrite (proj1 (proj2 kinkless_plain)). tauto.
Qed.
Lemma reweight_keep M i f g x : (forall id k W, In (id, k, W) (nfcs x) -> length (f id W) = length W) -> length (g (n_W x)) = length (n_W x) -> net_wf i x ->
  net_wf i (reweight f g x) /\ (net_inited M x -> net_inited M (reweight f g x)) /\ (forall m, room m M x -> room m M (reweight f g x)).
Proof.
  intros Hf Hg Hw.
  assert (Q : match n_hid x, n_hid (reweight f g x) with None, None => True | Some s, Some s' => ssim s s' | _, _ => False end).
  { unfold nfcs in Hf. cbn. destruct (n_hid x); cbn; [|exact I]. eapply sim_with_w, Hf. }
  assert (W : net_wf i (reweight f g x)).
  { destruct Hw as (H1 & H2 & H3 & H4 & H5 & H6). unfold net_wf. cbn in *. rewrite Hg. destruct (n_hid x) as [s|]; cbn in *; [|auto 9].
    rewrite (proj1 (proj2 sim_incoming) _ _ Q), (proj1 (proj2 sim_neurons) _ _ Q). destruct H1 as (G1 & G2 & G3).
    pose proof (proj1 (proj2 sim_wf) _ _ Q G1). auto 12. }
  split; [exact W|]. split.
  - intros HI. apply (net_sim_keep M i x (reweight f g x) Hw HI Q); try reflexivity. exact Hg.
  - intros m. unfold room. cbn in Q |- *. destruct (n_hid x) as [s|]; cbn in *; [|auto]. unfold dLdA_size.
    rewrite (proj1 (proj2 sim_incoming) _ _ Q), (proj1 (proj2 sim_max) _ _ Q), (proj1 (proj2 sim_bottom) _ _ Q). auto.
Qed.
Lemma reweight_fids f g x : map fid (nfcs (reweight f g x)) = map fid (nfcs x).
Proof.
  unfold nfcs. cbn. destruct (n_hid x) as [s|]; cbn; [|reflexivity]. rewrite (proj1 (proj2 (fcs_with_w f))), map_map. reflexivity.
Qed.

Lemma fprop_model m B i x x1 : net_wf i x -> length B = m * i -> net_fprop m (biased m B) x = Some x1 ->
  model x1 = model x /\ (forall M, net_inited M x -> net_inited M x1).
Proof.
  intros Hw HB E. destruct (net_fprop_ok m B i x Hw HB) as (h' & E' & HH). rewrite E' in E. injection E as <-. split.
  - unfold model. cbn. f_equal. destruct (n_hid x) as [s|], h' as [s'|]; try contradiction; [|reflexivity]. cbn. f_equal. apply plain_same, HH.
  - intros M. unfold net_inited. cbn. destruct (n_hid x) as [s|], h' as [s'|]; try contradiction; [|auto]. intros (H1 & H2 & H3).
    destruct HH as [HH _]. unfold dLdA_size in *. rewrite (proj1 (proj2 same_max) _ _ HH). split; [|auto]. apply (proj1 (proj2 same_inited) _ _ HH), H1.
Qed.

(** what back-propagation makes of the weights *)
Lemma bprop_model gw gwo m M B i Y x x1 : (forall id, gw_ok (gw id)) -> gw_ok gwo -> net_wf i x -> net_inited M x -> room m M x ->
  length B = m * i -> length Y = m * n_n x -> 0 < m -> m <= M -> NoDup (map fid (nfcs x)) ->
  net_fprop m (biased m B) x = Some x1 ->
  exists x2, net_bprop gw gwo m (biased m B) Y x1 = Some x2 /\ net_wf i x2 /\ net_inited M x2 /\
    length (n_G x2) = length (n_W x) /\ map tagged (ngrads x2) = map tagged (nfcs x) /\
    model x2 = reweight (fun id W => fst (gw id W (pick (ngrads x2) id))) (fun W => fst (gwo W (n_G x2))) (model x).
Proof.
  intros Hgw Hgo Hw HI HR HB HY Hm HM HN EF.
  destruct (net_bprop_ok gw gwo m M B i Y x x1 Hgw Hw HI HR HB HY Hm HM EF) as (x2 & EB & E0 & EG & K1 & K2 & K3 & K4 & K5 & K6 & K7).
  exists x2. split; [exact EB|].
  assert (LG : length (n_G x2) = length (n_W x)) by (rewrite EG, gemm_length; symmetry; apply Hw).
  assert (LW : length (n_W x2) = length (n_W x)) by (rewrite K7; apply gw_ok_fst; [exact Hgo|exact LG]).
  destruct (net_sim_keep M i x x2 Hw HI K1 K2 K3 K4 K5 K6 LW) as (Q1 & Q2 & Q3).
  split; [exact Q1|]. split; [exact Q2|]. split; [exact LG|].
  destruct (net_fprop_ok m B i x Hw HB) as (h' & EF2 & HH). rewrite EF2 in EF. injection EF as <-.
  destruct Hw as (H1 & _).
  assert (T : map tagged (ngrads x2) = map tagged (nfcs x)).
  { unfold ngrads, nfcs. unfold net_pback in E0. cbn [n_hid] in E0. destruct (n_hid x) as [s|], h' as [s'|], (n_hid x2) as [s2|]; try contradiction; [|reflexivity].
    cbn in E0. injection E0 as E0. rewrite <- (proj1 (proj2 grads_bare) s2), E0, (proj1 (proj2 grads_bare)).
    destruct HH as [HH _]. rewrite (proj1 (proj2 (grads_fcs gw))).
    - rewrite (proj1 (proj2 fcs_same) _ _ HH). reflexivity.
    - apply (proj1 (proj2 same_wf) _ _ HH). apply H1. }
  split; [exact T|]. unfold model, reweight. cbn. rewrite K4, K5, K6, K7. f_equal.
  assert (HN2 : NoDup (map fid (ngrads x2))) by (rewrite (tagged_fid _ _ T); exact HN).
  unfold ngrads in *. unfold net_pback in E0. cbn [n_hid] in E0. destruct (n_hid x) as [s|], h' as [s'|], (n_hid x2) as [s2|]; try contradiction; [|reflexivity].
  cbn in E0 |- *. injection E0 as E0. f_equal. destruct HH as [HH _].
  rewrite <- (proj1 (proj2 plain_bare) s2), E0, (proj1 (proj2 plain_bare)).
  rewrite <- (proj1 (proj2 plain_same) _ _ HH). apply (proj1 (proj2 (plain_pback gw (pick (sgrads 1 s2))))) with (k := 1).
  intros id k' G HG. apply (pick_in _ id k'); [exact HN2|]. rewrite <- (proj1 (proj2 grads_bare) s2), E0, (proj1 (proj2 grads_bare)). exact HG.
Qed.

Section D.
Context (S : sets R R).
Lemma sum_seq (f : nat -> R) ids (g : nat -> R) : (forall r k, nth_error ids r = Some k -> g r = f k) -> sumR (map g (seq 0 (length ids))) = sum_over f ids.
Proof.
  revert g. induction ids as [|k ids IH]; intros g H; [reflexivity|]. cbn [length seq map sum_over fold_right]. rewrite <- seq_shift, map_map.
  change (sumR (g 0 :: map (fun r => g (Datatypes.S r)) (seq 0 (length ids)))) with (Rplus (g 0) (sumR (map (fun r => g (Datatypes.S r)) (seq 0 (length ids))))).
  rewrite (H 0 k eq_refl). f_equal. apply IH. intros r k' Hr. apply (H (Datatypes.S r)). exact Hr.
Qed.
Lemma batch_risk x i B Y ids : net_wf i x -> i = sample_size (x0 S) -> n_n x = sample_size (y0 S) -> length B = length ids * i ->
  (forall r k, nth_error ids r = Some k -> row (length ids) i r B = sample (x0 S) k) ->
  (forall r k, nth_error ids r = Some k -> row (length ids) (n_n x) r Y = sample (y0 S) k) ->
  mean_loss (length ids) (biased (length ids) B) Y x = risk S x ids.
Proof.
  intros Hw Hi Hn HB HX HY. rewrite (mean_loss_rows _ _ i) by assumption. unfold risk, mean_over.
  rewrite (sum_seq (loss_at S x 0)); [unfold Rdiv; ring|].
  intros r k Hr. rewrite (HX r k Hr), (HY r k Hr). reflexivity.
Qed.
Lemma set_out_wf i j v x : j < length (n_W x) -> net_wf i x -> net_wf i (set_out j v x).
Proof. intros Hj. unfold net_wf. cbn. rewrite setn_length by exact Hj. auto. Qed.
Lemma set_hid_wf i id j v x k W : NoDup (map fid (nfcs x)) -> In (id, k, W) (nfcs x) -> j < length W -> net_wf i x -> net_wf i (set_hid id j v x).
Proof.
  intros HN HI Hj Hw. assert (E : set_hid id j v x = reweight (fun k W => if Nat.eqb k id then setn j v W else W) (fun W => W) x) by reflexivity.
  rewrite E. apply (reweight_keep 0); [|reflexivity|exact Hw]. intros id' k' W' HI'. destruct (Nat.eqb id' id) eqn:Q; [|reflexivity].
  apply Nat.eqb_eq in Q. subst id'. destruct (nodup_fid _ _ _ _ _ _ HN HI HI') as [_ <-]. apply setn_length, Hj.
Qed.

Lemma learn_step r i M ids B Y x x1 : rule_ok r -> net_wf i x -> net_inited M x -> room (length ids) M x ->
  i = sample_size (x0 S) -> n_n x = sample_size (y0 S) -> NoDup (map fid (nfcs x)) ->
  length B = length ids * i -> length Y = length ids * n_n x -> 0 < length ids -> length ids <= M ->
  (forall r k, nth_error ids r = Some k -> row (length ids) i r B = sample (x0 S) k) ->
  (forall r k, nth_error ids r = Some k -> row (length ids) (n_n x) r Y = sample (y0 S) k) ->
  net_fprop (length ids) (biased (length ids) B) (reweight (r_pre r) (r_preo r) x) = Some x1 ->
  exists x2, net_bprop (r_gw r) (r_gwo r) (length ids) (biased (length ids) B) Y x1 = Some x2 /\ net_wf i x2 /\ net_inited M x2 /\
    gd_step S r ids (model x) (model x2).
Proof.
  intros (R1 & R2 & R3 & R4) Hw HI HR Hi Hn HN HB HY Hm HM HX HV EF.
  destruct (reweight_keep M i (r_pre r) (r_preo r) x (fun id _ W _ => R1 id W) (R2 _) Hw) as (Hw1 & HI1 & HR1). specialize (HI1 HI). specialize (HR1 _ HR).
  set (xr := reweight (r_pre r) (r_preo r) x) in *.
  assert (HN1 : NoDup (map fid (nfcs xr))) by (unfold xr; rewrite reweight_fids; exact HN).
  change (n_n x) with (n_n xr) in *.
  destruct (bprop_model (r_gw r) (r_gwo r) (length ids) M B i Y xr x1 R3 R4 Hw1 HI1 HR1 HB HY Hm HM HN1 EF) as (x2 & EB & Q1 & Q2 & LG & T & EM).
  exists x2. split; [exact EB|]. split; [exact Q1|]. split; [exact Q2|].
  unfold gd_step. exists (pick (ngrads x2)), (n_G x2). rewrite <- model_reweight. fold xr. rewrite model_nfcs.
  assert (TG : forall id k W, In (id, k, W) (nfcs xr) -> exists G, In (id, k, G) (ngrads x2) /\ pick (ngrads x2) id = G /\ length G = length W).
  { intros id k W HI0. assert (T0 : In (tagged (id, k, W)) (map tagged (ngrads x2))) by (rewrite T; apply in_map; exact HI0).
    apply in_map_iff in T0. destruct T0 as ([[id' k'] G] & T1 & T2). unfold tagged in T1. cbn [fst snd] in T1. injection T1 as -> -> T3.
    exists G. split; [exact T2|]. split; [|exact T3]. apply (pick_in _ _ k); [rewrite (tagged_fid _ _ T); exact HN1|exact T2]. }
  split; [|split; [exact LG|split; [|exact EM]]].
  - intros HS.
    assert (SM : net_smooth (length ids) (biased (length ids) B) Y xr).
    { apply (net_smooth_rows _ _ i); [exact Hw1|exact HB|]. intros q Hq. unfold risk_smooth in HS. rewrite Forall_forall in HS.
      destruct (nth_error ids q) as [k|] eqn:Qk; [|apply nth_error_None in Qk; lia]. rewrite (HX q k Qk), (HV q k Qk).
      apply model_kinkless. apply HS. eapply nth_error_In, Qk. }
    destruct (net_gradient (r_gw r) (r_gwo r) (length ids) M B i Y xr R3 Hw1 HI1 HR1 HB HY Hm HM HN1 SM) as (y1 & y2 & F1 & F2 & _ & D1 & _ & D2).
    rewrite EF in F1. injection F1 as <-. rewrite EB in F2. injection F2 as <-.
    assert (RK : forall z, net_wf i z -> n_n z = n_n xr -> mean_loss (length ids) (biased (length ids) B) Y z = risk S (model z) ids).
    { intros z Hz Hzn. rewrite (batch_risk z i B Y ids Hz Hi) by (rewrite ?Hzn; assumption). symmetry. apply model_risk. }
    split.
    + intros j Hj. apply (is_derive_ext (fun v => mean_loss (length ids) (biased (length ids) B) Y (set_out j v xr))); [|apply D1; exact Hj]. intros v. rewrite RK; [reflexivity|apply set_out_wf; [exact Hj|exact Hw1]|reflexivity].
    + intros id k W j HIn Hj. rewrite model_nfcs in HIn. destruct (TG id k W HIn) as (G & T1 & T2 & T3). rewrite T2.
      apply (is_derive_ext (fun v => mean_loss (length ids) (biased (length ids) B) Y (set_hid id j v xr))); [|apply (D2 id k W G HIn T1 j Hj)]. intros v. rewrite RK; [rewrite model_set_hid; reflexivity|apply (set_hid_wf _ _ _ _ _ k W HN1 HIn Hj Hw1)|reflexivity].
  - intros id k W HIn. destruct (TG id k W HIn) as (G & T1 & T2 & T3). rewrite T2. exact T3.
Qed.
End D.
