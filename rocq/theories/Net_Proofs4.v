(** The gradients of a whole network. *)
From Coq Require Import Reals Bool Lra.
From Coquelicot Require Import Coquelicot.
From Verif Require Import Base BaseLemmas Act_Model Act_Spec Act_Proofs Loss_Proofs Net_Model Net_Spec Net_Proofs Net_Proofs2 Net_Proofs3.
Local Open Scope nat_scope.

(** ** Layers which differ in their activations *)
Lemma fprop_same : (forall l l', same l l' -> forall m P, fprop m P l' = fprop m P l) /\
  (forall s s', ssame s s' -> forall m P, sfprop m P s' = sfprop m P s) /\
  (forall h h', hsame h h' -> forall m inc P, hfprop m inc P h' = hfprop m inc P h).
Proof.
  destruct same_neurons as (N1 & N2 & N3). destruct same_incoming as (I1 & I2 & _).
  apply layers_ind.
  - intros id a inc n W G A [] H; try contradiction. simpl in H. destruct H as (-> & -> & -> & -> & -> & ->). reflexivity.
  - intros n A [] H; try contradiction. simpl in H. subst. reflexivity.
  - intros s IH [] H m P; try contradiction. cbn [fprop]. rewrite (IH _ H). reflexivity.
  - intros inc h IH b1 b2 [] H m P; try contradiction. simpl in H. destruct H as (-> & H & -> & ->). cbn [fprop]. rewrite (IH _ H). reflexivity.
  - intros k l IH inn A [] H m P; try contradiction. simpl in H. destruct H as [-> H]. cbn [fprop]. rewrite (N1 _ _ H), (I1 _ _ H), (IH _ H). reflexivity.
  - intros l IH [] H m P; try contradiction. cbn [sfprop]. rewrite (IH _ H). reflexivity.
  - intros l IH b IHb [] H m P; try contradiction. destruct H as [H1 H2]. cbn [sfprop]. rewrite (IHb _ H2).
    destruct (sfprop m P b) as [b'|]; [|reflexivity]. cbn [obind]. rewrite (IH _ H1). reflexivity.
  - intros [] H; try contradiction. reflexivity.
  - intros o c l IH h IHh [] H m inc P; try contradiction. destruct H as (-> & -> & H1 & H2). cbn [hfprop].
    destruct (part_ctor m inc ofs cnt P) as [vP|]; [|reflexivity]. cbn [obind]. rewrite (IH _ H1).
    destruct (fprop m (fst vP) l); [|reflexivity]. cbn [obind]. rewrite (IHh _ H2). reflexivity.
Qed.
Lemma smooth_same : (forall l l', same l l' -> forall m P, smooth_at m P l -> smooth_at m P l') /\
  (forall s s', ssame s s' -> forall m P, ssmooth_at m P s -> ssmooth_at m P s') /\
  (forall h h', hsame h h' -> forall m inc P, hsmooth_at m inc P h -> hsmooth_at m inc P h').
Proof.
  destruct same_incoming as (I1 & I2 & _). destruct fprop_same as (_ & F2 & _).
  apply layers_ind.
  - intros id a inc n W G A [] H; try contradiction. simpl in H. destruct H as (-> & -> & -> & -> & -> & ->). auto.
  - intros n A [] H; try contradiction. auto.
  - intros s IH [] H m P; try contradiction. apply (IH _ H).
  - intros inc h IH b1 b2 [] H m P; try contradiction. simpl in H. destruct H as (-> & H & -> & ->). apply (IH _ H).
  - intros k l IH inn A [] H m P; try contradiction. simpl in H. destruct H as [-> H]. cbn [smooth_at]. rewrite (I1 _ _ H). apply (IH _ H).
  - intros l IH [] H m P; try contradiction. apply (IH _ H).
  - intros l IH b IHb [] H m P; try contradiction. destruct H as [H1 H2]. intros [S1 (b' & E & S2)]. cbn [ssmooth_at].
    split; [apply (IHb _ H2); exact S1|]. exists b'. rewrite (F2 _ _ H2). split; [exact E|]. apply (IH _ H1). exact S2.
  - intros [] H; try contradiction. auto.
  - intros o c l IH h IHh [] H m inc P; try contradiction. destruct H as (-> & -> & H1 & H2). intros [S1 S2]. split.
    + apply (IH _ H1). exact S1.
    + apply (IHh _ H2). exact S2.
Qed.
Lemma fcs_same : (forall l l', same l l' -> forall k, fcs k l' = fcs k l) /\
  (forall s s', ssame s s' -> forall k, sfcs k s' = sfcs k s) /\ (forall h h', hsame h h' -> forall k, hfcs k h' = hfcs k h).
Proof.
  apply layers_ind.
  - intros id a inc n W G A [] H; try contradiction. simpl in H. destruct H as (-> & -> & -> & -> & -> & ->). reflexivity.
  - intros n A [] H; try contradiction. reflexivity.
  - intros s IH [] H kk; try contradiction. apply (IH _ H).
  - intros inc h IH b1 b2 [] H kk; try contradiction. apply IH. apply H.
  - intros k0 l IH inn A [] H j; try contradiction. simpl in H. destruct H as [-> H]. apply (IH _ H).
  - intros l IH [] H kk; try contradiction. apply (IH _ H).
  - intros l IH b IHb [] H kk; try contradiction. destruct H as [H1 H2]. simpl. rewrite (IH _ H1), (IHb _ H2). reflexivity.
  - intros [] H; try contradiction. reflexivity.
  - intros o c l IH h IHh [] H kk; try contradiction. destruct H as (-> & -> & H1 & H2). simpl. rewrite (IH _ H1), (IHh _ H2). reflexivity.
Qed.
Lemma with_w_same g : (forall l l', same l l' -> same (with_w g l) (with_w g l')) /\
  (forall s s', ssame s s' -> ssame (swith_w g s) (swith_w g s')) /\ (forall h h', hsame h h' -> hsame (hwith_w g h) (hwith_w g h')).
Proof.
  apply layers_ind.
  - intros id a inc n W G A [] H; try contradiction. simpl in *. destruct H as (-> & -> & -> & -> & -> & ->). auto 8.
  - intros n A [] H; try contradiction. exact H.
  - intros s IH [] H; try contradiction. apply (IH _ H).
  - intros inc h IH b1 b2 [] H; try contradiction. simpl in *. destruct H as (-> & H & -> & ->). auto.
  - intros k l IH inn A [] H; try contradiction. simpl in *. destruct H as [-> H]. auto.
  - intros l IH [] H; try contradiction. apply (IH _ H).
  - intros l IH b IHb [] H; try contradiction. simpl in *. destruct H as [H1 H2]. auto.
  - intros [] H; try contradiction. exact I.
  - intros o c l IH h IHh [] H; try contradiction. simpl in *. destruct H as (-> & -> & H1 & H2). auto.
Qed.

(** ** Paths *)
Lemma path_of f dW x : (forall l k, (forall id j W, In (id, j, W) (fcs k l) -> moves f dW x id W) -> path f dW x l) /\
  (forall s k, (forall id j W, In (id, j, W) (sfcs k s) -> moves f dW x id W) -> spath f dW x s) /\
  (forall h k, (forall id j W, In (id, j, W) (hfcs k h) -> moves f dW x id W) -> hpath f dW x h).
Proof.
  apply layers_ind; simpl; intros.
  - apply (H _ k W). auto.
  - exact I.
  - eapply H; eassumption.
  - eapply H; eassumption.
  - eapply H; eassumption.
  - eapply H; eassumption.
  - split; [eapply H|eapply H0]; intros; eapply H1; apply in_or_app; eauto.
  - exact I.
  - split; [eapply H|eapply H0]; intros; eapply H1; apply in_or_app; eauto.
Qed.
Lemma with_w_wf f dW x t : (forall l, path f dW x l -> wf l -> wf (with_w (f t) l)) /\
  (forall s, spath f dW x s -> swf s -> swf (swith_w (f t) s)) /\
  (forall h inc, hpath f dW x h -> hwf inc h -> hwf inc (hwith_w (f t) h)).
Proof.
  destruct (with_w_neurons (f t)) as (N1 & N2 & N3). destruct (with_w_incoming (f t)) as (I1 & I2 & _).
  apply layers_ind; simpl.
  - intros id a inc n W G A (_ & H & _) (H1 & H2 & H3 & H4). rewrite H. auto.
  - auto.
  - auto.
  - intros inc h IH b1 b2 HP [H1 H2]. rewrite N3. auto.
  - intros k l IH inn A HP [H1 H2]. auto.
  - auto.
  - intros l IH b IHb [P1 P2] (H1 & H2 & H3). rewrite I1, N2. auto.
  - auto.
  - intros o c l IH h IHh inc [P1 P2] (H1 & H2 & H3 & H4). rewrite I1. auto.
Qed.

(** ** Gradients *)
Definition tagged (q : nat * nat * list R) : nat * nat * nat := (fst q, length (snd q)).
Lemma grads_fcs gw : (forall l k m P v, wf l -> map tagged (grads k (fst (pback gw m P v l))) = map tagged (fcs k l)) /\
  (forall s k m P v, swf s -> map tagged (sgrads k (fst (spback gw m P v s))) = map tagged (sfcs k s)) /\
  (forall h k m inc P v, hwf inc h -> map tagged (hgrads k (fst (hpback gw m inc P v h))) = map tagged (hfcs k h)).
Proof.
  apply layers_ind.
  - intros id a inc n W G A k m P v (_ & _ & H & _). simpl. unfold tagged. simpl. rewrite gemm_length, H. reflexivity.
  - reflexivity.
  - intros s IH k m P v H. cbn [pback]. specialize (IH k m P v H). destruct (spback gw m P v s). exact IH.
  - intros inc h IH b1 b2 k m P v [_ H]. cbn [pback]. specialize (IH k m inc P v H). destruct (hpback gw m inc P v h). exact IH.
  - intros j l IH inn A k m P v [_ H]. cbn [pback].
    specialize (IH (k * j) (j * m) (biased (j * m) inn) (roll m (neurons l) j v) H). destruct (pback gw (j * m) _ _ l). exact IH.
  - intros l IH k m P v H. cbn [spback]. specialize (IH k m P v H). destruct (pback gw m P v l). exact IH.
  - intros l IH b IHb k m P v (H1 & H2 & _). cbn [spback]. specialize (IH k m (biased m (sacts b)) v H1).
    destruct (pback gw m (biased m (sacts b)) v l) as [l' w]. specialize (IHb k m P w H2). destruct (spback gw m P w b).
    cbn [fst sgrads sfcs] in *. rewrite !map_app, IH, IHb. reflexivity.
  - reflexivity.
  - intros o c l IH h IHh k m inc P v (H1 & _ & _ & H2). cbn [hpback]. specialize (IHh k m inc P (skipn (m * neurons l) v) H2).
    specialize (IH k m (biased m (slice (m * o) (m * c) P)) (firstn (m * neurons l) v) H1).
    destruct (hpback gw m inc P (skipn (m * neurons l) v) h). destruct (pback gw m _ (firstn (m * neurons l) v) l).
    cbn [fst hgrads hfcs] in *. rewrite !map_app, IH, IHh. reflexivity.
Qed.
Lemma grads_bare : (forall l k, grads k (bare l) = grads k l) /\ (forall s k, sgrads k (sbare s) = sgrads k s) /\
  (forall h k, hgrads k (hbare h) = hgrads k h).
Proof. apply layers_ind; intros; simpl; try reflexivity; auto; rewrite ?H, ?H0; reflexivity. Qed.

Definition gterm (dW : nat -> nat -> R) (q : nat * nat * list R) : R :=
  (INR (snd (fst q)) * bs (length (snd q)) (fun j => nth j (snd q) 0 * dW (fst (fst q)) j))%R.
Lemma gsum_grads dW : (forall l k, sumR (map (gterm dW) (grads k l)) = (INR k * gsum dW l)%R) /\
  (forall s k, sumR (map (gterm dW) (sgrads k s)) = (INR k * sgsum dW s)%R) /\
  (forall h k, sumR (map (gterm dW) (hgrads k h)) = (INR k * hgsum dW h)%R).
Proof.
  apply layers_ind; intros; simpl; auto.
  - unfold sumR, gterm. cbn [fst snd map fold_right gsum]. ring.
  - unfold sumR; cbn [gsum]; ring.
  - rewrite H, mult_INR. cbn [gsum]. ring.
  - rewrite map_app, sumR_app, H, H0. change (sgsum dW (SCons l below)) with (gsum dW l + sgsum dW below)%R. ring.
  - unfold sumR; cbn [hgsum]; ring.
  - rewrite map_app, sumR_app, H, H0. change (hgsum dW (HCons ofs cnt l h)) with (gsum dW l + hgsum dW h)%R. ring.
Qed.

(** ** One weight *)
Definition one (id j : nat) (t : R) (i : nat) (W : list R) : list R := if Nat.eqb i id then setn j t W else W.
Definition done (id j i q : nat) : R := if Nat.eqb i id then (if Nat.eqb q j then 1%R else 0%R) else 0%R.
Lemma setn_moves j (W : list R) : j < length W -> setn j (nth j W 0%R) W = W /\ (forall t, length (setn j t W) = length W) /\
  forall q, q < length W -> is_derive (fun t => nth q (setn j t W) 0%R) (nth j W 0%R) (if Nat.eqb q j then 1%R else 0%R).
Proof.
  intros Hj. split; [|split].
  - apply nth_ext0; [apply setn_length; exact Hj|]. intros q Hq.
    destruct (Nat.eq_dec q j) as [->|E]; [apply setn_nth_eq; exact Hj|apply setn_nth_neq; assumption].
  - intros t. apply setn_length. exact Hj.
  - intros q Hq. destruct (Nat.eqb_spec q j) as [->|E].
    + apply (d_ext (fun t => t)); [intros t; symmetry; apply setn_nth_eq; exact Hj|apply d_id].
    + apply (d_ext (fun _ => nth q W 0%R)); [intros t; symmetry; apply setn_nth_neq; assumption|apply d_const].
Qed.
Lemma one_moves id j (W : list R) i W' : (i = id -> W' = W) -> j < length W -> moves (one id j) (done id j) (nth j W 0%R) i W'.
Proof.
  intros HE Hj. unfold moves, one, done. destruct (Nat.eqb_spec i id) as [->|E].
  - rewrite HE by reflexivity. apply setn_moves. exact Hj.
  - split; [reflexivity|]. split; [reflexivity|]. intros. apply d_const.
Qed.
Lemma nodup_fid (l : list (nat * nat * list R)) id k W k' W' : NoDup (map fid l) -> In (id, k, W) l -> In (id, k', W') l -> k = k' /\ W = W'.
Proof.
  induction l as [|q l IH]; simpl; [contradiction|]. intros HN. inversion HN as [|? ? H1 H2]; subst.
  assert (C : forall i a b, In (i, a, b) l -> In i (map fid l)) by (intros i a b H; apply (in_map fid) in H; exact H).
  intros [->|Ha] [Hb|Hb].
  - injection Hb as -> ->. auto.
  - exfalso. apply H1. apply (C _ _ _ Hb).
  - subst q. exfalso. apply H1. apply (C _ _ _ Ha).
  - auto.
Qed.
Lemma sum_one id j k G (l : list (nat * nat * list R)) : NoDup (map fid l) -> In (id, k, G) l -> j < length G ->
  sumR (map (gterm (done id j)) l) = (INR k * nth j G 0)%R.
Proof.
  assert (Z : forall q, fid q <> id -> gterm (done id j) q = 0%R).
  { intros [[i a] b] H. unfold fid in H. simpl in H. unfold gterm, done. simpl.
    destruct (Nat.eqb_spec i id); [contradiction|]. rewrite bs_0; [ring|]. intros; ring. }
  induction l as [|q l IH]; [contradiction|]. intros HN Hin Hj. cbn [map] in *. inversion HN as [|? ? H1 H2]; subst.
  unfold sumR. simpl. fold (sumR (map (gterm (done id j)) l)). destruct Hin as [->|Hin].
  - replace (sumR (map (gterm (done id j)) l)) with 0%R.
    + unfold gterm, done. simpl. rewrite Nat.eqb_refl.
      rewrite (bs_ext _ _ (fun q => if Nat.eqb q j then nth q G 0%R else 0%R)) by (intros q Hq; destruct (Nat.eqb q j); ring).
      rewrite (bs_single _ j (fun q => nth q G 0%R)) by exact Hj. ring.
    + symmetry. clear - Z H1. unfold fid in H1 at 1. simpl in H1. induction l as [|q l IH]; [reflexivity|].
      unfold sumR. simpl. fold (sumR (map (gterm (done id j)) l)). rewrite IH, Z; [ring| |]; simpl in H1; tauto.
  - rewrite IH by assumption. rewrite Z; [ring|]. intros E. apply H1. rewrite E. apply (in_map fid) in Hin. exact Hin.
Qed.

(** ** The output layer *)
Lemma eps_one o y z : admissible (outp_act o) -> loss_domain o y z -> eps_factor 0 o y (act_f (outp_act o) z) = 1%R.
Proof.
  intros HA HD.
  assert (G : forall a, (0 < a < 1)%R -> (prob a y / (prob a y + 0))%R = 1%R).
  { intros a Ha. pose proof (prob_pos a y Ha). rewrite Rplus_0_r. apply Rinv_r. lra. }
  destruct o; simpl in *; try reflexivity; apply G.
  - apply sigm_range.
  - apply softsigm_range. apply milli_pos. exact HA.
  - apply HD.
  - apply HD.
Qed.

Section Out.
Context (m n inc : nat) (o : outp) (Y : list R).
Definition oloss (A W : list R) : R :=
  (/ INR m * loss_spec (outp_loss 0 o) (m * n) (map (act_f (outp_act o)) (gemm false true m n (inc + 1) 1%R (biased m A) m W n)) Y)%R.
Definition oz (A W : list R) : list R :=
  map (fun q => outp_dLdZ o (nth q Y 0%R) (nth q (map (act_f (outp_act o)) (gemm false true m n (inc + 1) 1%R (biased m A) m W n)) 0%R)) (seq 0 (m * n)).

Lemma oloss_derive f dW x id W A dA : admissible (outp_act o) -> 0 < m -> dpath x (m * inc) A dA -> moves f dW x id W -> length W = n * (inc + 1) ->
  (forall r c, r < m -> c < n -> loss_domain o (nth (m * c + r) Y 0%R) (net_input m n inc (biased m (A x)) W r c)) ->
  let z := oz (A x) W in
  is_derive (fun t => oloss (A t) (f t id W)) x
    (bs (n * (inc + 1)) (fun j => nth j (gemm true false n (inc + 1) m (1 / INR m)%R z m (biased m (A x)) m) 0 * dW id j) +
     / INR m * bs (m * inc) (fun q => nth q (gemm false false m inc n 1%R z m W n) 0 * dA q))%R.
Proof.
  intros Had Hm HA HM HW HD z. pose proof HM as (M1 & M2 & M3). assert (HR : INR m <> 0%R) by (apply not_0_INR; lia).
  eapply d_eq; [|].
  - unfold oloss, loss_spec.
    apply (d_ext (fun t => / INR m * bs (m * n) (fun q => outp_loss 0 o (act_f (outp_act o)
      (bs (inc + 1) (fun k => nth (q mod m + k * m) (biased m (A t)) 0 * nth (q / m + k * n) (f t id W) 0))) (nth q Y 0)))%R).
    { intros t. f_equal. rewrite bs_sumR. apply bs_ext. intros q Hq. f_equal.
      rewrite (nth_indep _ 0%R (act_f (outp_act o) 0%R)) by (rewrite map_length, gemm_length; exact Hq). rewrite map_nth. f_equal.
      assert (Hr : q mod m < m) by (apply Nat.mod_upper_bound; lia). assert (Hc : q / m < n) by (apply Nat.div_lt_upper_bound; lia).
      symmetry. rewrite (Nat.div_mod q m) at 1 by lia. rewrite (Nat.mul_comm m). rewrite gemm_nth by assumption. cbv iota. ring. }
    eapply d_eq; [apply d_mult; [apply d_const|apply (d_bs _ _ (fun q => nth q z 0 * dZ m n inc (biased m (A x)) W dA (dW id) (q mod m)%nat (q / m)%nat)%R)]|reflexivity].
    intros q Hq.
    assert (Hr : q mod m < m) by (apply Nat.mod_upper_bound; lia). assert (Hc : q / m < n) by (apply Nat.div_lt_upper_bound; lia).
    assert (HDq : loss_domain o (nth q Y 0%R) (net_input m n inc (biased m (A x)) W (q mod m) (q / m))).
    { pose proof (HD _ _ Hr Hc) as D. rewrite <- Nat.div_mod in D by lia. exact D. }
    eapply d_eq; [apply (d_comp (fun s => outp_loss 0 o (act_f (outp_act o) s) (nth q Y 0%R))
       (fun t => bs (inc + 1) (fun k => nth (q mod m + k * m) (biased m (A t)) 0 * nth (q / m + k * n) (f t id W) 0)%R))|].
    + cbv beta. rewrite M1, <- net_input_bs. apply loss_derive; [lra|exact Had|exact HDq].
    + apply (d_net_input f dW x m n inc id W A dA); assumption.
    + rewrite eps_one; [|exact Had|exact HDq].
      f_equal. unfold z, oz. rewrite nth_map_seq by exact Hq. rewrite Rmult_1_r. f_equal.
      rewrite (nth_indep _ 0%R (act_f (outp_act o) 0%R)) by (rewrite map_length, gemm_length; exact Hq). rewrite map_nth. f_equal.
      rewrite net_input_bs. symmetry. rewrite (Nat.div_mod q m) at 1 by lia. rewrite (Nat.mul_comm m). rewrite gemm_nth by assumption. cbv iota. ring.
  - cbv beta. rewrite (fc_adjoint f dW) by exact Hm. field. exact HR.
Qed.
End Out.
