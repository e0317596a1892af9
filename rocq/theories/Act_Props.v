(** Properties C30, C31, C70, C71: activations and losses. *)
From Coq Require Import Reals ZArith NArith Lra Lia Permutation.
From Coquelicot Require Import Coquelicot.
From Verif Require Import Base BaseLemmas Workers_Model Workers_Spec Kern_Model Kern_Spec Kern_Proofs
  Ew_Model Ew_Spec Ew_Proofs Act_Model Act_Spec Act_Proofs Loss_Proofs.
Local Open Scope R_scope.

(** ** C30: derivatives of activations *)
Theorem C30_derivative : forall t x, admissible t -> x <> 0 ->
  is_derive (act_f t) x (act_df t (act_f t x)).
Proof. exact act_derive. Qed.
Print Assumptions C30_derivative.

Example C30_derivative_ex : admissible (Elogu 500 3000) /\ act_f (Elogu 500 3000) (-1) = expm1 (-1) * (500 / 1000).
Proof. split; [simpl; lia|]. simpl. unfold k_elogu, milli, NR. simpl Z.of_N. destruct (Rlt_dec (-1) 0); [reflexivity|lra]. Qed.

(** Wherever the derivative exists, in particular at 0. *)
Theorem C30_wherever_differentiable : forall t x, admissible t -> ex_derive (act_f t) x ->
  is_derive (act_f t) x (act_df t (act_f t x)).
Proof. exact act_derive_ex. Qed.
Print Assumptions C30_wherever_differentiable.

(** These have no kink at all. *)
Theorem C30_smooth : forall t x, admissible t -> smooth t ->
  is_derive (act_f t) x (act_df t (act_f t x)).
Proof. exact smooth_derive. Qed.
Print Assumptions C30_smooth.

Example C30_smooth_ex : smooth (Softsign 2000000 500000) /\ admissible (Softsign 2000000 500000) /\
  is_derive (act_f (Softsign 2000000 500000)) 0 (1 / 4).
Proof.
  assert (H : admissible (Softsign 2000000 500000)) by (simpl; lia).
  split; [exact I|]. split; [exact H|]. eapply d_eq; [exact (smooth_derive (Softsign 2000000 500000) 0 H I)|].
  simpl. unfold k_dsoftsign, k_softsign, softsign_C, micro, NR. simpl N.eqb. cbv iota. simpl Z.of_N.
  replace (500000 / 1000000 * 0 / (2000000 / 1000000 + Rabs 0)) with 0 by (rewrite Rabs_R0; field).
  rewrite Rabs_R0. field.
Qed.

(** At a kink the routine returns one of the one-sided derivatives. *)
Theorem C30_kink : forall t, admissible t -> t <> Step ->
  exists right, side_derivative right (act_f t) 0 (act_df t (act_f t 0)).
Proof. exact act_one_sided. Qed.
Print Assumptions C30_kink.

(** On matrices: each element but the biases is replaced, for every split of the
    work between threads and every interleaving. *)
Theorem C30_matrix : forall t parts m,
  tiles parts (numel_nb m) -> (numel_nb m <= length (m_data m))%nat ->
  computes (act_apply t parts m) (m_data m)
    (mapped_prefix (numel_nb m) (fun _ v => Some (act_f t v)) (m_data m)).
Proof. intros t parts m HT HL. apply ew_correct; [exact HT|exact HL|discriminate]. Qed.
Print Assumptions C30_matrix.

Theorem C30_matrix_df : forall t parts m,
  tiles parts (numel m) -> (numel m <= length (m_data m))%nat ->
  computes (act_apply_df t parts m) (m_data m)
    (mapped_prefix (numel m) (fun _ v => Some (act_df t v)) (m_data m)).
Proof. intros t parts m HT HL. apply ew_correct; [exact HT|exact HL|discriminate]. Qed.
Print Assumptions C30_matrix_df.

Definition ex_m : mtx R := mkM 2 2 true false [-3; 5; 1; 1].
Definition ex_parts : list prange := [mkR 1 1 1; mkR 0 1 0].
Lemma ex_tiles : tiles ex_parts 2.
Proof.
  split; [apply perm_swap|]. intros p [<-|[<-|[]]]; simpl; lia.
Qed.
Example C30_matrix_ex : tiles ex_parts (numel_nb ex_m) /\ (numel_nb ex_m <= length (m_data ex_m))%nat /\
  exists trs, act_apply Relu ex_parts ex_m = Some trs /\
    forall ws, interleaving trs ws -> apply_writes (m_data ex_m) ws = Some [0; 5; 1; 1].
Proof.
  assert (En : numel_nb ex_m = 2%nat) by reflexivity. assert (El : length (m_data ex_m) = 4%nat) by reflexivity.
  split; [exact ex_tiles|]. split; [lia|].
  destruct (C30_matrix Relu ex_parts ex_m ex_tiles ltac:(lia)) as (trs & E & _ & H).
  exists trs. split; [exact E|]. intros ws Hws. destruct (H ws Hws) as (d' & Ed & Hl & H1 & H2). rewrite Ed. f_equal.
  simpl in Hl.
  destruct (H1 0%nat (-3) ltac:(lia) eq_refl) as [G0 _]. destruct (H1 1%nat 5 ltac:(lia) eq_refl) as [G1 _].
  pose proof (H2 2%nat ltac:(lia)) as G2. pose proof (H2 3%nat ltac:(lia)) as G3.
  destruct d' as [|a [|b [|c [|d [|]]]]]; try discriminate.
  cbv [bget nth_error act_f k_relu ex_m m_data] in G0, G1, G2, G3.
  destruct (Rle_dec (-3) 0); [|lra]. destruct (Rle_dec 5 0); [lra|].
  injection G0 as ->. injection G1 as ->. injection G2 as ->. injection G3 as ->. reflexivity.
Qed.

(** ** C31: derivatives of losses through the output activation *)
Theorem C31_element : forall tiny o y z, 0 <= tiny -> admissible (outp_act o) -> loss_domain o y z ->
  is_derive (fun z => outp_loss tiny o (act_f (outp_act o) z) y) z
    (outp_dLdZ o y (act_f (outp_act o) z) * eps_factor tiny o y (act_f (outp_act o) z)).
Proof. exact loss_derive. Qed.
Print Assumptions C31_element.

(** The cross-entropy of the code is the textbook one but for [tiny]. *)
Theorem C31_xentropy_meaning : forall tiny a y, binary y ->
  l_xent tiny a y = - (y * ln (a + tiny) + (1 - y) * ln (1 - a + tiny)).
Proof.
  intros tiny a y [-> | ->]; unfold l_xent, log_eps, log1p_eps.
  - destruct (Rlt_dec 0 0); [lra|]. replace (1 + - a) with (1 - a) by ring. ring.
  - destruct (Rlt_dec 0 1); [|lra]. ring.
Qed.
Print Assumptions C31_xentropy_meaning.

(** and its effect on the derivative vanishes with [tiny] *)
Theorem C31_factor : forall tiny o y a, 0 <= tiny -> 0 < a < 1 ->
  Rabs (eps_factor tiny o y a - 1) <= tiny / prob a y.
Proof.
  intros tiny o y a Ht Ha. pose proof (prob_pos a y Ha) as Hp.
  assert (H0 : 0 <= tiny / prob a y) by (apply Rmult_le_pos; [exact Ht|left; apply Rinv_0_lt_compat, Hp]).
  assert (H1 : Rabs (prob a y / (prob a y + tiny) - 1) <= tiny / prob a y).
  { replace (prob a y / (prob a y + tiny) - 1) with (- (tiny / (prob a y + tiny))) by (field; lra).
    rewrite Rabs_Ropp, Rabs_pos_eq.
    - unfold Rdiv. apply Rmult_le_compat_l; [exact Ht|]. apply Rinv_le_contravar; lra.
    - apply Rmult_le_pos; [exact Ht|left; apply Rinv_0_lt_compat; lra]. }
  destruct o; simpl; try exact H1; rewrite Rminus_diag_eq, Rabs_R0 by reflexivity; exact H0.
Qed.
Print Assumptions C31_factor.

(** The loss of a batch is the sum over its elements, and the gradient buffer the
    loss routine fills holds its partial derivatives with respect to the net inputs,
    for every split of the work. *)
Theorem C31_batch : forall tiny o parts acts data_y Z,
  0 <= tiny -> admissible (outp_act o) ->
  tiles parts (length Z) -> length (m_data data_y) = length Z ->
  m_data acts = map (act_f (outp_act o)) Z ->
  (forall k, (k < length Z)%nat -> loss_domain o (nth k (m_data data_y) 0) (nth k Z 0)) ->
  (forall ns, loss_total tiny ns o parts acts data_y = Some (batch_loss tiny o (m_data data_y) Z)) /\
  computes (apply_dLdZ o parts data_y acts) (m_data acts) (fun D =>
    forall k, (k < length Z)%nat -> exists d, bget D k = Some d /\
      is_derive (fun z => batch_loss tiny o (m_data data_y) (setn k z Z)) (nth k Z 0)
        (d * eps_factor tiny o (nth k (m_data data_y) 0) (act_f (outp_act o) (nth k Z 0)))).
Proof.
  intros tiny o parts acts data_y Z Ht Had HT HY HA HD.
  assert (HLA : length (m_data acts) = length Z) by (rewrite HA; apply map_length).
  assert (HnA : forall i, (i < length Z)%nat -> nth i (m_data acts) 0 = act_f (outp_act o) (nth i Z 0)).
  { intros i Hi. rewrite HA. rewrite (nth_indep _ 0 (act_f (outp_act o) 0)) by (rewrite map_length; exact Hi).
    apply map_nth. }
  split.
  - intros ns. rewrite (loss_total_ok tiny ns o parts acts data_y (length Z) HT) by lia. f_equal.
    unfold batch_loss, loss_spec. f_equal. apply map_ext_in. intros i Hi. apply in_seq in Hi. rewrite HnA by lia. reflexivity.
  - destruct (ew_correct parts (length Z) (fun i a => do y <- bget (m_data data_y) i; Some (outp_dLdZ o y a)) (m_data acts))
      as (trs & E & Hr & H).
    + exact HT.
    + lia.
    + intros i v Hi _. rewrite bget_nth by lia. discriminate.
    + exists trs. split; [exact E|]. split; [exact Hr|]. intros ws Hws. destruct (H ws Hws) as (d' & Ed & Hl & H1 & _).
      exists d'. split; [exact Ed|]. split; [exact Hl|]. intros k Hk.
      destruct (H1 k (nth k (m_data acts) 0) Hk) as [G _]; [apply bget_nth; lia|].
      rewrite (bget_nth (m_data data_y)) in G by lia. simpl in G. rewrite HnA in G by exact Hk.
      eexists. split; [exact G|]. apply batch_gradient; auto.
Qed.
Print Assumptions C31_batch.

Example C31_ex : admissible (outp_act SigmXent) /\ tiles ex_parts (length [2; -1]) /\
  (forall k, (k < 2)%nat -> loss_domain SigmXent (nth k [1; 0] 0) (nth k [2; -1] 0)) /\
  outp_dLdZ SigmXent 1 (act_f Sigm 0) = - / 2.
Proof.
  split; [exact I|]. split; [exact ex_tiles|]. split.
  - intros [|[|k]] Hk; simpl; [right|left|lia]; reflexivity.
  - simpl. unfold k_sigm. rewrite Ropp_0, exp_0. field.
Qed.

(** ** C70: the zero-stability flag *)
Theorem C70_zero_stable : forall t, admissible t -> (zero_stable t = true <-> act_f t 0 = 0).
Proof. exact zero_stable_iff. Qed.
Print Assumptions C70_zero_stable.

Example C70_ex : zero_stable (Logu 2718) = true /\ zero_stable Sigm = false /\ admissible (Logu 2718) /\ act_f Sigm 0 = / 2.
Proof. repeat split; try (simpl; lia). simpl. unfold k_sigm. rewrite Ropp_0, exp_0. field. Qed.

(** ** C71: the residual-weighted loss *)

(** The documented loss: the heavier weight applies to a - YBoundary when y is below
    and a above the boundary (_loss_parts.h:104). *)
Definition residual_doc (f b a y : R) : R :=
  let e := if Rlt_dec y b then if Rlt_dec b a then f * (a - b) + (b - y) else a - y else a - y in (e * e) / 2.

(** It is what the code computes except for activations between the label and the
    boundary. *)
Theorem C71_residual_partial : forall f b a y, (a <= y \/ micro b <= a \/ micro b <= y) ->
  l_weighted (QuadWRes f b) a y = residual_doc (micro f) (micro b) a y.
Proof.
  intros f b a y H. unfold l_weighted, residual_doc, fp_case.
  destruct (Rlt_dec y (micro b)); [|reflexivity].
  destruct (Rlt_dec y a); destruct (Rlt_dec (micro b) a); try lra; try field.
  assert (a = micro b) by lra. subst a. field.
Qed.
Print Assumptions C71_residual_partial.

Example C71_ex : l_weighted (QuadWRes 2000000 1000000) 3 0 = 25 / 2.
Proof.
  rewrite C71_residual_partial by (right; left; unfold micro, NR; simpl; lra). unfold residual_doc, micro, NR. simpl Z.of_N.
  destruct (Rlt_dec 0 (1000000 / 1000000)); [|lra]. destruct (Rlt_dec (1000000 / 1000000) 3); [field|lra].
Qed.

(** In between they differ, and the loss of the code jumps as the prediction passes
    the label. *)
Theorem C71_residual_refuted : exists f b y,
  (exists a, l_weighted (QuadWRes f b) a y <> residual_doc (micro f) (micro b) a y) /\
  ~ continuous (fun a => l_weighted (QuadWRes f b) a y) y.
Proof.
  exists 500000%N, 1000000%N, 0.
  assert (Hp : forall a, 0 < a -> l_weighted (QuadWRes 500000 1000000) a 0 = (/ 2 * a + / 2) * (/ 2 * a + / 2) / 2).
  { intros a Ha. unfold l_weighted, fp_case, micro, NR. simpl Z.of_N.
    destruct (Rlt_dec 0 (1000000 / 1000000)); [|lra]. destruct (Rlt_dec 0 a); [|lra]. field. }
  assert (H0 : l_weighted (QuadWRes 500000 1000000) 0 0 = 0).
  { unfold l_weighted, fp_case. cases; unfold Rdiv; ring. }
  split.
  - exists (/ 2). rewrite Hp by lra. unfold residual_doc, micro, NR. simpl Z.of_N.
    destruct (Rlt_dec 0 (1000000 / 1000000)); [|lra]. cases; intros E; lra.
  - intros H. unfold continuous in H. rewrite H0 in H.
    assert (He : 0 < / 10) by lra.
    specialize (H (fun v => Rabs v < / 10)). unfold filtermap in H. destruct H as [d Hd].
    + exists (mkposreal _ He). intros v Hv. unfold ball in Hv. simpl in Hv.
      unfold AbsRing_ball, abs, minus, plus, opp in Hv. simpl in Hv. rewrite Ropp_0, Rplus_0_r in Hv. exact Hv.
    + pose proof (cond_pos d) as Hdp. assert (Hb : ball 0 d (d / 2)).
      { unfold ball. simpl. unfold AbsRing_ball, abs, minus, plus, opp. simpl.
        rewrite Rabs_pos_eq; lra. }
      specialize (Hd (d / 2) Hb). simpl in Hd.
      assert (Hd2 : 0 < d / 2) by lra. change (Rabs (l_weighted (QuadWRes 500000 1000000) (d / 2) 0) < / 10) in Hd.
      rewrite Hp in Hd by exact Hd2. apply Rabs_def2 in Hd. nra.
Qed.
Print Assumptions C71_residual_refuted.
