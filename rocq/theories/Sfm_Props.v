(** Property C32: softmax. *)
From Coq Require Import Reals Lra Lia Permutation.
From Coquelicot Require Import Coquelicot.
From Verif Require Import Base BaseLemmas Workers_Model Workers_Spec Kern_Model Kern_Spec Kern_Proofs
  IdxMax_Model IdxMax_Spec Act_Model Act_Spec Act_Proofs Loss_Proofs Sfm_Model Sfm_Spec Sfm_Proofs Sfm_Proofs2.
Local Open Scope nat_scope.

(** Every element but the biases becomes e^z / (sum of e^z over its row), for all
    thresholds, pools of threads and interleavings, within the documented amount of
    temporary memory. *)
Theorem C32_softmax : forall t pool A m, sfm_ready t pool A m ->
  softmax t pool A m (fun d' =>
    (forall r c, r < m_rows A -> c < cols_nb A ->
       bget d' (m_rows A * c + r) = Some (softmax_of (m_rows A) (cols_nb A) (m_data A) r c)) /\
    (forall a, m_rows A * cols_nb A <= a -> bget d' a = bget (m_data A) a)).
Proof. exact softmax_computes. Qed.
Print Assumptions C32_softmax.

Definition ex_t := mkST 0 0 3 100 0 11 500 0 0 100.
Definition ex_pool := [mkR 0 0 1; mkR 0 0 2].
Definition ex_A := mkM 2 6 true false [1; 2; 0; 5; 1; 1; 3; 3; 7; 0; 1; 1]%R.
(* 5 columns of activations and one of biases: the column-wise parallel branch *)
Example C32_softmax_ex : sfm_ready ex_t ex_pool ex_A (repeat 0%R 18) /\
  t_parts_cpt ex_t < cols_nb ex_A /\ length (cw_parts (t_parts_cpt ex_t) ex_pool (hidden ex_A)) = 2 /\
  bget (m_data ex_A) 10 = Some 1%R.
Proof. unfold sfm_ready. repeat split; cbn; try lia; reflexivity. Qed.

(** The result is a probability distribution. *)
Theorem C32_distribution : forall rows cols d r, 0 < cols ->
  (forall c, (0 < softmax_of rows cols d r c)%R) /\
  sumR (map (softmax_of rows cols d r) (seq 0 cols)) = 1%R.
Proof. intros rows cols d r H. split; [intros; apply softmax_pos; exact H|apply softmax_sums; exact H]. Qed.
Print Assumptions C32_distribution.

(** Adding a constant to a row changes nothing. *)
Theorem C32_shift : forall rows cols d d' k r, 0 < cols ->
  (forall c, c < cols -> elt rows d' r c = (elt rows d r c - k)%R) ->
  forall c, c < cols -> softmax_of rows cols d' r c = softmax_of rows cols d r c.
Proof.
  intros rows cols d d' k r Hc H c Hcc. rewrite <- (ex_softmax rows cols d (fun _ => k) r c Hc). unfold softmax_of.
  rewrite (H c Hcc). f_equal. apply sumR_ext. intros j Hj. apply in_seq in Hj. rewrite H by lia. reflexivity.
Qed.
Print Assumptions C32_shift.

Example C32_shift_ex : softmax_of 1 2 [0; 1]%R 0 1 = softmax_of 1 2 [5; 6]%R 0 1.
Proof.
  apply (C32_shift 1 2 [5; 6]%R [0; 1]%R 5 0); [lia| |lia].
  intros [|[|c]] Hc; try lia; unfold elt; cbn; lra.
Qed.

(** No exponential is taken of a positive number: numerators are in (0,1],
    denominators in [1, number of columns]; nothing can overflow or be divided by 0. *)
Theorem C32_bounded : forall t pool A m mt, sfm_ready t pool A m ->
  let n := m_rows A * cols_nb A in
  computes (mrwMax (t_max t) pool mt (hidden A) n m) m (fun m1 =>
    softmax_parts t pool mt (hidden A) n (n + m_rows A) 0 m1 (fun m2 =>
      (forall r, r < m_rows A -> exists v, bget m2 (n + m_rows A + r) = Some v /\ (1 <= v <= INR (cols_nb A))%R) /\
      (forall r c, r < m_rows A -> c < cols_nb A -> exists v, bget m2 (m_rows A * c + r) = Some v /\ (0 < v <= 1)%R))).
Proof. intros t pool A m mt H. exact (softmax_bounded t pool A m H mt). Qed.
Print Assumptions C32_bounded.

(** Row maxima. *)
Theorem C32_row_max : forall thr pool mt A pMax m,
  0 < m_rows A -> 0 < m_cols A -> numel A <= length (m_data A) -> pMax + m_rows A <= length m ->
  computes (mrwMax thr pool mt A pMax m) m (fun m' => forall r, r < m_rows A ->
    exists v, bget m' (pMax + r) = Some v /\ row_max_is (m_rows A) (m_cols A) (m_data A) r v).
Proof. intros. apply mrwMax_ok; assumption. Qed.
Print Assumptions C32_row_max.

Example C32_row_max_ex : row_max_is 2 3 [1; 2; 0; 5; 1; 1]%R 1 5%R.
Proof.
  split; [exists 1; split; [lia|reflexivity]|]. intros [|[|[|c]]] Hc; try lia; unfold elt; cbn; lra.
Qed.

(** The loss computed from the softmax of [Z] is the cross-entropy. *)
Theorem C32_loss : forall laz parts acts data_y rows cols Z, tiles parts (rows * cols) -> 0 < cols ->
  rows * cols <= length (m_data data_y) ->
  (forall r c, r < rows -> c < cols -> bget (m_data acts) (rows * c + r) = Some (softmax_of rows cols Z r c)) ->
  smx_loss laz parts acts data_y = Some (smx_batch_loss rows cols (m_data data_y) Z).
Proof. exact smx_loss_ok. Qed.
Print Assumptions C32_loss.

Example C32_loss_ex : smx_batch_loss 1 2 [0; 1]%R [3; 3]%R = ln 2.
Proof.
  unfold smx_batch_loss, softmax_of, elt, sumR. cbn.
  replace (exp 3 / (exp 3 + (exp 3 + 0)))%R with (/ 2)%R by (pose proof (exp_pos 3); field; lra).
  rewrite ln_Rinv by lra. ring.
Qed.

(** What dLdZ stores ... *)
Theorem C32_dLdZ : forall parts data_y act_dLdZ rows cols Z, tiles parts (rows * cols) ->
  rows * cols <= length (m_data data_y) -> rows * cols <= length (m_data act_dLdZ) ->
  (forall r c, r < rows -> c < cols -> bget (m_data act_dLdZ) (rows * c + r) = Some (softmax_of rows cols Z r c)) ->
  computes (smx_dLdZ parts data_y act_dLdZ) (m_data act_dLdZ) (fun d' =>
    (forall r c, r < rows -> c < cols -> bget d' (rows * c + r) = Some (softmax_of rows cols Z r c - elt rows (m_data data_y) r c)%R) /\
    (forall a, rows * cols <= a -> bget d' a = bget (m_data act_dLdZ) a)).
Proof. exact smx_dLdZ_ok. Qed.
Print Assumptions C32_dLdZ.

(** ... is the partial derivative of the batch loss when labels sum to one. *)
Theorem C32_gradient : forall rows cols Y Z r c, r < rows -> c < cols -> rows * cols <= length Z ->
  label_sum rows cols Y r = 1%R ->
  is_derive (fun x : R => smx_batch_loss rows cols Y (setn (rows * c + r) x Z)) (elt rows Z r c)
    (softmax_of rows cols Z r c - elt rows Y r c)%R.
Proof.
  intros rows cols Y Z r c Hr Hc HZ HL. eapply d_eq; [apply smx_gradient; assumption|]. rewrite HL. ring.
Qed.
Print Assumptions C32_gradient.

Example C32_gradient_ex : label_sum 2 2 [0; 1; 1; 0]%R 0 = 1%R /\
  is_derive (fun x : R => smx_batch_loss 2 2 [0; 1; 1; 0]%R [x; 7; 4; 9]%R) 4%R (1 / 2)%R.
Proof.
  assert (HL : label_sum 2 2 [0; 1; 1; 0]%R 0 = 1%R) by (unfold label_sum, elt, sumR; cbn; ring).
  split; [exact HL|]. eapply d_eq; [apply (C32_gradient 2 2 [0; 1; 1; 0]%R [4; 7; 4; 9]%R 0 0); [lia|lia|cbn; lia|exact HL]|].
  unfold softmax_of, elt, sumR. cbn. pose proof (exp_pos 4). field. lra.
Qed.

(** For other labels the derivative is (sum of the labels) * a - y: the stored
    value is not the derivative. *)
Theorem C32_gradient_any_labels : forall rows cols Y Z r c, r < rows -> c < cols -> rows * cols <= length Z ->
  is_derive (fun x : R => smx_batch_loss rows cols Y (setn (rows * c + r) x Z)) (elt rows Z r c)
    (label_sum rows cols Y r * softmax_of rows cols Z r c - elt rows Y r c)%R.
Proof. exact smx_gradient. Qed.
Print Assumptions C32_gradient_any_labels.
