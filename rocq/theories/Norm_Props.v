(** Properties C41, C72: max-norm and row norms. *)
From Coq Require Import Reals Lra Lia.
From Verif Require Import Base BaseLemmas Workers_Model Workers_Spec Kern_Model Kern_Spec Kern_Proofs
  IdxMax_Model IdxMax_Spec Act_Spec Sfm_Spec Norm_Model Norm_Spec Norm_Proofs.
Local Open Scope nat_scope.

(** For all thresholds, pools of threads and interleavings: a row over the bound is
    multiplied as a whole by a number in (0,1) and its squared norm becomes the bound;
    the others are unchanged; the bound holds afterwards. *)
Theorem C41_max_norm : forall t pool A maxn incl m, norm_ready t pool A maxn incl m ->
  mCheck_normalize_rows t pool A maxn incl m (fun d' => length d' = length (m_data A) /\
    forall r, r < m_rows A -> let n := row_norm2 (m_rows A) (counted A incl) in
      (n d' r <= maxn)%R /\
      ((maxn < n (m_data A) r)%R -> n d' r = maxn /\
        exists k, (0 < k < 1)%R /\ forall c, c < m_cols A -> elt (m_rows A) d' r c = (k * elt (m_rows A) (m_data A) r c)%R) /\
      ((n (m_data A) r <= maxn)%R -> forall c, c < m_cols A -> elt (m_rows A) d' r c = elt (m_rows A) (m_data A) r c)).
Proof. exact max_norm_ok. Qed.
Print Assumptions C41_max_norm.

(* 2 x 4, biases not counted: the first row has norm 9+16 > 4, the second 1+1+1 *)
Definition ex_W := mkM 2 4 false false [3; 1; 4; 1; 0; 1; 7; 9]%R.
Definition ex_NT := mkNT 0 0 1 100 0 0 100 0.
Definition ex_P := [mkR 0 0 1; mkR 0 0 2].
Example C41_max_norm_ex : norm_ready ex_NT ex_P ex_W 4 false (repeat 0%R 6) /\
  (4 < row_norm2 2 (counted ex_W false) (m_data ex_W) 0)%R /\
  (row_norm2 2 (counted ex_W false) (m_data ex_W) 1 <= 4)%R.
Proof.
  split; [|unfold row_norm2, sumR, elt; cbn; lra]. unfold norm_ready. repeat split; cbn; try lia; try lra.
Qed.

(** [mrwSetL2Norm] gives every row the norm... if no row is zero. *)
Theorem C72_set_norm_partial : forall t pool A maxn incl m, norm_ready t pool A maxn incl m ->
  (forall r, r < m_rows A -> exists c, c < counted A incl /\ elt (m_rows A) (m_data A) r c <> 0%R) ->
  mrwSetL2Norm t pool A maxn incl m (fun d' => length d' = length (m_data A) /\
    forall r, r < m_rows A -> row_norm2 (m_rows A) (counted A incl) d' r = maxn /\
      exists k, (0 < k)%R /\ forall c, c < m_cols A -> elt (m_rows A) d' r c = (k * elt (m_rows A) (m_data A) r c)%R).
Proof. exact set_norm_ok. Qed.
Print Assumptions C72_set_norm_partial.

Example C72_set_norm_ex : norm_ready ex_NT ex_P ex_W 1 false (repeat 0%R 6) /\
  forall r, r < 2 -> exists c, c < counted ex_W false /\ elt 2 (m_data ex_W) r c <> 0%R.
Proof.
  split; [unfold norm_ready; repeat split; cbn; try lia; try lra|].
  intros r Hr. exists 0. split; [cbn; lia|]. destruct r as [|[|r]]; [..|lia]; unfold elt; cbn; lra.
Qed.

(** With a zero row the factor is a division by zero: nothing can be said of the
    result, not even that there is one. *)
Theorem C72_set_norm_refuted : exists t pool A maxn incl m, norm_ready t pool A maxn incl m /\
  ~ mrwSetL2Norm t pool A maxn incl m (fun _ => True).
Proof.
  exists (mkNT 100 0 1 0 0 0 0 0), [], (mkM 1 1 false false [0%R]), 1%R, true, [5%R]. split.
  { unfold norm_ready. repeat split; cbn; try lia; try lra. }
  unfold mrwSetL2Norm, norm_rows, l2norm2. cbn -[computes Rlt_dec Rmult Rplus factors].
  intros (trs & E & _ & H). inversion E; subst trs. clear E.
  edestruct H as (d' & Ed & _ & H2).
  { eapply (il_pick _ 0); [reflexivity|]. eapply (il_pick _ 0); [reflexivity|]. apply il_done. repeat constructor. }
  cbn in Ed. inversion Ed; subst d'. clear - H2. destruct H2 as (trs & E & _).
  unfold factors in E. cbn -[Rmult Rplus] in E. unfold rdiv in E.
  destruct (Req_EM_T (0 + 0 * 0) 0) as [Q|Q]; [discriminate E|]. apply Q. lra.
Qed.
Print Assumptions C72_set_norm_refuted.
