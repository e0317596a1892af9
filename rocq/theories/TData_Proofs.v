(** Buffers of the training data object: resizing, deforming, filling. *)
From Coq Require Import Permutation.
From Verif Require Import Base BaseLemmas Workers_Model Kern_Model Kern_Spec Kern_Proofs MKern_Model MKern_Spec
  MKern_Proofs Smx_Model Smx_Spec Smx_Proofs Smx_Proofs2 TData_Model TData_Spec.

Section Buf.
Context {C : Type} (one : C).
Implicit Types (b s : smx C).

(** A buffer for samples of [W] elements and at most [cap] of them. *)
Definition buf (bir bias : bool) (W cap : nat) b : Prop :=
  s_bir b = bir /\ s_bias b = bias /\ 0 < W /\ sample_size b = W /\ 0 < batch_size b /\
  s_rows b * s_cols b = (W + Nat.b2n bias) * batch_size b /\ 0 < s_rows b /\ 0 < s_cols b /\
  batch_size b <= cap /\
  (exists l, s_data b = Some l /\ (W + Nat.b2n bias) * cap <= length l) /\ biases_one one b.

Lemma buf_alloc bir bias W cap b : buf bir bias W cap b -> well_alloc b.
Proof.
  intros (H1 & H2 & H3 & H4 & H5 & H6 & H7 & H8 & H9 & (l & D & N) & _).
  split; [exact H7|]. split; [exact H8|]. exists l. split; [exact D|].
  unfold s_numel. rewrite H6. nia.
Qed.

Lemma buf_empty bir bias W cap b : buf bir bias W cap b -> empty b = false.
Proof. intros (_ & _ & _ & _ & _ & _ & _ & _ & _ & (l & D & _) & _). unfold empty. rewrite D. reflexivity. Qed.

Lemma shape_dims b W n bias : s_bias b = bias -> 0 < W ->
  (if s_bir b then s_rows b = W + Nat.b2n bias /\ s_cols b = n else s_rows b = n /\ s_cols b = W + Nat.b2n bias) ->
  sample_size b = W /\ batch_size b = n /\ s_rows b * s_cols b = (W + Nat.b2n bias) * n.
Proof.
  intros Hb HW H. unfold sample_size, batch_size, s_rows_nb, s_cols_nb, s_bias_row, s_bias_col. rewrite Hb.
  destruct (s_bir b), bias; cbn [andb negb Nat.b2n] in *; destruct H as [-> ->]; repeat split; lia.
Qed.

Lemma dims_shape b W n bias : s_bias b = bias -> 0 < W -> sample_size b = W -> batch_size b = n ->
  if s_bir b then s_rows b = W + Nat.b2n bias /\ s_cols b = n else s_rows b = n /\ s_cols b = W + Nat.b2n bias.
Proof.
  intros Hb HW H1 H2. unfold sample_size, batch_size, s_rows_nb, s_cols_nb, s_bias_row, s_bias_col in *. rewrite Hb in *.
  destruct (s_bir b), bias; cbn [andb negb Nat.b2n] in *; lia.
Qed.

(** ** deform_batch_size_with_biases *)
Lemma deform_buf bir bias W cap b n :
  buf bir bias W cap b -> 0 < n <= cap ->
  exists b', deform_batch_size_with_biases one b n = Some b' /\ buf bir bias W cap b' /\ batch_size b' = n.
Proof.
  intros HB Hn. pose proof HB as (H1 & H2 & H3 & H4 & H5 & H6 & H7 & H8 & H9 & (l & D & N) & HO).
  pose proof (dims_shape b W (batch_size b) bias H2 H3 H4 eq_refl) as Hs.
  unfold deform_batch_size_with_biases.
  destruct (Nat.eqb_spec (batch_size b) n) as [E|E].
  - exists b. split; [|split; [exact HB|exact E]]. f_equal. unfold deform_batch_size, deform_cols, deform_rows, with_dims.
    rewrite <- E. unfold batch_size. destruct (s_bir b) eqn:Eb; destruct b; simpl in *; subst; reflexivity.
  - set (s1 := deform_batch_size b n).
    assert (K : s_bir s1 = bir /\ s_bias s1 = bias /\ s_data s1 = Some l /\
                sample_size s1 = W /\ batch_size s1 = n /\ s_rows s1 * s_cols s1 = (W + Nat.b2n bias) * n /\
                0 < s_rows s1 /\ 0 < s_cols s1).
    { assert (Eb : s_bir s1 = bir).
      { unfold s1, deform_batch_size, deform_cols, deform_rows, with_dims. destruct (s_bir b) eqn:Q; simpl; congruence. }
      assert (Ea : s_bias s1 = bias).
      { unfold s1, deform_batch_size, deform_cols, deform_rows, with_dims. destruct (s_bir b) eqn:Q; simpl; congruence. }
      assert (Ed : s_data s1 = Some l).
      { unfold s1, deform_batch_size, deform_cols, deform_rows, with_dims. destruct (s_bir b) eqn:Q; simpl; congruence. }
      assert (Hs1 : if s_bir s1 then s_rows s1 = W + Nat.b2n bias /\ s_cols s1 = n
                    else s_rows s1 = n /\ s_cols s1 = W + Nat.b2n bias).
      { rewrite Eb, <- H1. unfold s1, deform_batch_size, deform_cols, deform_rows, with_dims.
        destruct (s_bir b) eqn:Q; simpl; split; try reflexivity; destruct Hs; assumption. }
      pose proof (shape_dims s1 W n bias Ea H3 Hs1) as (Q1 & Q2 & Q3).
      do 6 (split; [assumption|]). destruct (s_bir s1); destruct Hs1 as [-> ->]; lia. }
    destruct K as (K1 & K2 & K3 & K4 & K5 & K6 & K7 & K8).
    assert (HN : s_numel s1 <= length l) by (unfold s_numel; rewrite K6; nia).
    rewrite K2. destruct bias.
    + destruct (set_biases_spec one s1 l K3 K7 K8 HN) as (b' & l' & E' & (L1 & L2 & L3 & L4 & L5) & _ & D' & LL & BP & _).
      exists b'. split; [exact E'|].
      assert (Q1 : sample_size b' = W).
      { rewrite <- K4. unfold sample_size, s_rows_nb, s_cols_nb, s_bias_row, s_bias_col. rewrite L1, L2, L3, L4. reflexivity. }
      assert (Q2 : batch_size b' = n) by (rewrite <- K5; unfold batch_size; rewrite L1, L2, L4; reflexivity).
      split; [|exact Q2]. unfold buf. rewrite Q1, Q2, L1, L2, L3, L4.
      do 5 (split; [congruence || lia|]). split; [exact K6|]. do 3 (split; [lia|]). split.
      * exists l'. split; [exact D'|]. lia.
      * apply (biases_one_part one b' l' D'); [lia|lia|]. intros _. rewrite L1, L2, L4. exact BP.
    + exists s1. split; [reflexivity|]. split; [|exact K5]. unfold buf. rewrite K4, K5.
      do 5 (split; [congruence || lia|]). split; [exact K6|]. do 3 (split; [lia|]). split; [eauto|].
      intros Hf. congruence.
Qed.

Lemma deform_nobias b n : s_bias b = false -> deform_batch_size_with_biases one b n = Some (deform_batch_size b n).
Proof.
  intros H. unfold deform_batch_size_with_biases.
  assert (s_bias (deform_batch_size b n) = false) as ->.
  { unfold deform_batch_size, deform_cols, deform_rows, with_dims. destruct (s_bir b); exact H. }
  destruct (_ =? _); reflexivity.
Qed.

(** ** Fresh buffers *)
Lemma resize_buf me s bs W :
  s_ext s = false -> 0 < bs -> 0 < W ->
  exists ok b, d_resize_as_dataset one me s bs W = Some (ok, b) /\ s_ext b = false /\
    (ok = true -> buf (s_bir s) (s_bias s) W bs b /\ batch_size b = bs) /\
    (ok = false -> me = None /\ empty b = true).
Proof.
  intros Hx Hb HW. unfold d_resize_as_dataset, resize_as_dataset.
  assert (Ef : s_bir (free s) = s_bir s) by reflexivity. rewrite Ef.
  assert (Hf : alloc_failed (free s) = false) by reflexivity.
  assert (He : empty (free s) = false -> well_alloc (free s)) by (intros Q; discriminate).
  destruct (s_bir s) eqn:Eb.
  - destruct (resize_good one me (free s) W bs Hx HW Hb Hf He)
      as (ok & b & E & R & Cc & B1 & I1 & X1 & Eok & Wa & G & M).
    exists ok, b. split; [exact E|]. split; [exact X1|]. split.
    + intros ->. assert (He' : empty b = false) by (destruct (empty b); [discriminate|reflexivity]).
      destruct (Wa He') as (V1 & V2 & l & D & N). change (s_bias (free s)) with (s_bias s) in B1.
      change (s_bir (free s)) with (s_bir s) in I1. rewrite Eb in I1.
      unfold s_bias_row, s_bias_col in R, Cc. cbn [free with_mem with_dims s_bias s_bir] in R, Cc. rewrite Eb in R, Cc.
      cbn [negb] in R, Cc. rewrite andb_true_r in R. rewrite andb_false_r in Cc. cbn [Nat.b2n] in Cc. rewrite Nat.add_0_r in Cc.
      assert (Hs : if s_bir b then s_rows b = W + Nat.b2n (s_bias s) /\ s_cols b = bs
                   else s_rows b = bs /\ s_cols b = W + Nat.b2n (s_bias s)) by (rewrite I1; split; assumption).
      destruct (shape_dims b W bs (s_bias s) B1 HW Hs) as (Q1 & Q2 & Q3).
      split; [|exact Q2]. unfold buf. rewrite Q1, Q2.
      do 5 (split; [congruence || lia|]). split; [exact Q3|]. do 3 (split; [lia|]). split.
      * exists l. split; [exact D|]. unfold s_numel in N. rewrite Q3 in N. exact N.
      * destruct G as [G|[_ G]]; [congruence|exact G].
    + intros ->. split; [destruct me; [discriminate M; discriminate|reflexivity]|].
      destruct (empty b); [reflexivity|discriminate].
  - destruct (resize_good one me (free s) bs W Hx Hb HW Hf He)
      as (ok & b & E & R & Cc & B1 & I1 & X1 & Eok & Wa & G & M).
    exists ok, b. split; [exact E|]. split; [exact X1|]. split.
    + intros ->. assert (He' : empty b = false) by (destruct (empty b); [discriminate|reflexivity]).
      destruct (Wa He') as (V1 & V2 & l & D & N). change (s_bias (free s)) with (s_bias s) in B1.
      change (s_bir (free s)) with (s_bir s) in I1. rewrite Eb in I1.
      unfold s_bias_row, s_bias_col in R, Cc. cbn [free with_mem with_dims s_bias s_bir] in R, Cc. rewrite Eb in R, Cc.
      cbn [negb] in R, Cc. rewrite andb_true_r in Cc. rewrite andb_false_r in R. cbn [Nat.b2n] in R. rewrite Nat.add_0_r in R.
      assert (Hs : if s_bir b then s_rows b = W + Nat.b2n (s_bias s) /\ s_cols b = bs
                   else s_rows b = bs /\ s_cols b = W + Nat.b2n (s_bias s)) by (rewrite I1; split; assumption).
      destruct (shape_dims b W bs (s_bias s) B1 HW Hs) as (Q1 & Q2 & Q3).
      split; [|exact Q2]. unfold buf. rewrite Q1, Q2.
      do 5 (split; [congruence || lia|]). split; [exact Q3|]. do 3 (split; [lia|]). split.
      * exists l. split; [exact D|]. unfold s_numel in N. rewrite Q3 in N. exact N.
      * destruct G as [G|[_ G]]; [congruence|exact G].
    + intros ->. split; [destruct me; [discriminate M; discriminate|reflexivity]|].
      destruct (empty b); [reflexivity|discriminate].
Qed.

(** ** Kernels *)
Lemma run_kernel_computes sched call s d ls ld post :
  s_data s = Some ls -> s_data d = Some ld -> (forall trs, interleaving trs (sched trs)) ->
  computes (call (mkM (s_rows s) (s_cols s) (s_bias s) (s_bir s) ls)
                 (mkM (s_rows d) (s_cols d) (s_bias d) (s_bir d) ld)) ld post ->
  exists l', run_kernel sched call s d = Some (with_mem d (Some l')) /\ length l' = length ld /\ post l'.
Proof.
  intros Ds Dd Hs (trs & E & _ & H). unfold run_kernel, as_mtx. rewrite Ds, Dd. cbn [obind]. rewrite E. cbn [obind m_data].
  destruct (H (sched trs) (Hs trs)) as (d' & Ea & L & P). rewrite Ea. cbn [obind]. eauto.
Qed.

(** The block written leaves the biases alone. *)
Lemma block_buf bir bias W cap b l l' f :
  buf bir bias W cap b -> s_data b = Some l -> length l' = length l ->
  holds_block (s_rows b) (s_rows_nb b) (s_cols_nb b) f l l' ->
  buf bir bias W cap (with_mem b (Some l')) /\
  (forall i j, i < s_rows_nb b -> j < s_cols_nb b -> cell (with_mem b (Some l')) i j = f i j /\ f i j <> None).
Proof.
  intros HB D L [HF HK]. pose proof HB as (H1 & H2 & H3 & H4 & H5 & H6 & H7 & H8 & H9 & (l0 & D0 & N) & HO).
  rewrite D in D0. injection D0 as <-. split.
  - unfold buf. change (sample_size (with_mem b (Some l'))) with (sample_size b).
    change (batch_size (with_mem b (Some l'))) with (batch_size b). cbn [with_mem s_rows s_cols s_bir s_bias s_data].
    do 9 (split; [assumption|]). split; [exists l'; split; [reflexivity|lia]|].
    apply (biases_one_part one (with_mem b (Some l')) l'); [reflexivity|assumption|assumption|].
    cbn [with_mem s_rows s_cols s_bir s_bias]. intros Hb.
    pose proof (proj1 (biases_one_part one b l D H7 H8) HO Hb) as HP. unfold bias_part in *.
    unfold s_rows_nb, s_cols_nb, s_bias_row, s_bias_col in HK. rewrite Hb in HK. destruct (s_bir b); cbn [andb negb Nat.b2n] in HK.
    + intros c Hc. rewrite HK; [apply HP; exact Hc|]. intros i j Hi Hj E.
      destruct (addr_inj (s_rows b) (s_rows b - 1) c i j) as [Q _]; lia.
    + intros r Hr. rewrite HK; [apply HP; exact Hr|]. intros i j Hi Hj E.
      destruct (addr_inj (s_rows b) r (s_cols b - 1) i j) as [_ Q]; lia.
  - intros i j Hi Hj. unfold cell. cbn [with_mem s_data obind s_rows]. apply HF; assumption.
Qed.

Lemma cell_mget s l i j : s_data s = Some l ->
  mget (mkM (s_rows s) (s_cols s) (s_bias s) (s_bir s) l) i j = cell s i j.
Proof. intros D. unfold mget, cell, ldim. rewrite D. reflexivity. Qed.

Lemma alloc_smx s l : well_alloc s -> s_data s = Some l -> alloc (mkM (s_rows s) (s_cols s) (s_bias s) (s_bir s) l).
Proof. intros (_ & _ & l' & D & N) D'. rewrite D in D'. injection D' as ->. exact N. Qed.

(** what it takes to gather samples [ids] of [src] into buffer [b] *)
Lemma extract_batches_buf sched parts idx src b bir bias W cap :
  well_alloc src -> s_bir src = bir -> s_bias src = bias -> sample_size src = W -> buf bir bias W cap b ->
  (forall n, 0 < n -> tiles (parts n) n) -> (forall trs, interleaving trs (sched trs)) ->
  (forall r, r < batch_size b -> exists i, nth_error idx r = Some i /\ i < batch_size src) ->
  exists b', run_kernel sched (extract_batches parts idx) src b = Some b' /\ buf bir bias W cap b' /\
    batch_size b' = batch_size b /\ holds one b' src (firstn (batch_size b) idx).
Proof.
  intros Hsa Hsb Hsi HsW HB Hp Hs Hi. pose proof Hsa as (S1 & S2 & ls & Ds & Ns).
  pose proof HB as (H1 & H2 & H3 & H4 & H5 & H6 & H7 & H8 & H9 & (l & D & N) & HO).
  pose proof (dims_shape b W (batch_size b) bias H2 H3 H4 eq_refl) as Sb.
  pose proof (dims_shape src W (batch_size src) bias Hsi H3 HsW eq_refl) as Ss.
  assert (Hdone : forall l' f,
      length l' = length l -> holds_block (s_rows b) (s_rows_nb b) (s_cols_nb b) f l l' ->
      (forall i k j, i < batch_size b -> nth_error idx i = Some k -> j < W ->
         (if bir then f j i else f i j) = scell src k j) ->
      exists b', Some (with_mem b (Some l')) = Some b' /\ buf bir bias W cap b' /\
        batch_size b' = batch_size b /\ holds one b' src (firstn (batch_size b) idx)).
  { intros l' f L HBk Hf. destruct (block_buf bir bias W cap b l l' f HB D L HBk) as [HB' HC].
    eexists. split; [reflexivity|]. split; [exact HB'|]. split; [reflexivity|].
    assert (Hlen : batch_size b <= length idx).
    { destruct (le_lt_dec (batch_size b) (length idx)); [assumption|].
      destruct (Hi (batch_size b - 1)) as (i & E & _); [lia|].
      assert (batch_size b - 1 < length idx) by (apply nth_error_Some; congruence). lia. }
    split; [rewrite firstn_length; change (batch_size (with_mem b (Some l'))) with (batch_size b); lia|].
    split; [rewrite HsW; exact H4|]. split; [rewrite Hsb; exact H1|]. split; [rewrite Hsi; exact H2|].
    split; [apply (buf_alloc _ _ _ _ _ HB')|]. split; [apply HB'|].
    intros i k j Hk Hj.
    assert (Hi1 : i < batch_size b).
    { assert (i < length (firstn (batch_size b) idx)) by (apply nth_error_Some; congruence).
      rewrite firstn_length in *. lia. }
    assert (Hk' : nth_error idx i = Some k).
    { rewrite <- (firstn_skipn (batch_size b) idx), nth_error_app1; [exact Hk|]. apply nth_error_Some. congruence. }
    rewrite HsW in Hj. specialize (Hf i k j Hi1 Hk' Hj).
    unfold scell at 1. unfold scell at 2. cbn [with_mem s_bir]. rewrite H1. rewrite <- Hf.
    rewrite H1 in Sb. unfold s_rows_nb, s_cols_nb, s_bias_row, s_bias_col in HC. rewrite H1, H2 in HC.
    destruct bir; [destruct (HC j i) as [Q1 Q2]|destruct (HC i j) as [Q1 Q2]];
      try (rewrite Q1; split; [reflexivity|exact Q2]); destruct bias; cbn [andb negb Nat.b2n] in *; lia. }
  set (ms := mkM (s_rows src) (s_cols src) (s_bias src) (s_bir src) ls).
  set (md := mkM (s_rows b) (s_cols b) (s_bias b) (s_bir b) l).
  destruct bir.
  - destruct (run_kernel_computes sched (extract_batches parts idx) src b ls l
      (holds_block (s_rows b) (s_rows_nb b) (s_cols_nb b) (fun r c => do i <- bget idx c; mget ms r i) l) Ds D Hs)
      as (l' & E & L & P).
    + unfold extract_batches, mExtractBatches. fold ms md. change (m_bir ms) with (s_bir src). rewrite Hsb.
      rewrite H1 in Sb. rewrite Hsb in Ss.
      assert (Hc : cols_nb md = batch_size b).
      { unfold cols_nb, has_bias_col, md. cbn [m_cols m_bias m_bir]. rewrite H1, andb_false_r. cbn [Nat.b2n]. lia. }
      apply (extract_cols_correct (parts (cols_nb md)) ms idx md).
      * apply alloc_smx; assumption.
      * apply alloc_smx; [|exact D]. exact (buf_alloc _ _ _ _ _ HB).
      * unfold rows_nb, has_bias_row, md, ms. cbn [m_rows m_bias m_bir]. rewrite H1, H2, Hsb, Hsi.
        destruct Sb as [-> _], Ss as [-> _]. reflexivity.
      * rewrite Hc. intros r Hr. destruct (Hi r Hr) as (i & Ei & Li). exists i. split; [exact Ei|].
        change (m_cols ms) with (s_cols src). destruct Ss as [_ ->]. exact Li.
      * apply Hp. lia.
    + rewrite E. apply (Hdone l' _ L P). intros i k j Hi1 Hk Hj. change (bget idx i) with (nth_error idx i). rewrite Hk.
      cbn [obind]. unfold scell. rewrite Hsb. apply cell_mget. exact Ds.
  - destruct (run_kernel_computes sched (extract_batches parts idx) src b ls l
      (holds_block (s_rows b) (s_rows_nb b) (s_cols_nb b) (fun r c => do i <- bget idx r; mget ms i c) l) Ds D Hs)
      as (l' & E & L & P).
    + unfold extract_batches, mExtractBatches. fold ms md. change (m_bir ms) with (s_bir src). rewrite Hsb.
      rewrite H1 in Sb. rewrite Hsb in Ss.
      assert (Hr : s_rows_nb b = m_rows md).
      { unfold s_rows_nb, s_bias_row, md. cbn [m_rows]. rewrite H1, andb_false_r. cbn [Nat.b2n]. lia. }
      rewrite Hr.
      apply (extract_rows_correct (parts (m_rows md)) ms idx md).
      * apply alloc_smx; assumption.
      * apply alloc_smx; [|exact D]. exact (buf_alloc _ _ _ _ _ HB).
      * unfold cols_nb, has_bias_col, md, ms. cbn [m_cols m_bias m_bir]. rewrite H1, H2, Hsb, Hsi.
        destruct Sb as [_ ->], Ss as [_ ->]. reflexivity.
      * change (m_rows md) with (s_rows b). intros r Hr'. destruct Sb as [Sb1 _]. rewrite Sb1 in Hr'.
        destruct (Hi r Hr') as (i & Ei & Li). exists i. split; [exact Ei|].
        change (m_rows ms) with (s_rows src). destruct Ss as [-> _]. exact Li.
      * apply Hp. change (m_rows md) with (s_rows b). lia.
    + rewrite E. apply (Hdone l' _ L P). intros i k j Hi1 Hk Hj. change (bget idx i) with (nth_error idx i). rewrite Hk.
      cbn [obind]. unfold scell. rewrite Hsb. apply cell_mget. exact Ds.
Qed.
End Buf.
