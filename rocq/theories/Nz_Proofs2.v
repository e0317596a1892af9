(** Masks counted by vCountNonZeros() and the kernels that use them. *)
From Coq Require Import NArith Lia List Bool.
From Verif Require Import Base Workers_Model Workers_Spec Kern_Model Kern_Spec MKern_Model MKern_Spec MKern_Proofs Nz_Model Nz_Spec Nz_Proofs.
Import ListNotations.

Definition nzb (b : N) : bool := negb (b =? 0)%N.

Lemma taken_selected v : rows_taken v = selected nzb v.
Proof.
  unfold rows_taken, selected, nzb. apply filter_ext_in. intros i Hi. apply in_seq in Hi.
  rewrite (nth_error_nth' v 0%N) by lia. reflexivity.
Qed.

Theorem extract_counted p e daz parts (src : mtx N) mask dest : (0 < e)%N -> Forall (pattern p e) mask ->
  (forall b, In b mask -> b <> neg_zero p e /\ ~ is_nan p e b /\ (daz = true -> ~ is_subnormal p e b)) ->
  alloc src -> alloc dest -> cols_nb dest = cols_nb src -> length mask = m_rows src ->
  N.of_nat (m_rows dest) = vCountNonZeros p e daz mask -> tiles parts (cols_nb src) ->
  computes (mExtractRowsByMask nzb parts src mask dest) (m_data dest)
    (holds_block (m_rows dest) (m_rows dest) (cols_nb dest)
       (fun r c => do i <- nth_error (selected nzb mask) r; mget src i c) (m_data dest)).
Proof.
  intros He Hp Hg Hs Hd Hc Hl Hr Ht. apply extract_by_mask_correct; try assumption.
  destruct (agree_iff p e daz mask He Hp) as [_ E]. rewrite <- taken_selected. apply Nat2N.inj. rewrite Hr. apply E. exact Hg.
Qed.

(** A column of three elements, the second masked by a negative zero *)
Definition src_nz : mtx N := mkM 3 1 false false [5; 6; 7]%N.
Definition mask_nz : list N := [0x3f800000; 0x80000000; 0]%N.
Theorem extract_overrun : exists dest,
  alloc src_nz /\ alloc dest /\ cols_nb dest = cols_nb src_nz /\ length mask_nz = m_rows src_nz /\ Forall (pattern 23 8) mask_nz /\
  N.of_nat (m_rows dest) = vCountNonZeros 23 8 false mask_nz /\
  exists trs, mExtractRowsByMask nzb (whole 1) src_nz mask_nz dest = Some trs /\ apply_writes (m_data dest) (concat trs) = None.
Proof.
  exists (mkM 1 1 false false [0%N]). split; [unfold alloc; cbn; repeat split; lia|]. split; [unfold alloc; cbn; repeat split; lia|]. split; [reflexivity|]. split; [reflexivity|].
  split; [repeat constructor|]. split; [reflexivity|]. eexists. split; [vm_compute; reflexivity|reflexivity].
Qed.
