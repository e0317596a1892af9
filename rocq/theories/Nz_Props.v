(** C144 *)
From Coq Require Import NArith Lia List.
From Verif Require Import Base Workers_Model Workers_Spec Kern_Model Kern_Spec MKern_Model MKern_Spec Nz_Model Nz_Spec Nz_Proofs Nz_Proofs2.
Import ListNotations.
Local Open Scope N_scope.

(** C144.  Full statement: both functions return the number of elements different from zero, and it
    is the number of rows the mask selects.  The exact counts: *)
Theorem C144_count_partial p e daz v : 0 < e -> counts (fun b => differs p e daz b /\ ~ is_nan p e b) v (vCountNonZeros p e daz v).
Proof. exact (count_ok p e daz v). Qed.
Print Assumptions C144_count_partial.
Theorem C144_strict_partial p e v : N.of_nat (length v) < 2 ^ (p + e + 1) -> counts (fun b => b <> 0) v (vCountNonZerosStrict p e v).
Proof. exact (strict_ok p e v). Qed.
Print Assumptions C144_strict_partial.
(** The counted rows are never more than the selected ones, and as many exactly without negative
    zeros, NaNs and, in the mode without denormals, subnormal numbers *)
Theorem C144_rows_partial p e daz v : 0 < e -> Forall (pattern p e) v ->
  vCountNonZeros p e daz v <= N.of_nat (length (rows_taken v)) /\
  (vCountNonZeros p e daz v = N.of_nat (length (rows_taken v)) <->
   forall b, In b v -> b <> neg_zero p e /\ ~ is_nan p e b /\ (daz = true -> ~ is_subnormal p e b)).
Proof. exact (agree_iff p e daz v). Qed.
Print Assumptions C144_rows_partial.
(** Floats: a NaN differs from zero and is not counted; a negative zero selects a row that is not
    counted, and is counted by the strict version; 2^32 elements are counted as none by it *)
Theorem C144_count_refuted :
  (exists v, Forall (pattern 23 8) v /\ Forall (differs 23 8 false) v /\ v <> [] /\ vCountNonZeros 23 8 false v = 0) /\
  (exists v, Forall (pattern 23 8) v /\ Forall (is_zero 23 8) v /\ vCountNonZeros 23 8 false v = 0 /\ rows_taken v = [0%nat] /\ vCountNonZerosStrict 23 8 v = 1) /\
  (exists v, Forall (fun b => b = 1) v /\ N.of_nat (length v) = 2 ^ 32 /\ vCountNonZerosStrict 23 8 v = 0).
Proof. exact count_wrong. Qed.
Print Assumptions C144_count_refuted.
(** So rows are extracted correctly into a destination of the counted size (C16 for bit patterns) *)
Theorem C144_extract_partial p e daz parts (src : mtx N) mask dest : 0 < e -> Forall (pattern p e) mask ->
  (forall b, In b mask -> b <> neg_zero p e /\ ~ is_nan p e b /\ (daz = true -> ~ is_subnormal p e b)) ->
  alloc src -> alloc dest -> cols_nb dest = cols_nb src -> length mask = m_rows src ->
  N.of_nat (m_rows dest) = vCountNonZeros p e daz mask -> tiles parts (cols_nb src) ->
  computes (mExtractRowsByMask nzb parts src mask dest) (m_data dest)
    (holds_block (m_rows dest) (m_rows dest) (cols_nb dest)
       (fun r c => do i <- nth_error (selected nzb mask) r; mget src i c) (m_data dest)).
Proof. exact (extract_counted p e daz parts src mask dest). Qed.
Print Assumptions C144_extract_partial.
(** With a negative zero in the mask it writes behind the destination *)
Theorem C144_overrun_refuted : exists dest,
  alloc src_nz /\ alloc dest /\ cols_nb dest = cols_nb src_nz /\ length mask_nz = m_rows src_nz /\ Forall (pattern 23 8) mask_nz /\
  N.of_nat (m_rows dest) = vCountNonZeros 23 8 false mask_nz /\
  exists trs, mExtractRowsByMask nzb (whole 1) src_nz mask_nz dest = Some trs /\ apply_writes (m_data dest) (concat trs) = None.
Proof. exact extract_overrun. Qed.
Print Assumptions C144_overrun_refuted.
(** 1, -0, 0, the smallest subnormal number, -infinity, NaN, -2 as floats *)
Definition v144 : list N := [0x3f800000; 0x80000000; 0; 1; 0xff800000; 0x7fc00000; 0xc0000000].
Example C144_ex : Forall (pattern 23 8) v144 /\ vCountNonZeros 23 8 false v144 = 4 /\ vCountNonZeros 23 8 true v144 = 3 /\
  vCountNonZerosStrict 23 8 v144 = 6 /\ rows_taken v144 = [0; 1; 3; 4; 5; 6]%nat /\
  N.of_nat (length v144) < 2 ^ (23 + 8 + 1) /\
  (forall b, In b [0x3f800000; 0; 0xc0000000] -> b <> neg_zero 23 8 /\ ~ is_nan 23 8 b /\ (true = true -> ~ is_subnormal 23 8 b)).
Proof.
  split; [repeat constructor|]. split; [reflexivity|]. split; [reflexivity|]. split; [reflexivity|]. split; [reflexivity|]. split; [reflexivity|].
  intros b [<-|[<-|[<-|[]]]]; (split; [discriminate|split; [vm_compute; discriminate|intros _ [H1 H2]; vm_compute in H1, H2; discriminate]]).
Qed.
(** three samples of two neurons, the second one masked out *)
Example C144_extract_ex :
  let src := mkM 3 2 false false [1; 2; 3; 4; 5; 6] in let mask := [0x3f800000; 0; 0x3f800000] in let dest := mkM 2 2 false false [0; 0; 0; 0] in
  alloc src /\ alloc dest /\ cols_nb dest = cols_nb src /\ length mask = m_rows src /\ N.of_nat (m_rows dest) = vCountNonZeros 23 8 true mask /\
  (do trs <- mExtractRowsByMask nzb (whole 2) src mask dest; apply_writes (m_data dest) (concat trs)) = Some [1; 3; 4; 6].
Proof. repeat split; reflexivity || (unfold alloc; cbn; lia). Qed.
