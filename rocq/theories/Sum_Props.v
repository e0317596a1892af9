(** Sums, plain and compensated: C57.

    Everywhere [pool] is an arbitrary pool of threads and [thr] an arbitrary
    threshold between the single and the multithreaded version; [ns] selects the
    compensated ("numerically stabilized") variant. *)
From Coq Require Import Reals Lra.
From Verif Require Import Base BaseLemmas Workers_Model Kern_Model Kern_Spec Tri_Model Tri_Spec Act_Model Act_Spec
  Sum_Model Sum_Spec Loss_Proofs Sum_Proofs.
From Verif Require Import Tri_Props.
Local Open Scope R_scope.

(** ** C57 *)
(** The sum of a part of a vector, and the summation of the threads' results. *)
Theorem C57_vector : forall ns data ofs n, (ofs + n <= length data)%nat ->
  vec_sum ns data ofs n = Some (sumR (firstn n (skipn ofs data))) /\
  vec_sum_squares ns data ofs n = Some (sumR (map (fun v => v * v) (firstn n (skipn ofs data)))) /\
  forall cells, reduce_vec_sum ns cells = sumR cells.
Proof.
  intros ns data ofs n H. rewrite (part_of_list data 0) by exact H.
  split; [apply vec_sum_ok, H|]. split; [|apply reduce_vec_sum_ok].
  rewrite map_map. apply vec_sum_squares_ok, H.
Qed.
Print Assumptions C57_vector.

(** Sum and number of the elements different from a given value. *)
Theorem C57_nonzero : forall cv data ofs n, (ofs + n <= length data)%nat ->
  let l := filter (fun v => if Req_EM_T v cv then false else true) (firstn n (skipn ofs data)) in
  vec_apply_func data ofs n (sumnz_op cv) (0, 0%nat) = Some (sumR l, length l) /\
  exists C, vec_apply_func data ofs n (kahannz_op cv) (0, 0, 0%nat) = Some (sumR l, C, length l).
Proof.
  intros cv data ofs n H l. unfold vec_apply_func. rewrite kahannz_loop, sumnz_ok by exact H. fold l.
  split; [do 2 f_equal; ring|]. exists 0. cbn [obind fst snd Nat.add]. do 3 f_equal. ring.
Qed.
Print Assumptions C57_nonzero.

(** Sums over matrices. *)
Theorem C57_matrix : forall pool thr A B, fits A B ->
  ewSumProd pool thr A B = Some (total (numel A) (fun i => elem A i * elem B i)) /\
  (forall ns, ewSumSquares_mtx pool thr ns A = Some (total (numel A) (fun i => elem A i * elem A i))) /\
  vSumAbs pool thr A = Some (total (numel A) (fun i => Rabs (elem A i))).
Proof.
  intros pool thr A B HF. pose proof HF as (HA & HB & H0). split; [apply sum_prod_ok, HF|]. split.
  - intros ns. apply sum_squares_ok; assumption.
  - apply sum_abs_ok. split; [exact HA|]. split; assumption.
Qed.
Print Assumptions C57_matrix.

Theorem C57_triangle : forall pool thr ns lower A,
  in_range (m_rows A) -> m_cols A = m_rows A -> alloc A -> (1 < m_rows A)%nat ->
  ewSumSquaresTriang pool thr ns lower A =
  Some (triangle_total lower (m_rows A) (fun r c => entry A r c * entry A r c)).
Proof. exact sum_triang_ok. Qed.
Print Assumptions C57_triangle.

(** The losses. *)
Theorem C57_losses : forall pool thr acts y, fits acts y ->
  (forall ns, loss_quadratic pool thr ns acts y =
     Some (/ 2 * total (numel acts) (fun i => (elem acts i - elem y i) ^ 2))) /\
  (forall tiny ns, loss_xentropy pool thr tiny ns acts y =
     Some (total (numel acts) (fun i =>
       if Rlt_dec 0 (elem y i) then - ln (elem acts i + tiny) else - ln (1 - elem acts i + tiny)))) /\
  (forall laz, loss_softmax_xentropy pool thr laz acts y =
     Some (total (numel acts) (fun i =>
       - (elem y i * (if Rlt_dec 0 (elem acts i) then ln (elem acts i) else laz))))) /\
  (forall loss norm, compute_loss pool thr loss norm acts y =
     Some (norm (total (numel acts) (fun i => loss (elem acts i) (elem y i))) (m_rows acts))).
Proof.
  intros pool thr acts y HF. split; [|split; [|split]]; intros.
  - apply loss_quadratic_ok, HF.
  - rewrite loss_xentropy_ok by exact HF. f_equal. unfold total. f_equal. apply map_ext. intros i.
    unfold l_xent, log_eps, log1p_eps. destruct (Rlt_dec 0 (elem y i)); reflexivity.
  - apply loss_softmax_ok, HF.
  - apply compute_loss_ok, HF.
Qed.
Print Assumptions C57_losses.

(** Two workers, seven elements: the hypotheses hold and the threads get two, two and
    three elements. *)
Example C57_example :
  let A := mkM 7 1 false false [1; 2; 3; 4; 5; 6; 7] in let Y := mkM 7 1 false false [0; 0; 1; 1; 0; 0; 0] in
  let pool := [mkR 0 0 1; mkR 0 0 2] in
  fits A Y /\ (snd (fst (partition 7 0 pool))) = [mkR 0 3 1; mkR 3 2 2] /\
  loss_quadratic pool 0 true A Y = Some 64 /\
  ewSumProd pool 0 A Y = Some 7 /\
  ewSumSquaresTriang pool 0 true true (mkM 2 2 false false [1; 3; 5; 7]) = Some 9.
Proof.
  cbv zeta. split.
  { repeat split; apply Nat.leb_le; reflexivity. }
  split; [reflexivity|]. split; [|split].
  - rewrite loss_quadratic_ok by (repeat split; apply Nat.leb_le; reflexivity).
    f_equal. unfold total, elem, sumR. cbn. lra.
  - rewrite sum_prod_ok by (repeat split; apply Nat.leb_le; reflexivity).
    f_equal. unfold total, elem, sumR. cbn. lra.
  - rewrite sum_triang_ok.
    + f_equal. unfold triangle_total, entry, sumR. cbn. lra.
    + split; cbn; lia.
    + reflexivity.
    + apply Nat.leb_le. reflexivity.
    + cbn. lia.
Qed.
