(** C140-C141 *)
From Coq Require Import Reals Lra Lia.
From Verif Require Import Base Workers_Model Kern_Model Kern_Spec Sum_Spec Rw_Spec Cl_Model Cl_Spec Cl_Proofs.
Local Open Scope R_scope.

(** C140: restricted derivatives *)
Theorem C140_restriction thr pool os (m : mtx R) : alloc m -> (0 < numel m)%nat -> Forall proper os ->
  exists s, r_run os rst0 = Some s /\
  computes (restrict_dLdZ thr pool s m) (m_data m) (fun d' =>
    match in_force os None with
    | Some (lo, hi) => lo < 0 < hi /\ restricted lo hi (numel m) (m_data m) d'
    | None => d' = m_data m
    end).
Proof. exact (restriction_ok thr pool os m). Qed.
Print Assumptions C140_restriction.
Theorem C140_sign lo hi x y : lo < 0 < hi -> nearest lo hi x y -> 0 <= x * y /\ Rabs y <= Rabs x /\ (y = 0 <-> x = 0).
Proof. exact (nearest_sign lo hi x y). Qed.
Print Assumptions C140_sign.
Theorem C140_gradient thr pool (m : mtx R) lo hi : alloc m -> (0 < m_rows m)%nat -> (0 < m_cols m)%nat -> lo < 0 < hi ->
  computes (evClamp thr pool m lo hi) (m_data m) (fun d' =>
    forall (i : nat) (p : nat -> R) B, (i < m_cols m)%nat -> (forall k, (k < m_rows m)%nat -> Rabs (p k) <= B) ->
      Rabs (grad (m_rows m) (fun k => nth (k + m_rows m * i) d' 0) p) <= Rmax (- lo) hi * B).
Proof. exact (restricted_gradient thr pool m lo hi). Qed.
Print Assumptions C140_gradient.
(** two samples, two neurons; a restriction replaced by a tighter one *)
Definition m140 : mtx R := mkM 2 2 false false [5; -1 / 2; -7; 0].
Example C140_ex : alloc m140 /\ (0 < numel m140)%nat /\
  Forall proper [Restrict (-9) 9; Unrestrict; Restrict (-2) 3] /\ in_force [Restrict (-9) 9; Unrestrict; Restrict (-2) 3] None = Some (-2, 3) /\
  in_force [Restrict (-9) 9; Restrict 0 0] None = None /\
  restricted (-2) 3 4 (m_data m140) [3; -1 / 2; -2; 0].
Proof.
  split; [unfold alloc, numel; cbn; lia|]. split; [unfold numel; cbn; lia|]. split; [repeat constructor; cbn; lra|].
  split; [cbn; destruct (Req_EM_T (-2) 0); [lra|reflexivity]|]. split; [cbn; destruct (Req_EM_T 0 0); [reflexivity|lra]|].
  split.
  - intros a Ha. destruct a as [|[|[|[|a]]]]; [| | | |lia]; cbn; (split; [lra|]); intros z Hz; unfold Rabs; repeat destruct (Rcase_abs _); lra.
  - intros a Ha. rewrite !nth_overflow by (cbn; lia). reflexivity.
Qed.

(** C141: complements, scaled differences *)
Theorem C141_complement thr pool (gate : mtx R) D : alloc gate -> m_bir gate = false -> (0 < numel_nb gate)%nat -> (numel_nb gate <= length D)%nat ->
  (forall a, (a < numel_nb gate)%nat -> nth a (m_data gate) 0 = 0 \/ nth a (m_data gate) 0 = 1) ->
  computes (evOneCompl thr pool gate) D (fun d' =>
    (forall i j, (i < m_rows gate)%nat -> (j < m_cols gate)%nat -> ~ bias_cell gate i j ->
       (nth (i + m_rows gate * j) d' 0 = 1 <-> nth (i + m_rows gate * j) (m_data gate) 0 = 0) /\
       (nth (i + m_rows gate * j) d' 0 = 0 <-> nth (i + m_rows gate * j) (m_data gate) 0 = 1)) /\
    (forall a, (m_rows gate * cols_nb gate <= a)%nat -> nth a d' 0 = nth a D 0)).
Proof. exact (compl_ok thr pool gate D). Qed.
Print Assumptions C141_complement.
Theorem C141_difference thr pool (A M : mtx R) c : fits A M -> c <> 0 ->
  computes (evSubMtxMulC_ip_nb thr pool A M c) (m_data A) (combined (fun a m => (a - m) * c) A M).
Proof. exact (sub_mul_ok thr pool A M c). Qed.
Print Assumptions C141_difference.
Theorem C141_product thr pool (A B : mtx R) : fits A B -> computes (evMul_ip_Anb thr pool A B) (m_data A) (combined Rmult A B).
Proof. exact (anb_ok Rmult thr pool A B). Qed.
Print Assumptions C141_product.
Theorem C141_sum thr pool (A B : mtx R) : fits A B -> computes (evAdd_Anb_ip thr pool A B) (m_data A) (combined Rplus A B).
Proof. exact (anb_ok Rplus thr pool A B). Qed.
Print Assumptions C141_sum.
(** any layout; biases are left alone by any call that is defined *)
Theorem C141_scaled thr pool (m : mtx R) c ib : has_elements m ->
  (c <> 0 -> (m_bias m = true -> ib = true) -> computes (evMulC_ip thr pool m c ib) (m_data m) (adjusted (fun x => x * c) ib m)) /\
  (forall trs, evMulC_ip thr pool m c ib = Some trs -> computes (evMulC_ip thr pool m c ib) (m_data m) (adjusted (fun x => x * c) true m)).
Proof. exact (scaled_ok thr pool m c ib). Qed.
Print Assumptions C141_scaled.
(** a gate of two samples and two layers, and its biases *)
Definition g141 : mtx R := mkM 2 3 true false [0; 1; 1; 1; 1; 1].
Example C141_ex : alloc g141 /\ numel_nb g141 = 4%nat /\ (forall a, (a < 4)%nat -> nth a (m_data g141) 0 = 0 \/ nth a (m_data g141) 0 = 1) /\
  bias_cell g141 1 2 /\ ~ bias_cell g141 1 1 /\ fits g141 (mkM 2 2 false false [7; 8; 9; 5]) /\ combined Rmult g141 (mkM 2 2 false false [7; 8; 9; 5]) [0; 8; 9; 5; 1; 1] /\
  has_elements g141.
Proof.
  split; [unfold alloc, numel; cbn; lia|]. split; [reflexivity|]. split; [intros [|[|[|[|a]]]] H; cbn; try lia; auto|].
  split; [split; reflexivity|]. split; [intros [_ H]; cbn in H; lia|].
  split; [unfold fits, alloc, numel; cbn; repeat split; lia|]. split.
  - split; [|split].
    + intros i j Hi Hj Hb. cbn in Hi, Hj. destruct i as [|[|i]]; [| |lia]; (destruct j as [|[|[|j]]]; [cbn; lra|cbn; lra|exfalso; apply Hb; split; reflexivity|lia]).
    + intros i j Hi Hj [_ Hb]. cbn in Hi, Hb. subst j. destruct i as [|[|i]]; [reflexivity|reflexivity|lia].
    + intros a Ha. unfold numel in Ha. cbn in Ha. rewrite !nth_overflow by (cbn; lia). reflexivity.
  - split; [unfold alloc, numel; cbn; lia|]. exists 0%nat, 0%nat. cbn. split; [lia|]. split; [lia|]. intros [_ H]. cbn in H. lia.
Qed.
