(** C132-C135 *)
From Coq Require Import Reals Lra NArith Lia.
From Verif Require Import Base Workers_Model Kern_Model Kern_Spec IdxMax_Spec Sum_Spec La_Spec Rw_Model Rw_Spec Rw_Proofs Rw_Proofs2.
Local Open Scope R_scope.

(** C132: a constant is added to (multiplied into) the elements asked for and no others *)
Theorem C132_add thr pool (m : mtx R) c ib : has_elements m ->
  computes (evAddC_ip thr pool m c ib) (m_data m) (adjusted (fun x => x + c) ib m).
Proof. exact (evC_ok thr pool _ ib m). Qed.
Print Assumptions C132_add.
Theorem C132_mul_add thr pool (m : mtx R) sc ofs ib : has_elements m ->
  computes (evMulCAddC_ip thr pool m sc ofs ib) (m_data m) (adjusted (fun x => sc * x + ofs) ib m).
Proof. exact (evC_ok thr pool _ ib m). Qed.
Print Assumptions C132_mul_add.
(** two samples as columns, biases in the last row, two threads *)
Definition m132 : mtx R := mkM 3 2 true true [1; 2; 1; 3; 4; 1].
Example C132_ex : has_elements m132 /\ ~ has_elements (mkM 1 2 true true [1; 1]) /\
  exists d', length d' = 6%nat /\ adjusted (fun x => x + 5) true m132 d' /\ d' = [6; 7; 1; 8; 9; 1].
Proof.
  split; [|split].
  - split; [unfold alloc, numel; cbn; lia|]. exists 0%nat, 0%nat. cbn. split; [lia|]. split; [lia|]. intros [_ H]. cbn in H. lia.
  - intros [_ (i & j & Hi & Hj & H)]. apply H. split; [reflexivity|]. cbn in *. lia.
  - exists [6; 7; 1; 8; 9; 1]. split; [reflexivity|]. split; [|reflexivity]. split; [reflexivity|]. split; [|split].
    + intros i j Hi Hj [H|H]; [discriminate|]. cbn in Hi, Hj. unfold bias_cell in H. cbn in H.
      destruct i as [|[|[|i]]]; [| |exfalso; apply H; auto|lia]; destruct j as [|[|j]]; try lia; cbn; lra.
    + intros i j Hi Hj _ [_ H]. cbn in Hi, Hj, H. subst i. destruct j as [|[|j]]; try lia; reflexivity.
    + intros a Ha. cbn in Ha. rewrite !nth_overflow by (cbn; lia). reflexivity.
Qed.

(** C133: column means, and their subtraction *)
Theorem C133_mean thr pool ns rows cols A V : (0 < rows)%nat -> (0 < cols)%nat -> (rows * cols <= length A)%nat -> (cols <= length V)%nat ->
  computes (mcwMean thr pool ns rows cols A) V (fun V' => length V' = length V /\
    (forall j, (j < cols)%nat -> nth j V' 0 = mean_of rows A j) /\
    (forall a, (cols <= a)%nat -> nth a V' 0 = nth a V 0)).
Proof. exact (mean_ok thr pool ns rows cols A V). Qed.
Print Assumptions C133_mean.
Theorem C133_sub thr pool vec rows cols D : (0 < rows)%nat -> (0 < cols)%nat -> (rows * cols <= length D)%nat -> (cols <= length vec)%nat ->
  computes (mcwSub_ip thr pool vec rows cols D) D (fun D' => length D' = length D /\
    (forall i j, (i < rows)%nat -> (j < cols)%nat -> nth (i + rows * j) D' 0 = nth (i + rows * j) D 0 - nth j vec 0) /\
    (forall a, (rows * cols <= a)%nat -> nth a D' 0 = nth a D 0)).
Proof. exact (sub_ok thr pool vec rows cols D). Qed.
Print Assumptions C133_sub.
Theorem C133_sub_means thr pool vec rows cols D : (0 < rows)%nat -> (0 < cols)%nat -> (rows * cols <= length D)%nat -> (cols <= length vec)%nat ->
  (forall j, (j < cols)%nat -> nth j vec 0 = mean_of rows D j) ->
  computes (mcwSub_ip thr pool vec rows cols D) D (fun D' =>
    forall j, (j < cols)%nat -> total rows (fun i => nth (i + rows * j) D' 0) = 0).
Proof. exact (sub_means_ok thr pool vec rows cols D). Qed.
Print Assumptions C133_sub_means.
Example C133_ex : forall j, (j < 2)%nat -> nth j [2; 5; 9] 0 = mean_of 2 [1; 3; 4; 6] j.
Proof.
  intros j Hj. unfold mean_of, total, Act_Spec.sumR.
  destruct j as [|[|j]]; [| |lia]; cbn; field.
Qed.

(** C134: centring without the elements equal to the centre *)
Theorem C134_centred thr pool ns cp rows cols D : (0 < rows)%nat -> (0 < cols)%nat -> (rows * cols <= length D)%nat ->
  computes (mcwDeMeanNZ thr pool ns cp rows cols D) D (fun D' => length D' = length D /\
    (forall j, (j < cols)%nat -> centred_nz cp rows D D' j) /\
    (forall a, (rows * cols <= a)%nat -> nth a D' 0 = nth a D 0)).
Proof. exact (demean_nz_ok thr pool ns cp rows cols D). Qed.
Print Assumptions C134_centred.
(** a column with two elements different from 0, and one without *)
Example C134_ex : centred_nz 0 3 [0; 2; 6; 0; 0; 0] [0; -2; 2; 0; 0; 0] 0 /\ centred_nz 0 3 [0; 2; 6; 0; 0; 0] [0; -2; 2; 0; 0; 0] 1.
Proof.
  split; exists 4; (split; [intros i Hi; destruct i as [|[|[|i]]]; [| | |lia]|unfold total, Act_Spec.sumR]); cbn;
    repeat destruct (Req_EM_T _ _); lra.
Qed.

(** C135: the row-wise or *)
Theorem C135_bits v cpt pool (A : mtx N) tmp vec :
  (m_rows A * m_cols A <= length (m_data A))%nat -> (0 < m_rows A)%nat -> (0 < m_cols A)%nat -> pool_ok pool -> (0 < cpt)%nat ->
  (v = OrMtCw -> (cpt < m_cols A)%nat) ->
  (m_rows A * (length pool + 1) <= length tmp)%nat -> (m_rows A <= length vec)%nat ->
  mrwOr v cpt pool A tmp vec (fun vec' => length vec' = length vec /\ row_bits A vec' /\
    forall a, (m_rows A <= a)%nat -> nth a vec' 0%N = nth a vec 0%N).
Proof. exact (or_bits_ok v cpt pool A tmp vec). Qed.
Print Assumptions C135_bits.
Theorem C135_binary v cpt pool one (A : mtx N) tmp vec : binary one A ->
  (m_rows A * m_cols A <= length (m_data A))%nat -> (0 < m_rows A)%nat -> (0 < m_cols A)%nat -> pool_ok pool -> (0 < cpt)%nat ->
  (v = OrMtCw -> (cpt < m_cols A)%nat) ->
  (m_rows A * (length pool + 1) <= length tmp)%nat -> (m_rows A <= length vec)%nat ->
  mrwOr v cpt pool A tmp vec (fun vec' => length vec' = length vec /\ row_has_one one A vec vec').
Proof. exact (or_binary_ok v cpt pool one A tmp vec). Qed.
Print Assumptions C135_binary.
(** 0x3f800000 is 1.0f; five columns over two threads *)
Definition A135 : mtx N := let o := 1065353216%N in mkM 2 5 false false [0; 0; 0; o; 0; 0; 0; 0; 0; o]%N.
Example C135_ex : binary 1065353216 A135 /\ pool_ok [mkR 0 0 1] /\ row_has_one 1065353216 A135 [7; 7; 7]%N [0; 1065353216; 7]%N.
Proof.
  split; [|split; [reflexivity|]].
  - split; [discriminate|]. intros r c Hr Hc. cbn in Hr, Hc.
    destruct r as [|[|r]]; [| |lia]; destruct c as [|[|[|[|[|c]]]]]; try lia; cbn; auto.
  - split.
    + intros r Hr. cbn in Hr. destruct r as [|[|r]]; [right|left|lia]; cbn; (split; [reflexivity|]).
      * intros c Hc. destruct c as [|[|[|[|[|c]]]]]; try lia; reflexivity.
      * exists 1%nat. split; [lia|reflexivity].
    + intros a Ha. cbn in Ha. destruct a as [|[|[|a]]]; try lia; reflexivity.
Qed.
