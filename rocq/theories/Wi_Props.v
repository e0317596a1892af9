(** Theorems about static initialisation of weights: C101 (sparse), C102 (the others).
    [at_ rows W r c] is the weight of neuron r for input c, with c = cols - 1 its bias. *)
From Coq Require Import Reals Lra Permutation.
From Verif Require Import Base BaseLemmas Workers_Model Workers_Spec Kern_Model Kern_Spec Kern_Proofs Rng_Model Rng_Spec Rng_Proofs Rng_Props
  TData_Model TData_Spec TData_Proofs2 Wi_Model Wi_Spec Wi_Proofs.
Local Open Scope nat_scope.

(** ** C101 *)
(** Every neuron gets exactly K weights, from K distinct inputs, made of K fresh numbers
    (the r-th neuron those from r K on), and no other weight; biases are those asked for. *)
Theorem C101_sparse : forall biases stddev K rows cols z rv b, 0 < cols -> length b = rows * cols -> (forall r, rng_ok (rv r)) -> K <= cols - 1 ->
  exists W, martens biases stddev K rows cols true true z rv b = Some (true, W) /\ length W = rows * cols /\
    (forall r, r < rows -> exists cs, sparse rows (cols - 1) W r cs (map (fun j => (millionths stddev * z (r * K + j)%nat)%R) (seq 0 K))) /\
    (forall r, r < rows -> at_ rows W r (cols - 1) = millionths biases).
Proof. exact martens_ok. Qed.
Print Assumptions C101_sparse.

(** Lack of memory is reported. *)
Theorem C101_no_memory : forall biases stddev K rows cols m1 m2 z rv b, length b = rows * cols -> m1 && m2 = false ->
  exists W, martens biases stddev K rows cols m1 m2 z rv b = Some (false, W) /\ length W = rows * cols.
Proof. exact martens_nomem. Qed.
Print Assumptions C101_no_memory.

(** The condition on the size of the previous layer is needed: without it the list of
    inputs is read out of bounds (release builds do not check it). *)
Theorem C101_small_layer : forall biases stddev K rows cols z rv b, length b = rows * cols -> (forall r, rng_ok (rv r)) -> 0 < rows -> cols - 1 < K ->
  martens biases stddev K rows cols true true z rv b = None.
Proof. exact martens_small. Qed.
Print Assumptions C101_small_layer.

Example C101_example : 0 < 4 /\ length (repeat 7%R 8) = 2 * 4 /\ (forall r : nat, rng_ok (fun k => (k + r) mod k)) /\ 2 <= 4 - 1 /\
  random_shuffle (fun k => (k + 0) mod k) [0; 1; 2] = Some [2; 0; 1] /\ random_shuffle (fun k => (k + 1) mod k) [2; 0; 1] = Some [2; 1; 0].
Proof. do 2 (split; [cbn; lia|]). split; [intros r k Hk; apply Nat.mod_upper_bound; lia|]. split; [lia|]. split; reflexivity. Qed.

(** ** C102 *)
(** He et al.: biases are 0, weights are fresh normal numbers times a deviation whose
    square times the number of inputs is 2 c^2 (or the parameter p). *)
Theorem C102_he : forall coeff rows cols z b, 1 < cols -> length b = rows * cols -> (0 <= coeff)%Z -> exists W sd, he_zhang coeff rows cols z b = Some W /\
  length W = rows * cols /\ (sd * sd * INR (cols - 1) = 2 * (millionths coeff * millionths coeff))%R /\ (0 <= sd)%R /\
  (forall r c, r < rows -> c < cols - 1 -> at_ rows W r c = (sd * z (r + rows * c)%nat)%R) /\ (forall r, r < rows -> at_ rows W r (cols - 1) = 0%R).
Proof.
  intros coeff rows cols z b Hc Hb Hz. destruct (he_weights_ok (he_sd coeff (cols - 1)) rows cols z b ltac:(lia) Hb) as (W & E & L & V & B). exists W, (he_sd coeff (cols - 1)).
  split; [exact E|]. split; [exact L|]. split; [apply he_norm; [lia|exact Hz]|]. split; [apply Rmult_le_pos; [apply millionths_pos; exact Hz|apply sqrt_pos]|]. auto.
Qed.
Print Assumptions C102_he.

Theorem C102_he2 : forall param rows cols z b, 1 < cols -> length b = rows * cols -> (0 <= param)%Z -> exists W sd, he_zhang2 param rows cols z b = Some W /\
  length W = rows * cols /\ (sd * sd * INR (cols - 1) = millionths param)%R /\ (0 <= sd)%R /\
  (forall r c, r < rows -> c < cols - 1 -> at_ rows W r c = (sd * z (r + rows * c)%nat)%R) /\ (forall r, r < rows -> at_ rows W r (cols - 1) = 0%R).
Proof.
  intros param rows cols z b Hc Hb Hz. destruct (he_weights_ok (he2_sd param (cols - 1)) rows cols z b ltac:(lia) Hb) as (W & E & L & V & B). exists W, (he2_sd param (cols - 1)).
  split; [exact E|]. split; [exact L|]. split; [apply he2_norm; [lia|exact Hz]|]. split; [apply sqrt_pos|]. auto.
Qed.
Print Assumptions C102_he2.

(** Xavier et al.: all weights, the biases too, lie in [-s, s] with s^2 (rows + cols) = 6 c^2;
    for the generators with one and with several engines (C51), any schedule of the threads *)
Theorem C102_xavier : forall coeff rows cols b, 0 < rows -> length b = rows * cols -> (0 <= coeff)%Z -> exists s,
  (0 <= s)%R /\ (s * s * INR (rows + cols) = 6 * (millionths coeff * millionths coeff))%R /\
  (forall E D (d0 : D) (draw : E * D -> R * (E * D)), (forall e k, (0 <= number d0 draw e k <= 1)%R) ->
    (forall rs bnd rngs, pool rs -> length rngs = length rs + 1 ->
       computes (xavier_mt d0 draw coeff rows cols rs bnd rngs) b (all_in (fun x => (- s <= x <= s)%R) 0 (rows * cols) b)) /\
    (forall e, computes (xavier_st d0 draw coeff rows cols e) b (all_in (fun x => (- s <= x <= s)%R) 0 (rows * cols) b))).
Proof.
  intros coeff rows cols b Hr Hb Hc. exists (xavier_scale coeff rows cols). destruct (xavier_norm coeff rows cols Hr Hc) as [P Q]. split; [exact P|]. split; [exact Q|].
  intros E D d0 draw HU. split.
  - intros rs bnd rngs HP HL. apply (C51_range E D d0 draw 0 (rows * cols) rs bnd rngs b HP HL ltac:(lia) HU). exact P.
  - intros e. apply (C51_single_range E D d0 draw 0 (rows * cols) e b ltac:(lia) HU). exact P.
Qed.
Print Assumptions C102_xavier.

(** Orthogonal initialisation succeeds iff one of the tries did; then the columns of the
    matrix with the biases (the rows, if there are fewer of them) are orthogonal and of the
    length asked for. *)
Theorem C102_orthogonal : forall svd, svd_ok svd -> forall gain tries rows cols zs b, length b = rows * cols ->
  exists ok W, ortho svd rows cols zs gain tries b = Some (ok, W) /\ length W = rows * cols /\
    (ok = true <-> exists j, j < tries /\ fst (svd rows cols (numbers (rows * cols) (zs j))) = true) /\
    (ok = true -> orthogonal (millionths gain * millionths gain) rows cols W).
Proof. intros svd Hsvd gain tries rows cols zs b. exact (ortho_ok svd rows cols zs Hsvd gain tries b). Qed.
Print Assumptions C102_orthogonal.

(** a decomposition as the theorem asks for, with any answer [f]: that of a matrix whose
    singular vectors are those of the standard basis *)
Definition unit_svd (f : list R -> bool) (rows cols : nat) (b : list R) : bool * list R :=
  (f b, map (fun k => if k mod rows =? k / rows then 1%R else 0%R) (seq 0 (rows * cols))).
Lemma delta_sum n a b : a < n -> b < n -> sumf n (fun r => (if r =? a then 1 else 0) * (if r =? b then 1 else 0))%R = (if a =? b then 1 else 0)%R.
Proof.
  intros Ha Hb. unfold sumf.
  assert (H : forall n lo, fold_right Rplus 0%R (map (fun r => (if r =? a then 1 else 0) * (if r =? b then 1 else 0))%R (seq lo n)) =
    if (lo <=? a) && (a <? lo + n) && (a =? b) then 1%R else 0%R).
  { clear. induction n as [|n IH]; intros lo; cbn [seq map fold_right].
    - replace ((lo <=? a) && (a <? lo + 0) && (a =? b)) with false by lia. reflexivity.
    - rewrite IH. destruct (Nat.eqb_spec lo a), (Nat.eqb_spec lo b), (Nat.eqb_spec a b);
        repeat (match goal with |- context[?x <=? ?y] => destruct (Nat.leb_spec x y) | |- context[?x <? ?y] => destruct (Nat.ltb_spec x y) end); cbn [andb]; try lia; lra. }
  rewrite H. replace ((0 <=? a) && (a <? 0 + n)) with true by lia. reflexivity.
Qed.
Lemma unit_svd_ok f : svd_ok (unit_svd f).
Proof.
  intros rows cols b Hb. cbn [unit_svd fst snd]. split; [rewrite map_length, seq_length; reflexivity|]. intros _.
  assert (A : forall r c, r < rows -> c < cols -> at_ rows (map (fun k => if k mod rows =? k / rows then 1%R else 0%R) (seq 0 (rows * cols))) r c = if r =? c then 1%R else 0%R).
  { intros r c Hr Hc. unfold at_. rewrite nth_map_seq by nia. replace ((r + rows * c) mod rows) with r; [replace ((r + rows * c) / rows) with c; [reflexivity|]|].
    - apply (Nat.div_unique _ _ _ r); lia.
    - apply (Nat.mod_unique _ _ c); lia. }
  assert (E : forall n (g h : nat -> R), (forall i, i < n -> g i = h i) -> sumf n g = sumf n h).
  { intros n g h H. unfold sumf. f_equal. apply map_ext_in. intros i Hi. apply in_seq in Hi. apply H. lia. }
  unfold orthogonal. destruct (Nat.leb_spec cols rows) as [Q|Q]; intros x y Hx Hy.
  - rewrite (E _ _ (fun r => (if r =? x then 1 else 0) * (if r =? y then 1 else 0))%R) by (intros i Hi; rewrite !A by lia; reflexivity). apply delta_sum; lia.
  - rewrite (E _ _ (fun r => (if r =? x then 1 else 0) * (if r =? y then 1 else 0))%R) by (intros i Hi; rewrite !A by lia; rewrite (Nat.eqb_sym x i), (Nat.eqb_sym y i); reflexivity). apply delta_sum; lia.
Qed.

(** a layer of 3 neurons with 2 inputs *)
Example C102_example : 1 < 3 /\ length (repeat 7%R 9) = 3 * 3 /\ (0 <= 1000000)%Z /\ svd_ok (unit_svd (fun b => if Rlt_dec (nth 0 b 0%R) 0 then true else false)) /\
  pool [mkR 1 3 1; mkR 4 5 2] /\ fst (unit_svd (fun b => if Rlt_dec (nth 0 b 0%R) 0 then true else false) 3 3 (numbers 9 (fun i => INR i - 1)%R)) = true.
Proof.
  split; [lia|]. split; [reflexivity|]. split; [lia|]. split; [apply unit_svd_ok|]. split; [reflexivity|].
  cbn. destruct (Rlt_dec (0 - 1) 0) as [|N]; [reflexivity|]. exfalso. lra.
Qed.
