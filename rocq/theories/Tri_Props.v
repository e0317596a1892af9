(** Properties of triangular matrices: C25. *)
From Coq Require Import ZArith Permutation.
From Verif Require Import Base BaseLemmas Workers_Model Workers_Spec Kern_Spec Tri_Model Tri_Spec Tri_Proofs Tri_Float.

(** Every matrix with up to 47453132 rows (that is all matrices a computer can store;
    8k+9 is below 2^53 for its indices). *)
Definition in_range (n : nat) : Prop := 1 <= n /\ (Z.of_nat n <= 47453132)%Z.

Lemma in_range_ok n : in_range n -> root_ok col_dbl (numel_triangl n).
Proof.
  intros [H1 H2]. apply col_dbl_ok. pose proof (T_double n) as D. change (T n) with (numel_triangl n) in D.
  set (K := numel_triangl n) in *. assert (2 * Z.of_nat K = Z.of_nat n * (Z.of_nat n - 1))%Z by nia. nia.
Qed.

(** ** C25 *)
(** The number of elements, and the coordinates of the element with a linear index:
    they enumerate the triangle column after column, every pair once. *)
Theorem C25_index_bijection : forall lower n, in_range n ->
  length (triangle lower n) = numel_triangl n /\ NoDup (triangle lower n) /\
  (forall r c, In (r, c) (triangle lower n) <-> r < n /\ c < n /\ (if lower then c < r else r < c)) /\
  (forall k, k < numel_triangl n -> nth_error (triangle lower n) k = Some (coords col_dbl lower n k)).
Proof.
  intros lower n HR. pose proof (in_range_ok n HR) as RK. destruct HR as [H1 _].
  split; [exact (triangle_length col_dbl n H1 RK lower)|]. split; [|split].
  - unfold triangle. clear. remember 0 as lo. clear Heqlo. generalize n at 2 as m. intros m. revert lo. induction m as [|m IH]; intros lo; [constructor|].
    cbn [seq flat_map].
    assert (A : forall (a b : list (nat * nat)), NoDup a -> NoDup b -> (forall x, In x a -> ~ In x b) -> NoDup (a ++ b)).
    { induction a as [|x a IHa]; intros b Ha Hb Hd; [exact Hb|]. inversion Ha; subst. cbn [app]. constructor.
      - intros Hx. apply in_app_or in Hx. destruct Hx as [Hx|Hx]; [contradiction|]. exact (Hd x (or_introl eq_refl) Hx).
      - apply IHa; [assumption|assumption|]. intros y Hy. apply Hd. right. exact Hy. }
    apply A.
    + apply FinFun.Injective_map_NoDup; [intros x y E; congruence|]. unfold column_rows. destruct lower; apply seq_NoDup.
    + apply IH.
    + intros [r c] H1 H2. apply in_map_iff in H1. destruct H1 as (r' & E & _). apply in_flat_map in H2. destruct H2 as (c' & Hc & H2).
      apply in_map_iff in H2. destruct H2 as (r'' & E' & _). apply in_seq in Hc. inversion E; inversion E'; subst. lia.
  - intros r c. unfold triangle. rewrite in_flat_map. split.
    + intros (c' & Hc & H). apply in_seq in Hc. apply in_map_iff in H. destruct H as (r' & E & Hr). inversion E; subst. unfold column_rows in Hr.
      destruct lower; apply in_seq in Hr; lia.
    + intros (Hr & Hc & H). exists c. split; [apply in_seq; lia|]. apply in_map_iff. exists r. split; [reflexivity|]. unfold column_rows.
      destruct lower; apply in_seq; lia.
  - intros k Hk. exact (coords_nth col_dbl n H1 RK lower k Hk).
Qed.
Print Assumptions C25_index_bijection.

(** Traversing the range [b, e) visits exactly the elements with these indices, in order. *)
Theorem C25_range_traversal : forall lower n b e, in_range n -> b < e -> e <= numel_triangl n ->
  triang_apply col_dbl lower n b e = map (offset n) (firstn (e - b) (skipn b (triangle lower n))).
Proof. intros lower n b e HR. apply triang_apply_spec; [apply HR|apply in_range_ok, HR]. Qed.
Print Assumptions C25_range_traversal.

(** However the linear indices are split over threads, every element of the triangle is
    visited exactly once, and nothing else is. *)
Theorem C25_parallel_traversal : forall lower n parts, in_range n -> tiles parts (numel_triangl n) ->
  Permutation (flat_map (fun p => triang_apply col_dbl lower n (r_ofs p) (r_ofs p + r_cnt p)) parts)
              (map (offset n) (triangle lower n)).
Proof.
  intros lower n parts HR [HP HC]. pose proof (in_range_ok n HR) as RK. pose proof (proj1 HR) as H1.
  rewrite (triangle_coords col_dbl n H1 RK), map_map. 
  assert (E : flat_map (fun p => triang_apply col_dbl lower n (r_ofs p) (r_ofs p + r_cnt p)) parts =
              map (fun k => offset n (coords col_dbl lower n k)) (flat_map idxs parts)).
  { assert (HI : forall p, In p parts -> r_ofs p + r_cnt p <= numel_triangl n).
    { intros p Hp. specialize (HC p Hp). assert (HX : In (r_ofs p + r_cnt p - 1) (flat_map idxs parts)).
      { apply in_flat_map. exists p. split; [exact Hp|]. unfold idxs. apply in_seq. lia. }
      apply (Permutation_in _ HP), in_seq in HX. lia. }
    clear HP. induction parts as [|p parts IH]; [reflexivity|]. cbn [flat_map]. rewrite map_app. f_equal.
    - specialize (HC p (or_introl eq_refl)). specialize (HI p (or_introl eq_refl)). unfold idxs. rewrite triang_apply_spec by (try assumption; lia).
      rewrite (triangle_coords col_dbl n H1 RK), <- (map_seq_part _ (numel_triangl n)) by lia. rewrite map_map. do 2 f_equal. lia.
    - apply IH; intros q Hq; [apply HC|apply HI]; right; exact Hq. }
  rewrite E. apply Permutation_map. exact HP.
Qed.
Print Assumptions C25_parallel_traversal.

(** a computable function that agrees with [col_dbl] on small indices *)
Definition col_small (k : nat) : nat := nth k [1; 2; 2; 3; 3; 3; 4; 4; 4; 4; 5] 0.
Example C25_example :
  in_range 5 /\ numel_triangl 5 = 10 /\
  (forall k, k <= 10 -> col_dbl k = col_small k) /\
  triangle true 5 = [(1, 0); (2, 0); (3, 0); (4, 0); (2, 1); (3, 1); (4, 1); (3, 2); (4, 2); (4, 3)] /\
  map (coords col_small true 5) (seq 0 10) = triangle true 5 /\
  map (coords col_small false 5) (seq 0 10) = triangle false 5 /\
  triang_apply col_small true 5 2 8 = [3; 4; 7; 8; 9; 13] /\
  triang_apply col_small false 5 2 8 = [11; 15; 16; 17; 20; 21].
Proof.
  split; [split; [|reflexivity||(cbn; lia)]; lia|]. split; [reflexivity|]. split; [|repeat split; reflexivity].
  intros k Hk. assert (R : root_ok col_dbl 10) by (apply col_dbl_ok; reflexivity). destruct (R k Hk) as [_ H].
  apply (T_unique _ _ k); [exact H|]. do 11 (destruct k as [|k]; [cbn; lia|]). lia.
Qed.

(** Beyond that range double precision does not suffice: the element with the index
    2^57 + 2^28, the first one of column 2^29 + 1, is taken for a diagonal element. *)
Theorem C25_large_index_refuted : exists k c, k = T c /\ c < k /\
  coords_upper col_dbl k = (c - 1, c - 1).
Proof.
  destruct (Z_of_nat_complete (2 ^ 29)) as [c Hc]; [discriminate|]. symmetry in Hc. exists (T (c + 1)), (c + 1).
  pose proof (T_double c) as D. pose proof (T_double (c + 1)) as D1.
  assert (E : Z.of_nat (T (c + 1)) = (2 ^ 57 + 2 ^ 28)%Z) by nia.
  split; [reflexivity|]. split; [nia|]. unfold coords_upper. rewrite (col_dbl_wrong _ c E Hc).
  fold (T c). rewrite T_S. f_equal; lia.
Qed.
Print Assumptions C25_large_index_refuted.
