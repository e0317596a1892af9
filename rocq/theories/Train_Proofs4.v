(** The value of a loss reported in pieces. *)
From Coq Require Import Reals Lra Permutation.
From Verif Require Import Base BaseLemmas Smx_Model TData_Model TData_Spec TData_Proofs5 Train_Model Train_Spec
  Train_Proofs Train_Proofs2 Train_Proofs3.
Local Open Scope nat_scope.

Lemma sum_over_app f (a b : list nat) : sum_over f (a ++ b) = (sum_over f a + sum_over f b)%R.
Proof. induction a as [|x a IH]; cbn; [rewrite Rplus_0_l; reflexivity|]. fold (sum_over f (a ++ b)). fold (sum_over f a). rewrite IH. lra. Qed.
Lemma sum_over_ext f g l : (forall i, In i l -> f i = g i) -> sum_over f l = sum_over g l.
Proof.
  induction l as [|x l IH]; intros H; [reflexivity|]. cbn. fold (sum_over f l). fold (sum_over g l).
  rewrite (H x (or_introl eq_refl)), IH; [reflexivity|]. intros i Hi. apply H. right. exact Hi.
Qed.
Lemma sum_over_div f l c : sum_over (fun i => (f i / c)%R) l = (sum_over f l / c)%R.
Proof. induction l as [|x l IH]; cbn; [lra|]. fold (sum_over (fun i => (f i / c)%R) l). fold (sum_over f l). rewrite IH. lra. Qed.
Lemma sum_over_const c l : sum_over (fun _ => c) l = (INR (length l) * c)%R.
Proof.
  induction l as [|x l IH]; [cbn; lra|]. cbn [sum_over fold_right]. fold (sum_over (fun _ => c) l). rewrite IH.
  change (length (x :: l)) with (Datatypes.S (length l)). rewrite S_INR. lra.
Qed.

Lemma sum_slices f l b : forall m, m * b <= length l ->
  sum_over (fun k => sum_over f (slice l b k)) (seq 0 m) = sum_over f (firstn (m * b) l).
Proof.
  induction m as [|m IH]; intros H; [reflexivity|].
  rewrite seq_S, sum_over_app, IH by lia. cbn [sum_over fold_right Nat.add].
  rewrite <- (firstn_skipn (m * b) (firstn (Datatypes.S m * b) l)), sum_over_app, firstn_firstn.
  replace (Nat.min (m * b) (Datatypes.S m * b)) with (m * b) by lia.
  assert (E : slice l b m = skipn (m * b) (firstn (Datatypes.S m * b) l)).
  { unfold slice. rewrite skipn_firstn_comm. replace (b * m) with (m * b) by lia. f_equal. lia. }
  rewrite <- E. fold (sum_over f (slice l b m)). lra.
Qed.

(** [b] divides [n]: the result is n / b times the mean *)
Lemma batched_even f n b : 0 < b -> n mod b = 0 -> 0 < n ->
  batched f n b = (INR (n / b) * mean_over f (seq 0 n))%R.
Proof.
  intros Hb Hm Hn. unfold batched, subsets. rewrite Hm. cbn [Nat.ltb Nat.leb]. rewrite Nat.add_0_r.
  pose proof (Nat.div_mod n b ltac:(lia)) as D. rewrite Hm, Nat.add_0_r in D.
  rewrite (sum_over_ext _ (fun k => (sum_over f (slice (seq 0 n) b k) / INR b)%R)).
  2:{ intros k Hk. apply in_seq in Hk. unfold mean_over. rewrite slice_length, seq_length.
      replace (Nat.min b (n - b * k)) with b; [reflexivity|]. nia. }
  rewrite sum_over_div, sum_slices; [|rewrite seq_length; nia].
  rewrite firstn_all2; [|rewrite seq_length; nia]. unfold mean_over. rewrite seq_length.
  assert (Hd : (INR n = INR (n / b) * INR b)%R) by (rewrite <- mult_INR; f_equal; lia).
  assert (0 < INR b)%R by (apply lt_0_INR; lia). assert (0 < INR n)%R by (apply lt_0_INR; lia).
  assert (INR (n / b) <> 0)%R by (intros Z; rewrite Z in Hd; lra).
  rewrite Hd. field. split; lra.
Qed.
Lemma batched_whole f n : 0 < n -> batched f n n = mean_over f (seq 0 n).
Proof.
  intros Hn. rewrite batched_even; [|lia|apply Nat.mod_same; lia|lia]. rewrite Nat.div_same by lia. cbn [INR]. lra.
Qed.
