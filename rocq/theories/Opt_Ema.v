(** Lemmas about the moving averages of Opt_Spec. *)
From Coq Require Import Reals Lra Lia.
From Verif Require Import Base BaseLemmas Act_Spec Sfm_Spec Loss_Proofs Sfm_Proofs Sfm_Proofs2 Opt_Spec.
Local Open Scope R_scope.

Lemma sumR_one x : sumR [x] = x.
Proof. unfold sumR. cbn. ring. Qed.

Lemma weights_snoc b (l : list R) x k : (forall s, (s < length l)%nat -> nth s (l ++ [x]) 0 = nth s l 0) ->
  sumR (map (fun s => (1 - b) * b ^ (length (l ++ [x]) - 1 - s) * nth s (l ++ [x]) 0) (seq k (length l - k))) =
  b * sumR (map (fun s => (1 - b) * b ^ (length l - 1 - s) * nth s l 0) (seq k (length l - k))).
Proof.
  intros Hn. rewrite (Rmult_comm b), <- sumR_scal. apply sumR_ext. intros s Hs. apply in_seq in Hs.
  rewrite Hn by lia. rewrite app_length. cbn [length].
  replace (length l + 1 - 1 - s)%nat with (S (length l - 1 - s)) by lia. cbn [pow]. ring.
Qed.

Lemma nth_snoc_lt (l : list R) x s : (s < length l)%nat -> nth s (l ++ [x]) 0 = nth s l 0.
Proof. intros H. apply app_nth1. exact H. Qed.
Lemma nth_snoc_eq (l : list R) x : nth (length l) (l ++ [x]) 0 = x.
Proof. rewrite app_nth2, Nat.sub_diag by lia. reflexivity. Qed.

Lemma ema_nil b : ema b [] = 0.
Proof. reflexivity. Qed.
Lemma ema_snoc b l x : ema b (l ++ [x]) = b * ema b l + (1 - b) * x.
Proof.
  unfold ema. cbv zeta. pose proof (weights_snoc b l x 0 (nth_snoc_lt l x)) as H. rewrite Nat.sub_0_r in H.
  replace (seq 0 (length (l ++ [x]))) with (seq 0 (length l) ++ [length l]).
  2:{ rewrite app_length. cbn [length]. rewrite Nat.add_1_r, seq_S. reflexivity. }
  rewrite map_app, sumR_app, H. cbn [map]. rewrite sumR_one, nth_snoc_eq, app_length. cbn [length].
  replace (length l + 1 - 1 - length l)%nat with 0%nat by lia. cbn [pow]. ring.
Qed.

Lemma ema1_single b x : ema1 b [x] = x.
Proof. unfold ema1, sumR. cbn. ring. Qed.
Lemma ema1_snoc b l x : l <> [] -> ema1 b (l ++ [x]) = b * ema1 b l + (1 - b) * x.
Proof.
  intros Hne. destruct l as [|y l']; [congruence|]. set (l := y :: l') in *. assert (Hl : (0 < length l)%nat) by (cbn; lia).
  unfold ema1. cbv zeta. pose proof (weights_snoc b l x 1 (nth_snoc_lt l x)) as H.
  replace (seq 1 (length (l ++ [x]) - 1)) with (seq 1 (length l - 1) ++ [length l]).
  2:{ rewrite app_length. cbn [length]. replace (length l + 1 - 1)%nat with (S (length l - 1)) by lia. rewrite seq_S.
      replace (1 + (length l - 1))%nat with (length l) by lia. reflexivity. }
  rewrite map_app, sumR_app, H. cbn [map]. rewrite sumR_one, nth_snoc_eq, app_length, (nth_snoc_lt l x 0 Hl). cbn [length].
  replace (length l + 1 - 1 - length l)%nat with 0%nat by lia. replace (length l + 1 - 1)%nat with (S (length l - 1)) by lia.
  cbn [pow]. ring.
Qed.

Lemma maxdisc_nil b : maxdisc b [] = 0.
Proof. reflexivity. Qed.
Lemma fold_max_scal b l : 0 <= b -> fold_right Rmax 0 (map (Rmult b) l) = b * fold_right Rmax 0 l.
Proof.
  intros Hb. induction l as [|x l IH]; cbn; [ring|]. rewrite IH. apply RmaxRmult. exact Hb.
Qed.
Lemma fold_max_pos l : 0 <= fold_right Rmax 0 l.
Proof. induction l as [|x l IH]; cbn; [lra|]. eapply Rle_trans; [exact IH|apply Rmax_r]. Qed.
Lemma fold_max_app l x : 0 <= x -> fold_right Rmax 0 (l ++ [x]) = Rmax (fold_right Rmax 0 l) x.
Proof.
  intros Hx. induction l as [|y l IH]; cbn.
  - rewrite (Rmax_left x 0), Rmax_right by exact Hx. reflexivity.
  - rewrite IH. rewrite Rmax_assoc. reflexivity.
Qed.
Lemma maxdisc_snoc b l x : 0 <= b -> maxdisc b (l ++ [x]) = Rmax (Rabs x) (b * maxdisc b l).
Proof.
  intros Hb. unfold maxdisc. cbv zeta. rewrite app_length. cbn [length]. rewrite Nat.add_1_r, seq_S, map_app. cbn [map].
  rewrite fold_max_app by (apply Rmult_le_pos; [apply pow_le; exact Hb|apply Rabs_pos]).
  rewrite Nat.add_0_l, nth_snoc_eq. replace (S (length l) - 1 - length l)%nat with 0%nat by lia. cbn [pow]. rewrite Rmult_1_l, Rmax_comm.
  f_equal. rewrite <- fold_max_scal, map_map by exact Hb. f_equal. apply map_ext_in. intros s Hs. apply in_seq in Hs.
  rewrite nth_snoc_lt by lia. replace (S (length l) - 1 - s)%nat with (S (length l - 1 - s)) by lia. cbn [pow]. ring.
Qed.
Lemma maxdisc_pos b l : 0 <= maxdisc b l.
Proof. apply fold_max_pos. Qed.
Lemma fold_max_ge l x : In x l -> x <= fold_right Rmax 0 l.
Proof.
  induction l as [|y l IH]; intros []; cbn.
  - subst. apply Rmax_l.
  - eapply Rle_trans; [apply IH; assumption|apply Rmax_r].
Qed.
Lemma maxdisc_ge b l s : (s < length l)%nat -> b ^ (length l - 1 - s) * Rabs (nth s l 0) <= maxdisc b l.
Proof. intros H. apply fold_max_ge. apply in_map_iff. exists s. split; [reflexivity|]. apply in_seq. lia. Qed.

Lemma sqs_snoc l x : sqs (l ++ [x]) = sqs l ++ [x ^ 2].
Proof. apply map_app. Qed.
Lemma abss_snoc l x : abss (l ++ [x]) = abss l ++ [Rabs x].
Proof. apply map_app. Qed.
Lemma sqs_nil l : sqs l = [] -> l = [].
Proof. destruct l; [reflexivity|discriminate]. Qed.
Lemma abss_nil l : abss l = [] -> l = [].
Proof. destruct l; [reflexivity|discriminate]. Qed.

Lemma ema_pos b l : 0 < b < 1 -> Forall (fun x => 0 <= x) l -> 0 <= ema b l.
Proof.
  intros Hb. induction l as [|x l IH] using rev_ind; intros H; [rewrite ema_nil; lra|].
  apply Forall_app in H. destruct H as [H Hx]. inversion Hx; subst. rewrite ema_snoc. specialize (IH H). nra.
Qed.
Lemma ema1_pos b l : 0 < b < 1 -> Forall (fun x => 0 <= x) l -> 0 <= ema1 b l.
Proof.
  intros Hb. induction l as [|x l IH] using rev_ind; intros H; [unfold ema1, sumR; cbn; lra|].
  apply Forall_app in H. destruct H as [H Hx]. inversion Hx; subst. destruct l as [|y l'].
  - cbn [app]. rewrite ema1_single. assumption.
  - rewrite ema1_snoc by discriminate. specialize (IH H). nra.
Qed.
Lemma sqs_pos l : Forall (fun x => 0 <= x) (sqs l).
Proof. apply Forall_forall. intros x Hx. apply in_map_iff in Hx. destruct Hx as (y & <- & _). apply pow2_ge_0. Qed.
Lemma abss_pos l : Forall (fun x => 0 <= x) (abss l).
Proof. apply Forall_forall. intros x Hx. apply in_map_iff in Hx. destruct Hx as (y & <- & _). apply Rabs_pos. Qed.

(** the variance estimate of centred RMSProp is not negative *)
Lemma ema1_jensen b l : 0 < b < 1 -> (ema1 b l) ^ 2 <= ema1 b (sqs l).
Proof.
  intros Hb. induction l as [|x l IH] using rev_ind; [unfold ema1, sumR; cbn; lra|].
  destruct l as [|y l'].
  - cbn [app]. unfold sqs. cbn [map]. rewrite !ema1_single. lra.
  - rewrite sqs_snoc, !ema1_snoc; [|intros E; apply sqs_nil in E; discriminate|discriminate].
    set (G := ema1 b (y :: l')) in *. set (F := ema1 b (sqs (y :: l'))) in *.
    assert (0 <= b * (F - G ^ 2)) by (apply Rmult_le_pos; lra).
    assert (0 <= b * (1 - b) * (G - x) ^ 2) by (apply Rmult_le_pos; [nra|apply pow2_ge_0]). nra.
Qed.

Lemma pow_lt1 b n : 0 < b < 1 -> (0 < n)%nat -> 0 < b ^ n < 1.
Proof.
  intros Hb Hn. split; [apply pow_lt; lra|]. destruct n as [|n]; [lia|].
  clear Hn. induction n as [|n IH]; cbn [pow] in *; [lra|]. assert (0 < b * b ^ n) by (apply Rmult_lt_0_compat; [lra|apply pow_lt; lra]). nra.
Qed.

Lemma last_snoc (l : list R) x : last (l ++ [x]) 0 = x.
Proof. apply last_last. Qed.
