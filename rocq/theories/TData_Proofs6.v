(** Every order of the samples can be the outcome of the shuffle. *)
From Coq Require Import Permutation.
From Verif Require Import Base BaseLemmas Workers_Model Kern_Model Kern_Spec Kern_Proofs MKern_Model MKern_Spec
  Smx_Model Smx_Spec Smx_Proofs Smx_Proofs2 TData_Model TData_Spec TData_Proofs TData_Proofs2.
Lemma for_loop_snoc {T} (body : nat -> T -> option T) n : forall lo s,
  for_loop lo (n + 1) body s = do s' <- for_loop lo n body s; body (lo + n) s'.
Proof.
  induction n as [|n IH]; intros lo s.
  - cbn [for_loop Nat.add obind]. rewrite Nat.add_0_r. destruct (body lo s); reflexivity.
  - cbn [Nat.add for_loop]. destruct (body lo s); [|reflexivity]. cbn [obind]. rewrite IH.
    replace (lo + S n) with (S lo + n) by lia. reflexivity.
Qed.
Lemma bset_app (l : list nat) x i v : i < length l -> bset (l ++ [x]) i v = (do l' <- bset l i v; Some (l' ++ [x])).
Proof.
  revert i. induction l as [|a l IH]; intros i Hi; cbn [length] in Hi; [lia|]. destruct i as [|i]; [reflexivity|].
  cbn [app bset]. rewrite IH by lia. destruct (bset l i v); reflexivity.
Qed.
Lemma swap_app (l : list nat) x i j : i < length l -> j < length l -> swap (l ++ [x]) i j = (do l' <- swap l i j; Some (l' ++ [x])).
Proof.
  intros Hi Hj. unfold swap, bget. rewrite !nth_error_app1 by lia.
  destruct (nth_error l i) as [a|]; [|reflexivity]. destruct (nth_error l j) as [b|]; [|reflexivity]. cbn [obind].
  rewrite bset_app by lia. destruct (bset_lt l i b Hi) as [l1 E1]. rewrite E1. cbn [obind].
  rewrite bset_app; [reflexivity|]. rewrite (bset_length _ _ _ _ E1). exact Hj.
Qed.
Lemma shuffle_app rv x n : rng_ok rv -> forall lo (l : list nat), lo + n <= length l ->
  for_loop lo n (fun i l => swap l i (rv (i + 1))) (l ++ [x]) = (do l' <- for_loop lo n (fun i l => swap l i (rv (i + 1))) l; Some (l' ++ [x])).
Proof.
  intros Hr. induction n as [|n IH]; intros lo l Hl; [reflexivity|]. cbn [for_loop]. specialize (Hr (lo + 1)).
  rewrite swap_app by lia. destruct (swap_perm l lo (rv (lo + 1))) as (l1 & E1 & P1); [lia|lia|]. rewrite E1. cbn [obind].
  apply IH. rewrite (Permutation_length P1). lia.
Qed.
Lemma for_loop_ext {T} (f g : nat -> T -> option T) n : forall lo s, (forall i s, lo <= i < lo + n -> f i s = g i s) ->
  for_loop lo n f s = for_loop lo n g s.
Proof.
  induction n as [|n IH]; intros lo s H; [reflexivity|]. cbn [for_loop]. rewrite H by lia. destruct (g lo s); [|reflexivity].
  cbn [obind]. apply IH. intros; apply H; lia.
Qed.

Lemma shuffle_onto : forall (l T : list nat), Permutation T l -> exists rv, rng_ok rv /\ random_shuffle rv l = Some T.
Proof.
  induction l as [|x l IH] using rev_ind; intros T HP.
  - apply Permutation_sym, Permutation_nil in HP. subst. exists (fun _ => 0). split; [intros k; lia|reflexivity].
  - destruct l as [|a l0].
    { cbn [app] in *. apply Permutation_sym, Permutation_length_1_inv in HP. subst. exists (fun _ => 0). split; [intros k; lia|reflexivity]. }
    set (l := a :: l0) in *. set (n := length l).
    assert (G : exists T' j, Permutation T' l /\ j < n + 1 /\ swap (T' ++ [x]) n j = Some T).
    { destruct T as [|y T0] using rev_ind; [apply Permutation_length in HP; rewrite app_length in HP; cbn in HP; lia|]. clear IHT0.
      pose proof (Permutation_length HP) as HL. rewrite !app_length in HL. cbn [length] in HL. fold n in HL.
      destruct (Nat.eq_dec y x) as [->|Hyx].
      - exists T0, n. split; [exact (Permutation_app_inv_r _ _ _ HP)|]. split; [lia|].
        unfold swap, bget. rewrite nth_error_app2 by lia. replace (n - length T0) with 0 by lia. cbn [nth_error obind].
        assert (U : bset (T0 ++ [x]) n x = Some (T0 ++ [x])).
        { replace n with (length T0) by lia. clear. induction T0 as [|b T0 IH]; [reflexivity|]. cbn [app length bset]. rewrite IH. reflexivity. }
        rewrite U. cbn [obind]. exact U.
      - assert (Hx : In x T0).
        { assert (In x (T0 ++ [y])) by (apply (Permutation_in _ (Permutation_sym HP)), in_or_app; right; left; reflexivity).
          apply in_app_or in H. destruct H as [H|[H|[]]]; [exact H|congruence]. }
        apply in_split in Hx. destruct Hx as (u & w & ->). exists (u ++ y :: w), (length u).
        rewrite app_length in HL. cbn [length] in HL. split; [|split; [lia|]].
        + apply (Permutation_app_inv_r [x]). eapply Permutation_trans; [|exact HP]. clear.
          rewrite <- !app_assoc. apply Permutation_app_head. cbn [app].
          apply Permutation_trans with (x :: y :: w); [apply Permutation_sym, (Permutation_cons_append (y :: w) x)|].
          apply perm_skip. apply Permutation_cons_append.
        + assert (Len : length (u ++ y :: w) = n) by (rewrite app_length; cbn [length]; lia).
          assert (U : forall (q r : list nat) b c, bset (q ++ b :: r) (length q) c = Some (q ++ c :: r)).
          { intros q r b c. induction q as [|d q IHq]; [reflexivity|]. cbn [app length bset]. rewrite IHq. reflexivity. }
          unfold swap, bget. rewrite nth_error_app2 by lia. replace (n - length (u ++ y :: w)) with 0 by lia. cbn [nth_error obind].
          rewrite nth_error_app1 by lia. rewrite nth_error_app2, Nat.sub_diag by lia. cbn [nth_error obind].
          rewrite <- Len at 1. rewrite U. cbn [obind]. rewrite <- !app_assoc. cbn [app]. apply U. }
    destruct G as (T' & j & HP' & Hj & Hsw). destruct (IH T' HP') as (rv & Hr & E).
    exists (fun k => if k =? n + 1 then j else rv k). split.
    { intros k Hk. destruct (Nat.eqb_spec k (n + 1)); [lia|apply Hr; exact Hk]. }
    unfold random_shuffle in *. rewrite app_length. cbn [length]. fold n in E |- *.
    replace (n + 1 - 1) with ((n - 1) + 1) by (unfold n, l; cbn [length]; lia).
    rewrite for_loop_snoc.
    rewrite (for_loop_ext _ (fun i l => swap l i (rv (i + 1)))).
    2: { intros i s Hi. assert (1 <= n) by (unfold n, l; cbn [length]; lia). destruct (Nat.eqb_spec (i + 1) (n + 1)); [lia|reflexivity]. }
    rewrite (shuffle_app rv x (n - 1) Hr) by (unfold n, l; cbn [length]; lia). rewrite E. cbn [obind].
    replace (1 + (n - 1)) with n by (unfold n, l; cbn [length]; lia). rewrite Nat.eqb_refl. exact Hsw.
Qed.
