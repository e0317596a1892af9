(** Sums split between threads. *)
From Coq Require Import Reals Lra Lia Permutation.
From Verif Require Import Base BaseLemmas Workers_Model Workers_Spec Workers_Final Kern_Model Kern_Spec Kern_Proofs Act_Spec
  Loss_Proofs Sum_Model Sum_Spec Sum_Proofs Fs_Model Fs_Proofs.
Local Open Scope R_scope.

Section U.
Context (u : R) (Hu : 0 <= u <= / 64) (rnd : R -> R) (fmt : R -> Prop).
Context (F0 : fmt 0) (Fr : forall x, fmt (rnd x)) (Fn : forall x, fmt x -> fmt (- x))
  (Fa : forall x y, fmt x -> fmt y -> exists e, Rabs e <= u /\ rnd (x + y) = (x + y) * (1 + e)).
Definition ksum (l : list R) : R := fst (fold_left (fkahan_op rnd) l (0, 0)).

Lemma parts_near N (parts : list (list R)) : INR N * u <= 1 -> Forall (fun l => Forall fmt l /\ (length l <= N)%nat) parts ->
  Forall fmt (map ksum parts) /\
  Rabs (sumR (map ksum parts) - sumR (concat parts)) <= (3 * u + 10 * INR N * u * u) * absum (concat parts) /\
  absum (map ksum parts) <= (1 + 3 * u + 10 * INR N * u * u) * absum (concat parts).
Proof.
  intros HN. induction parts as [|l parts IH]; intros HF.
  - cbn. unfold absum, sumR. cbn. rewrite Rminus_0_r, Rabs_R0. split; [constructor|]. lra.
  - inversion HF as [|? ? [Fl Hl] HF']; subst. destruct (IH HF') as (I1 & I2 & I3). cbn [map concat].
    assert (Hk : INR (length l) * u <= INR N * u) by (apply Rmult_le_compat_r; [lra|apply le_INR, Hl]).
    destruct (kahan_bound3 u Hu rnd fmt F0 Fr Fn Fa l ltac:(lra) Fl) as [K1 K2]. fold (ksum l) in K1, K2.
    assert (K3 : Rabs (ksum l - sumR l) <= (3 * u + 10 * INR N * u * u) * absum l).
    { eapply Rle_trans; [exact K2|]. apply Rmult_le_compat_r; [apply absum_nonneg|]. assert (INR (length l) * u * u <= INR N * u * u) by (apply Rmult_le_compat_r; lra). lra. }
    rewrite Loss_Proofs.sumR_app. unfold absum in *. rewrite map_app, Loss_Proofs.sumR_app. cbn [map]. rewrite !sumR_cons.
    split; [constructor; assumption|]. split.
    + replace (ksum l + sumR (map ksum parts) - (sumR l + sumR (concat parts))) with ((ksum l - sumR l) + (sumR (map ksum parts) - sumR (concat parts))) by ring.
      eapply Rle_trans; [apply abs_add; [exact K3|exact I2]|]. lra.
    + assert (Rabs (ksum l) <= (3 * u + 10 * INR N * u * u) * sumR (map Rabs l) + sumR (map Rabs l)).
      { replace (ksum l) with ((ksum l - sumR l) + sumR l) by ring. apply abs_add; [exact K3|apply sum_absum]. } lra.
Qed.

Lemma absum_perm l l' : Permutation l l' -> absum l = absum l'.
Proof. intros H. apply sumR_perm, Permutation_map, H. Qed.

(** both levels *)
Lemma parts_total N parts : INR N * u <= 1 -> Forall (fun l => Forall fmt l /\ (length l <= N)%nat) parts -> (0 < length parts <= N)%nat ->
  let r := ksum (map ksum parts) in
  fmt r /\ Rabs (r - sumR (concat parts)) <= (6 * u + 64 * INR N * u * u) * absum (concat parts).
Proof.
  intros HN HF HL. destruct (parts_near N parts HN HF) as (I1 & I2 & I3). set (cells := map ksum parts) in *. cbn zeta.
  assert (Lc : length cells = length parts) by apply map_length.
  assert (HLr : 1 <= INR (length cells) <= INR N). { rewrite Lc. split; [change 1 with (INR 1); apply le_INR; lia|apply le_INR; lia]. }
  assert (Hk : INR (length cells) * u <= INR N * u) by (apply Rmult_le_compat_r; lra).
  destruct (kahan_bound3 u Hu rnd fmt F0 Fr Fn Fa cells ltac:(lra) I1) as [K1 K2]. fold (ksum cells) in K1, K2. split; [exact K1|].
  set (A := absum (concat parts)) in *. assert (HA : 0 <= A) by apply absum_nonneg.
  set (k := INR N) in *. set (kc := INR (length cells)) in *.
  assert (Hc2 : (3 * u + 10 * kc * u * u) * absum cells <= (3 * u + 10 * k * u * u) * ((1 + 3 * u + 10 * k * u * u) * A)).
  { assert (0 <= kc * u * u) by (repeat apply Rmult_le_pos; lra). assert (kc * u * u <= k * u * u) by (apply Rmult_le_compat_r; lra).
    apply Rmult_le_compat; [lra|apply absum_nonneg|lra|exact I3]. }
  replace (ksum cells - sumR (concat parts)) with ((ksum cells - sumR cells) + (sumR cells - sumR (concat parts))) by ring.
  eapply Rle_trans; [apply abs_add; [eapply Rle_trans; [exact K2|exact Hc2]|exact I2]|].
  (* the product of the two relative errors is of second order *)
  pose proof (small u Hu A HA) as A1.
  assert (P1 : 0 <= u * (u * A)) by (apply Rmult_le_pos; lra).
  assert (P2 : u * (u * A) <= k * (u * (u * A))) by (rewrite <- (Rmult_1_l (u * (u * A))) at 1; apply Rmult_le_compat_r; lra).
  assert (P0 : 0 <= k * (u * (u * A))) by lra.
  assert (P3 : k * u * (u * (u * A)) <= 1 * (u * (u * A))) by (apply Rmult_le_compat_r; lra).
  assert (P4 : k * u * (k * (u * (u * A))) <= 1 * (k * (u * (u * A)))) by (apply Rmult_le_compat_r; lra).
  assert (P5 : u * (k * (u * (u * A))) <= / 64 * (k * (u * (u * A)))) by (apply Rmult_le_compat_r; lra).
  assert (E : (3 * u + 10 * k * u * u) * ((1 + 3 * u + 10 * k * u * u) * A) =
    3 * (u * A) + 9 * (u * (u * A)) + 60 * (k * u * (u * (u * A))) + 10 * (k * (u * (u * A))) + 100 * (u * (k * u * (k * (u * (u * A)))))) by ring.
  assert (P6 : u * (k * u * (k * (u * (u * A)))) <= / 64 * (k * (u * (u * A)))).
  { apply Rmult_le_compat; [lra| |lra|lra]. repeat apply Rmult_le_pos; lra. }
  rewrite E. assert (P7 : k * u * (u * (u * A)) = u * (k * (u * (u * A)))) by ring. lra.
Qed.

Definition kloop_ok (k : prange -> option R) (g : nat -> R) (n : nat) : Prop :=
  forall p, (r_ofs p + r_cnt p <= n)%nat -> k p = Some (ksum (map g (idxs p))).
Lemma idxs_len p : length (idxs p) = r_cnt p.
Proof. unfold idxs. apply seq_length. Qed.
Lemma cells_le ps : Forall (fun p => 0 < r_cnt p)%nat ps -> (length ps <= length (flat_map idxs ps))%nat.
Proof. induction 1 as [|p ps Hp _ IH]; [cbn; lia|]. cbn [flat_map length]. rewrite app_length, idxs_len. lia. Qed.

Lemma dispatch_near (k : prange -> option R) g pool (b : bool) n : (0 < n)%nat -> INR n * u <= 1 ->
  (forall i, (i < n)%nat -> fmt (g i)) -> kloop_ok k g n ->
  exists r, (if b then k (mkR 0 n 0) else reduce k (freduce_vec_sum rnd true) pool n) = Some r /\ fmt r /\
    Rabs (r - total n g) <= (6 * u + 64 * INR n * u * u) * total n (fun i => Rabs (g i)).
Proof.
  intros H0 Hn Fg HK.
  assert (Hst : forall p, (0 < r_cnt p)%nat -> p = mkR 0 n (r_tid p) -> exists r, k p = Some r /\ fmt r /\
    Rabs (r - total n g) <= (6 * u + 64 * INR n * u * u) * total n (fun i => Rabs (g i))).
  { intros p _ ->. rewrite HK by (cbn; lia). eexists. split; [reflexivity|]. unfold idxs. cbn [r_ofs r_cnt].
    assert (Fl : Forall fmt (map g (seq 0 n))) by (apply Forall_forall; intros x Hx; apply in_map_iff in Hx; destruct Hx as (i & <- & Hi); apply Fg; apply in_seq in Hi; lia).
    destruct (kahan_bound3 u Hu rnd fmt F0 Fr Fn Fa (map g (seq 0 n))) as [K1 K2]; [rewrite map_length, seq_length; exact Hn|exact Fl|].
    split; [exact K1|]. rewrite map_length, seq_length in K2. unfold total. unfold absum in K2. rewrite map_map in K2. eapply Rle_trans; [exact K2|].
    apply Rmult_le_compat_r; [rewrite <- (map_map g Rabs); apply absum_nonneg|]. assert (0 <= INR n * u * u) by (repeat apply Rmult_le_pos; try lra; apply pos_INR). lra. }
  destruct b; [apply (Hst (mkR 0 n 0)); [cbn; lia|reflexivity]|].
  unfold reduce. destruct (Nat.leb_spec n 1) as [Hc|Hc]; [apply (Hst (mkR 0 n 0)); [cbn; lia|reflexivity]|].
  destruct (partition n 0 pool) as [[w rs'] ofs] eqn:E.
  pose proof (run_ranges_tiles pool 0%Z n H0) as HT. unfold run_ranges in HT.
  destruct (Nat.leb_spec n 1) as [?|_]; [lia|]. rewrite E in HT.
  set (ps := main_range n ofs :: filter (fun r => negb (r_cnt r =? 0)%nat) rs').
  assert (HT' : tiles ps n).
  { destruct HT as [HP HN]. split.
    - rewrite <- HP. apply Permutation_flat_map. apply Permutation_cons_append.
    - intros p Hp. apply HN. apply in_or_app. destruct Hp as [<-|Hp]; [right; left; reflexivity|left; exact Hp]. }
  rewrite (omap_ok k (fun p => ksum (map g (idxs p))) ps) by (intros p Hp; destruct (tiles_bound _ _ _ HT' Hp); apply HK; assumption).
  cbn [obind]. eexists. split; [reflexivity|]. change (freduce_vec_sum rnd true) with ksum.
  rewrite <- (map_map (fun p => map g (idxs p)) ksum).
  assert (EC : concat (map (fun p => map g (idxs p)) ps) = map g (flat_map idxs ps)).
  { clear. induction ps as [|p ps IH]; [reflexivity|]. cbn [map concat flat_map]. rewrite map_app, IH. reflexivity. }
  pose proof (proj1 HT') as HP.
  destruct (parts_total n (map (fun p => map g (idxs p)) ps)) as [T1 T2].
  - exact Hn.
  - apply Forall_forall. intros l Hl. apply in_map_iff in Hl. destruct Hl as (p & <- & Hp). destruct (tiles_bound _ _ _ HT' Hp) as [B1 B2]. split.
    + apply Forall_forall. intros x Hx. apply in_map_iff in Hx. destruct Hx as (i & <- & Hi). apply Fg. unfold idxs in Hi. apply in_seq in Hi. lia.
    + rewrite map_length, idxs_len. lia.
  - rewrite map_length. split; [unfold ps; cbn; lia|]. rewrite <- (seq_length n 0), <- (Permutation_length HP). apply cells_le. apply Forall_forall. intros p Hp. destruct (tiles_bound _ _ _ HT' Hp). assumption.
  - split; [exact T1|]. rewrite EC in T2. pose proof (Permutation_map g HP) as HPg. rewrite (sumR_perm _ _ HPg), (absum_perm _ _ HPg) in T2.
    unfold absum in T2. rewrite (map_map g Rabs) in T2. exact T2.
Qed.
End U.
