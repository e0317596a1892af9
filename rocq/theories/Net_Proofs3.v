(** Back-propagation is the adjoint of the derivative of forward propagation. *)
From Coq Require Import Reals Bool Lra.
From Coquelicot Require Import Coquelicot.
From Verif Require Import Base BaseLemmas Act_Model Act_Spec Act_Proofs Loss_Proofs Net_Model Net_Spec Net_Proofs Net_Proofs2.
Local Open Scope nat_scope.

Lemma d_mult (f g : R -> R) (x df dg : R) : is_derive f x df -> is_derive g x dg ->
  is_derive (fun t => f t * g t)%R x (df * g x + f x * dg)%R.
Proof. intros H1 H2. apply (is_derive_mult f g x df dg H1 H2). intros; apply Rmult_comm. Qed.

Section Path.
Context (f : R -> nat -> list R -> list R) (dW : nat -> nat -> R) (x : R).

(** the weights of one layer move along a differentiable path through their values *)
Definition moves (id : nat) (W : list R) : Prop :=
  f x id W = W /\ (forall t, length (f t id W) = length W) /\
  forall j, j < length W -> is_derive (fun t => nth j (f t id W) 0%R) x (dW id j).

Fixpoint path (l : layer) : Prop :=
  match l with
  | LFC id _ _ _ W _ _ => moves id W
  | LI _ _ => True
  | LPV s => spath s
  | LPH _ h _ _ => hpath h
  | LPT _ l _ _ => path l
  end
with spath (s : stack) : Prop := match s with SOne l => path l | SCons l b => path l /\ spath b end
with hpath (h : hpack) : Prop := match h with HNil => True | HCons _ _ l h => path l /\ hpath h end.

(** derivative of the loss along the path as the gradients claim it *)
Fixpoint gsum (l : layer) : R :=
  match l with
  | LFC id _ inc n _ G _ => bs (length G) (fun j => nth j G 0 * dW id j)%R
  | LI _ _ => 0%R
  | LPV s => sgsum s
  | LPH _ h _ _ => hgsum h
  | LPT k l _ _ => (INR k * gsum l)%R
  end
with sgsum (s : stack) : R := match s with SOne l => gsum l | SCons l b => (gsum l + sgsum b)%R end
with hgsum (h : hpack) : R := match h with HNil => 0%R | HCons _ _ l h => (gsum l + hgsum h)%R end.

Lemma gsum_bare : (forall l, gsum (bare l) = gsum l) /\ (forall s, sgsum (sbare s) = sgsum s) /\ (forall h, hgsum (hbare h) = hgsum h).
Proof. apply layers_ind; intros; simpl; try reflexivity; try assumption; try (rewrite ?H, ?H0; reflexivity). Qed.

Lemma with_w_neurons g : (forall l, neurons (with_w g l) = neurons l) /\ (forall s, sneurons (swith_w g s) = sneurons s) /\
  (forall h, hneurons (hwith_w g h) = hneurons h).
Proof.
  apply layers_ind; intros; simpl; try reflexivity; try (rewrite ?H, ?H0; reflexivity).
  destruct s; apply H.
Qed.
Lemma with_w_incoming g : (forall l, incoming (with_w g l) = incoming l) /\ (forall s, sincoming (swith_w g s) = sincoming s) /\
  (forall h : hpack, True).
Proof. apply layers_ind; intros; simpl; try exact I; try reflexivity; try assumption; rewrite H; reflexivity. Qed.

Definition dpath (n : nat) (F : R -> list R) (dF : nat -> R) : Prop :=
  (forall t, length (F t) = n) /\ forall q, q < n -> is_derive (fun t => nth q (F t) 0%R) x (dF q).

Lemma dpath_sub n k (F : R -> list R) dF g : dpath n F dF -> (forall q, q < k -> g q < n) ->
  dpath k (fun t => map (fun q => nth (g q) (F t) 0%R) (seq 0 k)) (fun q => dF (g q)).
Proof.
  intros [H1 H2] Hg. split; [intros; rewrite map_length, seq_length; reflexivity|].
  intros q Hq. apply (d_ext (fun t => nth (g q) (F t) 0%R)); [intros t; rewrite nth_map_seq by assumption; reflexivity|].
  apply H2. auto.
Qed.
Lemma dpath_ext n F F' dF : (forall t, length (F' t) = n) -> (forall t q, q < n -> nth q (F' t) 0%R = nth q (F t) 0%R) ->
  dpath n F dF -> dpath n F' dF.
Proof.
  intros HL HE [_ H]. split; [exact HL|]. intros q Hq. apply (d_ext (fun t => nth q (F t) 0%R)); [|apply H; exact Hq].
  intros t. symmetry. apply HE. exact Hq.
Qed.
Lemma dpath_slice m n i k (F : R -> list R) dF : dpath n F dF -> m = k -> i + k <= n ->
  dpath m (fun t => slice i k (F t)) (fun q => dF (i + q)).
Proof.
  intros H -> Hk. apply (dpath_ext k (fun t => map (fun q => nth (i + q) (F t) 0%R) (seq 0 k))).
  - intros t. apply slice_length. rewrite (proj1 H). exact Hk.
  - intros t q Hq. rewrite nth_slice, nth_map_seq by assumption. reflexivity.
  - apply (dpath_sub n); [exact H|]. intros; lia.
Qed.
Lemma dpath_roll m n k (F : R -> list R) dF : dpath (m * (k * n)) F dF ->
  dpath (k * m * n) (fun t => roll m n k (F t)) (fun q => dF (ridx m n k q)).
Proof.
  intros H. apply (dpath_ext _ (fun t => map (fun q => nth (ridx m n k q) (F t) 0%R) (seq 0 (k * m * n)))).
  - intros t. apply roll_length.
  - intros t q Hq. rewrite nth_roll, nth_map_seq by assumption. reflexivity.
  - apply (dpath_sub (m * (k * n))); [exact H|]. intros; apply ridx_lt; assumption.
Qed.
Lemma dpath_unroll m n k (F : R -> list R) dF : dpath (k * m * n) F dF ->
  dpath (m * (k * n)) (fun t => unroll m n k (F t)) (fun q => dF (uidx m n k q)).
Proof.
  intros H. apply (dpath_ext _ (fun t => map (fun q => nth (uidx m n k q) (F t) 0%R) (seq 0 (m * (k * n))))).
  - intros t. apply unroll_length.
  - intros t q Hq. rewrite nth_unroll, nth_map_seq by assumption. reflexivity.
  - apply (dpath_sub (k * m * n)); [exact H|]. intros; apply uidx_lt; assumption.
Qed.

(** net input *)
Definition dP (m inc : nat) (dB : nat -> R) (q : nat) : R := if q <? m * inc then dB q else 0%R.
Definition zpath (m n inc : nat) (P W : list R) (q : nat) : R :=
  bs (inc + 1) (fun k => nth (q mod m + k * m) P 0 * nth (q / m + k * n) W 0)%R.
Lemma net_input_bs m n inc P W r c : net_input m n inc P W r c = bs (inc + 1) (fun k => nth (r + k * m) P 0 * nth (c + k * n) W 0)%R.
Proof. apply bs_sumR. Qed.

Lemma d_biased m inc B dB : dpath (m * inc) B dB -> forall q, q < m * (inc + 1) ->
  is_derive (fun t => nth q (biased m (B t)) 0%R) x (dP m inc dB q).
Proof.
  intros [H1 H2] q Hq. unfold dP. destruct (Nat.ltb_spec q (m * inc)).
  - apply (d_ext (fun t => nth q (B t) 0%R)); [intros t; rewrite nth_biased by (rewrite H1; assumption); reflexivity|]. auto.
  - apply (d_ext (fun _ => 1%R)); [intros t; rewrite nth_bias by (rewrite H1; lia); reflexivity|]. apply d_const.
Qed.

Definition dZ (m n inc : nat) (P W : list R) (dB : nat -> R) (dw : nat -> R) (r c : nat) : R :=
  bs (inc + 1) (fun k => dP m inc dB (r + k * m)%nat * nth (c + k * n) W 0 + nth (r + k * m) P 0 * dw (c + k * n)%nat)%R.

Lemma d_net_input m n inc id W B dB r c : dpath (m * inc) B dB -> moves id W -> length W = n * (inc + 1) -> r < m -> c < n ->
  is_derive (fun t => bs (inc + 1) (fun k => nth (r + k * m) (biased m (B t)) 0 * nth (c + k * n) (f t id W) 0)%R) x
    (dZ m n inc (biased m (B x)) W dB (dW id) r c).
Proof.
  intros HB (M1 & M2 & M3) HW Hr Hc. unfold dZ. apply d_bs. intros k Hk.
  assert (Hq : r + k * m < m * (inc + 1)) by nia. assert (Hj : c + k * n < length W) by (rewrite HW; nia).
  eapply d_eq; [apply (d_mult _ _ x _ _ (d_biased m inc B dB HB _ Hq) (M3 _ Hj))|].
  cbv beta. rewrite M1. reflexivity.
Qed.

Lemma fc_adjoint m n inc (z P W : list R) (dB dw : nat -> R) : 0 < m ->
  bs (m * n) (fun q => nth q z 0 * dZ m n inc P W dB dw (q mod m)%nat (q / m)%nat)%R =
  (INR m * bs (n * (inc + 1)) (fun j => nth j (gemm true false n (inc + 1) m (1 / INR m)%R z m P m) 0 * dw j) +
   bs (m * inc) (fun q => nth q (gemm false false m inc n 1%R z m W n) 0 * dB q))%R.
Proof.
  intros Hm. assert (HR : INR m <> 0%R) by (apply not_0_INR; lia).
  rewrite bs_dbl.
  transitivity (bs n (fun c => bs m (fun r => bs (inc + 1) (fun k =>
    (nth (c * m + r) z 0 * (nth (r + k * m) P 0 * dw (c + k * n)%nat) + nth (c * m + r) z 0 * (dP m inc dB (r + k * m)%nat * nth (c + k * n) W 0))%R)))).
  { apply bs_ext. intros c Hc. apply bs_ext. intros r Hr. destruct (dm m r c Hr) as [-> ->]. unfold dZ.
    rewrite <- bs_scal. apply bs_ext. intros k Hk. ring. }
  transitivity (bs n (fun c => bs m (fun r => bs (inc + 1) (fun k => (nth (c * m + r) z 0 * (nth (r + k * m) P 0 * dw (c + k * n)%nat))%R)))
    + bs n (fun c => bs m (fun r => bs (inc + 1) (fun k => (nth (c * m + r) z 0 * (dP m inc dB (r + k * m)%nat * nth (c + k * n) W 0))%R))))%R.
  { rewrite <- bs_plus. apply bs_ext. intros c Hc. rewrite <- bs_plus. apply bs_ext. intros r Hr. rewrite <- bs_plus. reflexivity. }
  f_equal.
  - rewrite bs_dbl, <- bs_scal.
    rewrite (bs_ext n _ (fun c => bs (inc + 1) (fun k => bs m (fun r => (nth (c * m + r) z 0 * (nth (r + k * m) P 0 * dw (c + k * n)%nat))%R))))
      by (intros; apply bs_swap).
    rewrite bs_swap. apply bs_ext. intros k Hk. rewrite <- bs_scal. apply bs_ext. intros c Hc.
    rewrite gemm_nth by assumption. cbv iota.
    replace (c + k * n) with (k * n + c) by lia.
    rewrite <- (bs_scal m (1 / INR m)), <- bs_scalr, <- bs_scal. apply bs_ext. intros r Hr.
    replace (r + c * m) with (c * m + r) by lia. field. exact HR.
  - rewrite (bs_ext n _ (fun c => bs (inc + 1) (fun k => bs m (fun r => (nth (c * m + r) z 0 * (dP m inc dB (r + k * m)%nat * nth (c + k * n) W 0))%R))))
      by (intros; apply bs_swap).
    rewrite bs_swap. rewrite bs_app. replace (bs 1 _) with 0%R.
    + rewrite Rplus_0_r, bs_dbl. apply bs_ext. intros k Hk. rewrite bs_swap. apply bs_ext. intros r Hr.
      rewrite gemm_nth by assumption. cbv iota. rewrite Rmult_1_l, <- bs_scalr. apply bs_ext. intros c Hc.
      unfold dP. destruct (Nat.ltb_spec (r + k * m) (m * inc)); [|nia].
      replace (r + c * m) with (c * m + r) by lia. replace (k * m + r) with (r + k * m) by lia. ring.
    + simpl. rewrite bs_0; [ring|]. intros c Hc. apply bs_0. intros r Hr. unfold dP.
      destruct (Nat.ltb_spec (r + (inc + 0) * m) (m * inc)); [nia|]. ring.
Qed.

Lemma add_at_sum i w (acc : list R) (dB : nat -> R) n : length acc = n -> i + length w <= n ->
  bs n (fun q => nth q (add_at i w acc) 0 * dB q)%R = (bs n (fun q => nth q acc 0 * dB q) + bs (length w) (fun q => nth q w 0 * dB (i + q)%nat))%R.
Proof.
  intros HA Hw.
  transitivity (bs n (fun q => nth q acc 0 * dB q + (if (i <=? q) && (q <? i + length w) then nth (q - i) w 0 else 0) * dB q)%R).
  { apply bs_ext. intros q Hq. unfold add_at. rewrite nth_map_seq by lia. ring. }
  rewrite bs_plus. f_equal. replace n with (i + (length w + (n - i - length w))) by lia. rewrite !bs_app.
  rewrite bs_0, (bs_0 (n - i - length w)).
  - rewrite Rplus_0_l, Rplus_0_r. apply bs_ext. intros q Hq.
    destruct (Nat.leb_spec i (i + q)); [|lia]. destruct (Nat.ltb_spec (i + q) (i + length w)); [|lia]. simpl.
    replace (i + q - i) with q by lia. reflexivity.
  - intros q Hq. destruct (Nat.ltb_spec (i + (length w + q)) (i + length w)); [lia|]. rewrite andb_false_r. ring.
  - intros q Hq. destruct (Nat.leb_spec i q); [lia|]. simpl. ring.
Qed.

Lemma pback_length gw : (forall l m P v, wf l -> length v = m * neurons l -> length (snd (pback gw m P v l)) = m * incoming l) /\
  (forall s m P v, swf s -> length v = m * sneurons s -> length (snd (spback gw m P v s)) = m * sincoming s) /\
  (forall h m P v inc, length (snd (hpback gw m inc P v h)) = m * inc).
Proof.
  apply layers_ind.
  - intros. simpl. apply gemm_length.
  - intros n A m P v _ H. exact H.
  - intros s IH m P v Hw Hv. simpl. specialize (IH m P v Hw Hv). destruct (spback gw m P v s). exact IH.
  - intros inc h IH b1 b2 m P v Hw Hv. simpl. specialize (IH m P v inc). destruct (hpback gw m inc P v h). exact IH.
  - intros k l IH inn A m P v Hw Hv. simpl. destruct (pback gw (k * m) _ _ l). simpl. apply unroll_length.
  - intros l IH m P v Hw Hv. simpl. specialize (IH m P v Hw Hv). destruct (pback gw m P v l). exact IH.
  - intros l IH b IHb m P v (W1 & W2 & W3) Hv. simpl. specialize (IH m (biased m (sacts b)) v W1 Hv).
    destruct (pback gw m (biased m (sacts b)) v l) as [l' w]. simpl in IH. rewrite W3 in IH.
    specialize (IHb m P w W2 IH). destruct (spback gw m P w b). exact IHb.
  - intros. simpl. apply repeat_length.
  - intros o c l IH h IHh m P v inc. simpl. specialize (IHh m P (skipn (m * neurons l) v) inc).
    destruct (hpback gw m inc P (skipn (m * neurons l) v) h) as [h' acc].
    destruct (pback gw m (biased m (slice (m * o) (m * c) P)) (firstn (m * neurons l) v) l). simpl in *. rewrite add_at_length. exact IHh.
Qed.

Lemma adjoint gw :
  (forall l m B dB, wf l -> path l -> 0 < m -> dpath (m * incoming l) B dB -> ready m (B x) l -> smooth_at m (biased m (B x)) l ->
    exists dA, dpath (m * neurons l) (fun t => fval m (B t) (with_w (f t) l)) dA /\
      fval m (B x) (with_w (f x) l) = fval m (B x) l /\
      forall v, length v = m * neurons l -> let r := pback gw m (biased m (B x)) v l in
        bs (m * neurons l) (fun q => nth q v 0 * dA q)%R =
        (INR m * gsum (fst r) + bs (m * incoming l) (fun q => nth q (snd r) 0 * dB q))%R) /\
  (forall s m B dB, swf s -> spath s -> 0 < m -> dpath (m * sincoming s) B dB -> sready m (B x) s -> ssmooth_at m (biased m (B x)) s ->
    exists dA, dpath (m * sneurons s) (fun t => sval m (B t) (swith_w (f t) s)) dA /\
      sval m (B x) (swith_w (f x) s) = sval m (B x) s /\
      forall v, length v = m * sneurons s -> let r := spback gw m (biased m (B x)) v s in
        bs (m * sneurons s) (fun q => nth q v 0 * dA q)%R =
        (INR m * sgsum (fst r) + bs (m * sincoming s) (fun q => nth q (snd r) 0 * dB q))%R) /\
  (forall h m B dB inc, hwf inc h -> hpath h -> 0 < m -> dpath (m * inc) B dB -> hready m (B x) h -> hsmooth_at m inc (biased m (B x)) h ->
    exists dA, dpath (m * hneurons h) (fun t => hval m (B t) (hwith_w (f t) h)) dA /\
      hval m (B x) (hwith_w (f x) h) = hval m (B x) h /\
      forall v, length v = m * hneurons h -> let r := hpback gw m inc (biased m (B x)) v h in
        bs (m * hneurons h) (fun q => nth q v 0 * dA q)%R =
        (INR m * hgsum (fst r) + bs (m * inc) (fun q => nth q (snd r) 0 * dB q))%R).
Proof.
  destruct fprop_ok as (_ & FP & _). destruct fval_length as (L1 & L2 & L3). destruct acts_ready as (A1 & A2 & A3).
  destruct fval_same as (S1 & S2 & S3). destruct (pback_length gw) as (PL1 & PL2 & PL3).
  apply layers_ind.
  - intros id a inc n W G A m B dB (W1 & W2 & W3 & W4) HP Hm HB HR HS. cbn [incoming neurons fval with_w pback gsum fst snd path ready smooth_at] in *.
    pose proof HP as (M1 & M2 & M3).
    exists (fun q => act_df a (nth q A 0) * dZ m n inc (biased m (B x)) W dB (dW id) (q mod m)%nat (q / m)%nat)%R.
    assert (HV : forall (Wt : list R) t q, q < m * n ->
      nth q (map (act_f a) (gemm false true m n (inc + 1) 1%R (biased m (B t)) m Wt n)) 0%R =
      act_f a (bs (inc + 1) (fun k => nth (q mod m + k * m) (biased m (B t)) 0 * nth (q / m + k * n) Wt 0)%R)).
    { intros Wt t q Hq. rewrite (nth_indep _ 0%R (act_f a 0%R)) by (rewrite map_length, gemm_length; exact Hq). rewrite map_nth. f_equal.
      assert (Hr : q mod m < m) by (apply Nat.mod_upper_bound; lia). assert (Hc : q / m < n) by (apply Nat.div_lt_upper_bound; lia).
      rewrite (Nat.div_mod q m) at 1 by lia. rewrite (Nat.mul_comm m). rewrite gemm_nth by assumption. cbv iota. ring. }
    split; [split|split].
    + intros t. rewrite map_length, gemm_length. reflexivity.
    + intros q Hq.
      assert (Hr : q mod m < m) by (apply Nat.mod_upper_bound; lia). assert (Hc : q / m < n) by (apply Nat.div_lt_upper_bound; lia).
      eapply d_ext; [intros t; symmetry; apply HV; exact Hq|].
      assert (EA : nth q A 0%R = act_f a (net_input m n inc (biased m (B x)) W (q mod m) (q / m))).
      { rewrite HR. rewrite HV by exact Hq. rewrite net_input_bs. reflexivity. }
      rewrite EA.
      apply (d_comp (act_f a) (fun t => bs (inc + 1) (fun k => nth (q mod m + k * m) (biased m (B t)) 0 * nth (q / m + k * n) (f t id W) 0)%R)).
      * cbv beta. rewrite M1, <- net_input_bs. apply act_derive_ex; [exact W4|]. apply HS; assumption.
      * apply d_net_input; assumption.
    + rewrite M1. reflexivity.
    + intros v Hv. cbv zeta. rewrite gemm_length.
      rewrite <- (fc_adjoint m n inc _ (biased m (B x)) W dB (dW id) Hm).
      apply bs_ext. intros q Hq. rewrite nth_map_seq by exact Hq. ring.
  - intros n A m B dB _ _ Hm HB HR _. cbn [incoming neurons fval with_w pback gsum fst snd] in *.
    exists dB. split; [exact HB|]. split; [reflexivity|]. intros v Hv. cbv zeta. ring.
  - intros s IH m B dB Hw HP Hm HB HR HS. cbn [incoming fval with_w pback gsum path ready smooth_at wf] in *.
    destruct (IH m B dB Hw HP Hm HB HR HS) as (dA & H1 & H2 & H3). exists dA. split; [exact H1|]. split; [exact H2|].
    intros v Hv. specialize (H3 v Hv). cbv zeta in H3 |- *. destruct (spback gw m (biased m (B x)) v s). cbn [fst snd gsum] in *. exact H3.
  - intros inc h IH b1 b2 m B dB [_ Hw] HP Hm HB HR HS. cbn [incoming neurons fval with_w pback gsum path ready smooth_at wf] in *.
    destruct (IH m B dB inc Hw HP Hm HB HR HS) as (dA & H1 & H2 & H3). exists dA. split; [exact H1|]. split; [exact H2|].
    intros v Hv. specialize (H3 v Hv). cbv zeta in H3 |- *. destruct (hpback gw m inc (biased m (B x)) v h). cbn [fst snd gsum] in *. exact H3.
  - intros k l IH inn A m B dB [Hk Hw] HP Hm HB (R1 & R2 & R3) HS. cbn [incoming neurons fval with_w pback gsum path smooth_at] in *.
    assert (ER : roll m (incoming l) k (biased m (B x)) = roll m (incoming l) k (B x))
      by (apply roll_ext; intros q Hq; apply nth_biased; rewrite (proj1 HB); lia).
    rewrite ER in HS. subst inn.
    destruct (IH (k * m) (fun t => roll m (incoming l) k (B t)) (fun q => dB (ridx m (incoming l) k q)) Hw HP) as (dA & H1 & H2 & H3);
      [nia|apply dpath_roll; exact HB|exact R3|exact HS|].
    exists (fun q => dA (uidx m (neurons l) k q)).
    split; [|split].
    + rewrite ?(proj1 (with_w_neurons _)), ?(proj1 (with_w_incoming _)).
      apply (dpath_ext _ (fun t => unroll m (neurons l) k (fval (k * m) (roll m (incoming l) k (B t)) (with_w (f t) l)))).
      * intros t. rewrite (proj1 (with_w_neurons _)). apply unroll_length.
      * intros t q Hq. rewrite (proj1 (with_w_neurons _)), (proj1 (with_w_incoming _)). reflexivity.
      * apply dpath_unroll. exact H1.
    + rewrite (proj1 (with_w_neurons _)), (proj1 (with_w_incoming _)), H2. reflexivity.
    + intros v Hv. specialize (H3 (roll m (neurons l) k v)). cbv beta zeta in H3 |- *.
      specialize (H3 (roll_length _ _ _ _)). 
      destruct (pback gw (k * m) (biased (k * m) (roll m (incoming l) k (B x))) (roll m (neurons l) k v) l) as [l' w]. cbn [fst snd gsum] in *.
      rewrite (tile_sum m (neurons l) k (fun q => nth q v 0%R) dA).
      rewrite (bs_ext _ _ (fun q => nth q (roll m (neurons l) k v) 0 * dA q)%R) by (intros q Hq; rewrite nth_roll by exact Hq; reflexivity).
      rewrite H3, mult_INR. f_equal; [ring|].
      rewrite (bs_ext (m * (k * incoming l)) _ (fun q => dB q * nth (uidx m (incoming l) k q) w 0)%R)
        by (intros q Hq; rewrite nth_unroll by exact Hq; ring).
      rewrite (tile_sum m (incoming l) k dB (fun q => nth q w 0%R)). apply bs_ext. intros; ring.
  - intros l IH m B dB Hw HP Hm HB HR HS.
    destruct (IH m B dB Hw HP Hm HB HR HS) as (dA & H1 & H2 & H3). exists dA. split; [exact H1|]. split; [exact H2|].
    intros v Hv. specialize (H3 v Hv). cbn [spback]. cbv zeta in H3 |- *. destruct (pback gw m (biased m (B x)) v l). cbn [fst snd gsum sgsum] in *. exact H3.
  - intros l IH b IHb m B dB (W1 & W2 & W3) [P1 P2] Hm HB [R1 R2] [SM (b' & Eb & SM')]. cbn [sincoming] in HB.
    destruct (IHb m B dB W2 P2 Hm HB R1 SM) as (dA & H1 & H2 & H3).
    destruct (FP b m (B x) W2 (proj1 HB x)) as (b2 & Eb2 & Sb & Rb). rewrite Eb2 in Eb. injection Eb as <-.
    rewrite (A2 _ _ _ Rb), (S2 _ _ Sb) in SM'. rewrite <- H2 in SM', R2.
    destruct (IH m (fun t => sval m (B t) (swith_w (f t) b)) dA W1 P1 Hm) as (dA2 & G1 & G2 & G3);
      [rewrite W3; exact H1|exact R2|exact SM'|].
    exists dA2. split; [exact G1|]. cbn [swith_w sval sneurons sincoming spback]. split; [rewrite G2, H2; reflexivity|].
    intros v Hv. specialize (G3 v Hv). cbv beta zeta in G3 |- *. rewrite H2 in G3. rewrite (A2 _ _ _ R1).
    pose proof (PL1 l m (biased m (sval m (B x) b)) v W1 Hv) as LV.
    destruct (pback gw m (biased m (sval m (B x) b)) v l) as [l' w]. cbn [fst snd] in *. rewrite W3 in G3, LV.
    specialize (H3 w LV). cbv zeta in H3. destruct (spback gw m (biased m (B x)) w b) as [b3 w']. cbn [fst snd sgsum] in *.
    rewrite G3, H3. ring.
  - intros m B dB inc _ _ Hm HB _ _. cbn [hneurons hval hwith_w hpback hgsum fst snd].
    exists (fun _ => 0%R). rewrite Nat.mul_0_r. split; [split; [reflexivity|intros; lia]|]. split; [reflexivity|].
    intros v Hv. cbv zeta. simpl bs at 1. rewrite bs_0; [ring|]. intros q Hq. rewrite nth_repeat' by exact Hq. ring.
  - intros o c l IH h IHh m B dB inc (W1 & W2 & W3 & W4) [P1 P2] Hm HB [R1 R2] [SM1 SM2].
    pose proof (proj1 HB) as LB.
    rewrite slice_biased in SM1 by (rewrite LB; nia).
    destruct (IH m (fun t => slice (m * o) (m * c) (B t)) (fun q => dB (m * o + q)) W1 P1 Hm) as (dA1 & H1 & H2 & H3);
      [apply (dpath_slice _ (m * inc)); [exact HB|rewrite W2; reflexivity|nia]|exact R1|exact SM1|].
    destruct (IHh m B dB inc W4 P2 Hm HB R2 SM2) as (dA2 & G1 & G2 & G3).
    cbn [hneurons hval hwith_w hpback].
    exists (fun q => if q <? m * neurons l then dA1 q else dA2 (q - m * neurons l)).
    split; [split|split].
    + intros t. rewrite app_length, (proj1 H1), (proj1 G1). lia.
    + intros q Hq. destruct (Nat.ltb_spec q (m * neurons l)).
      * eapply d_ext; [|apply (proj2 H1 q); assumption]. intros t. cbv beta. rewrite app_nth1; [reflexivity|]. rewrite (proj1 H1). assumption.
      * eapply d_ext; [|apply (proj2 G1 (q - m * neurons l)); lia]. intros t. cbv beta. rewrite app_nth2; rewrite (proj1 H1); [reflexivity|assumption].
    + rewrite H2, G2. reflexivity.
    + intros v Hv. 
      specialize (H3 (firstn (m * neurons l) v)). rewrite firstn_length_le in H3 by lia. specialize (H3 eq_refl).
      specialize (G3 (skipn (m * neurons l) v)). rewrite skipn_length in G3.
      assert (E0 : length v - m * neurons l = m * hneurons h) by lia. specialize (G3 E0). cbv beta zeta in H3, G3 |- *.
      rewrite slice_biased by (rewrite LB; nia).
      pose proof (PL3 h m (biased m (B x)) (skipn (m * neurons l) v) inc) as LA.
      pose proof (PL1 l m (biased m (slice (m * o) (m * c) (B x))) (firstn (m * neurons l) v) W1 ltac:(rewrite firstn_length_le; lia)) as LW.
      destruct (hpback gw m inc (biased m (B x)) (skipn (m * neurons l) v) h) as [h' acc].
      destruct (pback gw m (biased m (slice (m * o) (m * c) (B x))) (firstn (m * neurons l) v) l) as [l' w]. cbn [fst snd hgsum] in *.
      rewrite W2 in *. rewrite (add_at_sum _ w acc dB (m * inc) LA) by (rewrite LW; nia). rewrite LW.
      rewrite Nat.mul_add_distr_l, bs_app.
      rewrite (bs_ext (m * neurons l) _ (fun q => nth q (firstn (m * neurons l) v) 0 * dA1 q)%R).
      2:{ intros q Hq. rewrite nth_firstn by exact Hq. destruct (Nat.ltb_spec q (m * neurons l)); [reflexivity|lia]. }
      rewrite (bs_ext (m * hneurons h) _ (fun q => nth q (skipn (m * neurons l) v) 0 * dA2 q)%R).
      2:{ intros q Hq. rewrite nth_skipn. destruct (Nat.ltb_spec (m * neurons l + q) (m * neurons l)); [lia|]. repeat f_equal. lia. }
      rewrite H3, G3. ring.
Qed.
End Path.
