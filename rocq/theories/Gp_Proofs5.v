(** Back-propagation through a gated pack against its derivative. *)
From Coq Require Import Reals Lra Bool Permutation.
From Coquelicot Require Import Coquelicot.
From Verif Require Import Base BaseLemmas Act_Model Act_Spec Act_Proofs Loss_Proofs Net_Model Net_Spec Net_Proofs Net_Proofs2 Net_Proofs3 Net_Proofs4 Gp_Model Gp_Spec Gp_Proofs Gp_Proofs2 Gp_Proofs3 Gp_Proofs4.
Local Open Scope nat_scope.

Lemma NoDup_app_disj {T} (a b : list T) : NoDup (a ++ b) -> forall u, In u a -> ~ In u b.
Proof.
  induction a as [|v a IH]; intros H u [] Hb; cbn in H; inversion H as [|? ? H1 H2]; subst; [apply H1, in_or_app; right; exact Hb|].
  exact (IH H2 u H0 Hb).
Qed.
Lemma NoDup_remove_app {T} (a b : list T) : NoDup (a ++ b) -> NoDup b.
Proof. induction a as [|v a IH]; intros H; [exact H|]. cbn in H. inversion H; subst. apply IH. assumption. Qed.

Section A.
Context (f : R -> nat -> list R -> list R) (dW : nat -> nat -> R) (t0 : R).
Context (gw : gworks) (m M inc : nat) (Gt D : list R).

Definition lw (t : R) (ls : list glay) : list glay := map (fun q => (fst q, with_w (f t) (snd q))) ls.
Lemma lw_length t ls : length (lw t ls) = length ls.
Proof. apply map_length. Qed.
Lemma lw_neurons t ls : lneurons (lw t ls) = lneurons ls.
Proof. induction ls as [|q ls IH]; [reflexivity|]. cbn [lw map lneurons fold_right fst snd]. fold (lw t ls) (lneurons (lw t ls)) (lneurons ls). rewrite IH, (proj1 (with_w_neurons _)). reflexivity. Qed.

Lemma dpath_fill n g (F : R -> list R) dF : length g = m -> dpath t0 (length (open_rows g) * n) F dF ->
  dpath t0 (m * n) (fun t => fill m n g (F t)) (fun q => if rnz (nth (q mod m) g 0%R) then dF (q / m * length (open_rows g) + place g (q mod m)) else 0%R).
Proof.
  intros Hg HF. split; [intros; apply fill_length|]. intros q Hq.
  assert (Hm : m <> 0) by (intros ->; lia). assert (H1 : q mod m < m) by (apply Nat.mod_upper_bound; exact Hm).
  assert (H2 : q / m < n) by (apply Nat.div_lt_upper_bound; lia).
  assert (Eq : q = q / m * m + q mod m) by (rewrite (Nat.mul_comm (q / m)); apply Nat.div_mod; exact Hm).
  apply (d_ext (fun t => if rnz (nth (q mod m) g 0%R) then nth (q / m * length (open_rows g) + place g (q mod m)) (F t) 0%R else 0%R)).
  { intros t. rewrite <- (fill_at m n g (F t) (q / m) (q mod m)) by assumption. rewrite <- Eq. reflexivity. }
  destruct (rnz (nth (q mod m) g 0%R)) eqn:E; [|apply d_const]. apply (proj2 HF).
  destruct (place_nth g (q mod m)) as [P _]; [lia|exact E|]. apply split_lt; assumption.
Qed.
Lemma dpath_app a b (F G : R -> list R) dF dG : dpath t0 a F dF -> dpath t0 b G dG ->
  dpath t0 (a + b) (fun t => F t ++ G t) (fun q => if q <? a then dF q else dG (q - a)).
Proof.
  intros [F1 F2] [G1 G2]. split; [intros t; rewrite app_length, F1, G1; reflexivity|]. intros q Hq. destruct (Nat.ltb_spec q a).
  - apply (d_ext (fun t => nth q (F t) 0%R)); [intros t; rewrite app_nth1 by (rewrite F1; assumption); reflexivity|]. apply F2. assumption.
  - apply (d_ext (fun t => nth (q - a) (G t) 0%R)); [intros t; rewrite app_nth2 by (rewrite F1; assumption); rewrite F1; reflexivity|]. apply G2. lia.
Qed.

Context (B : R -> list R) (dB : nat -> R).

Fixpoint live (i : nat) (ls : list glay) : Prop :=
  match ls with
  | [] => True
  | (o, c, l) :: ls => (0 < nopen m Gt i -> ready (nopen m Gt i) (seen m Gt (B t0) i o c) l /\
      smooth_at (nopen m Gt i) (biased (nopen m Gt i) (seen m Gt (B t0) i o c)) l) /\ live (i + 1) ls
  end.
Notation down := (down gw m Gt (B t0) D).
Fixpoint lsum (i f0 : nat) (ls : list glay) : R :=
  match ls with
  | [] => 0%R
  | (o, c, l) :: ls => (INR (nopen m Gt i) * gsum dW (fst (down i f0 o c l)) + lsum (i + 1) (f0 + neurons l) ls)%R
  end.
Fixpoint lin (i f0 : nat) (ls : list glay) : R :=
  match ls with
  | [] => 0%R
  | (o, c, l) :: ls => (bs (m * c) (fun q => nth q (fill m c (gcol m Gt i) (snd (down i f0 o c l))) 0 * dB (m * o + q)%nat) + lin (i + 1) (f0 + neurons l) ls)%R
  end.

Lemma gvals_adjoint k : length Gt = m * k -> 0 < m -> dpath t0 (m * inc) B dB ->
  forall ls i f0, Forall (lok inc) ls -> Forall (fun q => path f dW t0 (snd q)) ls -> i + length ls = k -> live i ls -> m * (f0 + lneurons ls) <= length D ->
  exists dA, dpath t0 (m * lneurons ls) (fun t => gvals m Gt (B t) i (lw t ls)) dA /\
    bs (m * lneurons ls) (fun q => nth (m * f0 + q) D 0 * dA q)%R = (lsum i f0 ls + lin i f0 ls)%R.
Proof.
  intros HG Hm HB. induction ls as [|[[o c] l] ls IH]; intros i f0 Hok Hp Hi Hl HD.
  - exists (fun _ => 0%R). cbn [lneurons fold_right lw map gvals lsum lin]. rewrite Nat.mul_0_r. split; [split; [reflexivity|intros; lia]|]. cbn [bs]. ring.
  - destruct (Forall_inv Hok) as (W1 & W2 & W3). pose proof (Forall_inv_tail Hok) as Hok'. pose proof (Forall_inv Hp) as Hp1. pose proof (Forall_inv_tail Hp) as Hp'.
    cbn [fst snd] in *. cbn [lneurons fold_right fst snd length] in *. fold (lneurons ls) in *. cbn [live] in Hl. destruct Hl as [Hl1 Hl'].
    destruct (IH (i + 1) (f0 + neurons l) Hok' Hp' ltac:(lia) Hl' ltac:(nia)) as (dT & T1 & T2).
    assert (Lg := gcol_length m Gt i _ HG ltac:(lia)).
    set (n := nopen m Gt i) in *. set (g := gcol m Gt i) in *.
    assert (Hrows : forall r, In r (open_rows g) -> r < m) by (intros r Hr; apply open_rows_lt in Hr; lia).
    (* the layer itself *)
    assert (HH : exists dH, dpath t0 (m * neurons l) (fun t => fill m (neurons l) g (fval n (seen m Gt (B t) i o c) (with_w (f t) l))) dH /\
      bs (m * neurons l) (fun q => nth (m * f0 + q) D 0 * dH q)%R =
      (INR n * gsum dW (fst (down i f0 o c l)) + bs (m * c) (fun q => nth q (fill m c g (snd (down i f0 o c l))) 0 * dB (m * o + q)%nat))%R).
    { destruct (Nat.eq_dec n 0) as [E0|E0].
      - exists (fun _ => 0%R). split.
        + split; [intros; apply fill_length|]. intros q Hq. apply (d_ext (fun _ => 0%R)); [|apply d_const]. intros t. unfold g. rewrite (fill_closed m Gt _ i _ _ HG) by (try exact E0; lia).
          symmetry. apply nth_repeat.
        + unfold g. rewrite (fill_closed m Gt c i _ _ HG) by (try exact E0; lia). rewrite E0. cbn [INR]. rewrite !bs_0; [ring| |]; intros; rewrite ?nth_repeat; ring.
      - destruct (Hl1 ltac:(lia)) as [R1 R2].
        assert (DS : dpath t0 (n * c) (fun t => seen m Gt (B t) i o c) (fun q => dB (m * o + (q / n * m + nth (q mod n) (open_rows g) 0))%nat)).
        { apply (dpath_ext t0 (n * c) (fun t => map (fun q => nth (m * o + (q / n * m + nth (q mod n) (open_rows g) 0)) (B t) 0%R) (seq 0 (n * c)))).
          - intros t. apply seen_length.
          - intros t q Hq. rewrite nth_map_seq by exact Hq. unfold seen, extract. fold g. fold (nopen m Gt i). rewrite nth_map_seq by exact Hq.
            assert (H1 : q mod n < n) by (apply Nat.mod_upper_bound; exact E0). assert (H2 : q / n < c) by (apply Nat.div_lt_upper_bound; lia).
            change (length (open_rows g)) with n. pose proof (Hrows (nth (q mod n) (open_rows g) 0) ltac:(apply nth_In; exact H1)) as H3.
            rewrite nth_slice by nia. reflexivity.
          - apply (dpath_sub t0 (m * inc)); [exact HB|]. intros q Hq.
            assert (H1 : q mod n < n) by (apply Nat.mod_upper_bound; exact E0). assert (H2 : q / n < c) by (apply Nat.div_lt_upper_bound; lia).
            pose proof (Hrows (nth (q mod n) (open_rows g) 0) ltac:(apply nth_In; exact H1)) as H3. nia. }
        rewrite <- W2 in DS at 1.
        destruct (proj1 (adjoint f dW t0 gw) l n _ _ W1 Hp1 ltac:(lia) DS R1 R2) as (dA & A1 & A2 & A3).
        eexists. split; [apply (dpath_fill (neurons l) g); [exact Lg|exact A1]|].
        pose proof (A3 (given m Gt D i f0 (neurons l)) (extract_length _ _ _ _)) as A4. cbv zeta in A4.
        rewrite (bs_ext (m * neurons l) _ (fun q => nth q (slice (m * f0) (m * neurons l) D) 0 * (if rnz (nth (q mod m) g 0%R) then dA (q / m * length (open_rows g) + place g (q mod m))%nat else 0))%R)
          by (intros q Hq; rewrite nth_slice by exact Hq; reflexivity).
        rewrite (fill_sum m (neurons l) g _ dA Lg).
        rewrite (fill_sum' m c g _ (fun q => dB (m * o + q)%nat) Lg).
        unfold given in A4 at 1. fold g in A4. change (length (open_rows g)) with n. rewrite A4. rewrite W2. reflexivity. }
    destruct HH as (dH & H1 & H2).
    eexists. split.
    + rewrite Nat.mul_add_distr_l. cbn [lw map fst snd]. fold (lw). 
      eapply dpath_ext; [| |apply (dpath_app _ _ _ _ _ _ H1 T1)].
      * intros t. cbn [gvals]. rewrite app_length, fill_length. fold (lw t ls). rewrite (proj1 T1). rewrite (proj1 (with_w_neurons _)). reflexivity.
      * intros t q Hq. cbn [gvals]. rewrite (proj1 (with_w_neurons _)). reflexivity.
    + cbn [lsum lin]. fold n g. rewrite Nat.mul_add_distr_l, bs_app.
      rewrite (bs_ext (m * neurons l) _ (fun q => nth (m * f0 + q) D 0 * dH q)%R) by (intros q Hq; rewrite (proj2 (Nat.ltb_lt _ _) Hq); reflexivity).
      rewrite (bs_ext (m * lneurons ls) _ (fun q => nth (m * (f0 + neurons l) + q) D 0 * dT q)%R).
      2: { intros q Hq. rewrite (proj2 (Nat.ltb_ge _ _)) by lia. replace (m * neurons l + q - m * neurons l) with q by lia.
           replace (m * f0 + (m * neurons l + q)) with (m * (f0 + neurons l) + q) by lia. reflexivity. }
      rewrite H2, T2. ring.
Qed.

(** ** Receptive fields do not overlap, so overwriting is as good as adding *)
Definition spans (ls : list glay) : list nat := flat_map (fun q => seq (fst (fst q)) (snd (fst q))) ls.
Lemma spans_length ls : length (spans ls) = lcount ls.
Proof. induction ls as [|q ls IH]; [reflexivity|]. cbn [spans flat_map lcount fold_right]. fold (spans ls) (lcount ls). rewrite app_length, seq_length, IH. reflexivity. Qed.

Lemma lin_backs E w : m * inc <= length w -> forall ls i f0, Forall (lok inc) ls -> NoDup (spans ls) ->
  (forall col r, In col (spans ls) -> r < m -> nth (m * col + r) E 0%R = nth (m * col + r) (backs gw m Gt (B t0) D i f0 ls w) 0%R) ->
  sumR (map (fun col => bs m (fun r => nth (m * col + r) E 0 * dB (m * col + r)%nat)%R) (spans ls)) = lin i f0 ls.
Proof.
  clear f dW M. intros Hw. induction ls as [|[[o c] l] ls IH]; intros i f0 Hok Hn HE; [reflexivity|].
  destruct (Forall_inv Hok) as (W1 & W2 & W3). pose proof (Forall_inv_tail Hok) as Hok'. cbn [fst snd] in *.
  cbn [spans flat_map fst snd backs lin] in *. fold (spans ls) in *. rewrite map_app, sumR_app.
  assert (LB : length (backs gw m Gt (B t0) D (i + 1) (f0 + neurons l) ls w) = length w) by (apply (backs_length gw m inc); assumption).
  assert (LF : length (fill m c (gcol m Gt i) (snd (down i f0 o c l))) = m * c) by apply fill_length.
  f_equal.
  - assert (HE' : forall u r, u < c -> r < m -> nth (m * (o + u) + r) E 0%R = nth (u * m + r) (fill m c (gcol m Gt i) (snd (down i f0 o c l))) 0%R).
    { intros u r Hu Hr. rewrite HE; [|apply in_or_app; left; apply in_seq; lia|exact Hr].
      replace (m * (o + u) + r) with (m * o + (u * m + r)) by lia. apply nth_overwrite_in; [rewrite LF, LB; nia|]. rewrite LF. apply split_lt; assumption. }
    rewrite bs_dbl. set (F := fun col => bs m (fun r => (nth (m * col + r) E 0 * dB (m * col + r)%nat)%R)).
    assert (S : forall u s, sumR (map F (seq s u)) = bs u (fun j => F (s + j))).
    { clear. induction u as [|u IHu]; intros s; [reflexivity|]. rewrite seq_S, map_app, sumR_app, IHu. cbn [bs map sumR fold_right]. ring. }
    rewrite S. apply bs_ext. intros u Hu. unfold F. apply bs_ext. intros r Hr. rewrite HE' by assumption. f_equal. f_equal. lia.
  - apply IH; [exact Hok'|apply NoDup_remove_app in Hn; exact Hn|].
    intros col r Hc Hr. rewrite HE by (try assumption; apply in_or_app; right; assumption).
    assert (Ho : ~ In col (seq o c)) by (intros H; apply (NoDup_app_disj _ _ Hn col H Hc)).
    apply nth_overwrite_out; [rewrite LF, LB; nia|]. rewrite LF. destruct (Nat.lt_ge_cases col o) as [H|H]; [left; nia|right].
    assert (o + c <= col) by (destruct (Nat.lt_ge_cases col (o + c)) as [H'|H']; [exfalso; apply Ho, in_seq; lia|exact H']). nia.
Qed.
End A.
