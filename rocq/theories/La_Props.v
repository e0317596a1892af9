(** Property theorems: C86, C87. *)
From Coq Require Import Reals Lra.
From Coquelicot Require Import Coquelicot.
From Verif Require Import Base BaseLemmas Workers_Model Kern_Model Act_Spec Act_Proofs Loss_Proofs Sum_Spec Net_Proofs La_Model La_Spec La_Proofs3 La_Proofs4 Tri_Props.
Local Open Scope nat_scope.

(** ** C86: regularizers of weights *)

(** The value reported is the sum of the enabled terms, for any sizes, thresholds, pool
    and content of the temporary memory; no term sees the bias weights if it is told to
    ignore them. *)
Theorem C86_value : forall th pool las rows cols W t,
  (forall a ib, In (a, ib) las -> a_scale a <> 0%R -> usable a rows (shown ib cols) t) -> rows * cols <= length W ->
  gw_lossAddendum th pool las rows cols W t 0%R (fun v => v = reg_value las rows cols W).
Proof.
  intros th pool las rows cols W t HU HW. apply gw_value; [|exact HW|apply Rplus_0_l].
  intros a ib Ha He. apply HU; [exact Ha|apply enabled_scale, He].
Qed.
Print Assumptions C86_value.

(** What is added to an entry of the gradient is the derivative of that value with
    respect to that weight, whatever the gradient was. *)
Theorem C86_gradient : forall th pool las rows cols W t D, 0 < rows ->
  (forall a ib, In (a, ib) las -> a_scale a <> 0%R -> usable a rows (shown ib cols) t /\ a_fp a = false /\ a_nz a = false) ->
  length W = rows * cols -> rows * cols <= length D ->
  gw_apply th pool las rows cols W D t (fun D' => length D' = length D /\
    (forall i, rows * cols <= i -> nth i D' 0%R = nth i D 0%R) /\
    forall i, i < rows * cols ->
      (forall a ib, In (a, ib) las -> a_scale a <> 0%R -> i < rows * shown ib cols -> regular a (nth i W 0%R)) ->
      is_derive (fun x => reg_value las rows cols (setn i x W)) (nth i W 0%R) (nth i D' 0 - nth i D 0)%R).
Proof.
  intros th pool las rows cols W t D Hr HU HW HD. apply gw_gradient; try assumption.
  - intros a ib Ha He. apply (HU a ib Ha). apply enabled_scale, He.
  - intros D' L O E. split; [exact L|]. split; [exact O|]. intros i Hi HG. apply E; [exact Hi|].
    intros a ib Ha He Hs. apply (HG a ib Ha); [apply enabled_scale, He|exact Hs].
Qed.
Print Assumptions C86_gradient.

(** ** C87: penalties of activations *)
Theorem C87_value : forall th pool las rows cols A t,
  (forall a, In a las -> a_scale a <> 0%R -> usable a rows cols t) -> rows * cols <= length A ->
  pab_lossAddendum th pool las rows cols A t 0%R (fun v => v = pen_value las rows cols A).
Proof.
  intros th pool las rows cols A t HU HA. apply pab_value; [|exact HA|apply Rplus_0_l].
  intros a Ha He. apply HU; [exact Ha|apply enabled_scale, He].
Qed.
Print Assumptions C87_value.

(** Forward propagation leaves the activations [V0]; later, when they are [V],
    back-propagation adds the derivatives of the terms to dL/dA. *)
Theorem C87_gradient : forall th pool las rows cols V0 V t t' D, 0 < rows -> 0 < cols ->
  (forall a, In a las -> a_scale a <> 0%R -> usable a rows cols t /\ usable a rows cols t' /\ (a_fp a = true -> rows * cols <= length (a_mtx a))) ->
  rows * cols <= length V0 -> rows * cols <= length V -> rows * cols <= length D ->
  pab_fprop th pool las rows cols V0 t (fun las' =>
    Forall2 same_adn las las' /\
    pab_update_dLdA th pool las' rows cols V D t' (fun D' => length D' = length D /\
      (forall i, rows * cols <= i -> nth i D' 0%R = nth i D 0%R) /\
      forall i, i < rows * cols ->
        (forall a, In a las -> a_scale a <> 0%R -> regular a (nth i (if a_fp a then V0 else V) 0%R)) ->
        penalised rows cols V0 V i las (nth i D 0%R) (nth i D' 0%R))).
Proof.
  intros th pool las rows cols V0 V t t' D Hr Hc HU H0 HV HD. apply pab_fprop_ok; [exact H0| |].
  - intros a Ha He Hf. destruct (HU a Ha (proj1 (enabled_scale a) He)) as (U & _ & F). split; [exact U|exact (F Hf)].
  - intros las' HF.
    assert (HS : Forall2 same_adn las las') by (clear -HF; induction HF as [|a a' las las' [H _] HF IH]; constructor; assumption).
    split; [exact HS|].
    apply (pab_update_ok th pool rows cols V0 V); try assumption.
    + clear HS. induction HF as [|a a' las las' [(E1 & E2 & E3 & E4 & E5) Hst] HF IH]; [intros a []|].
      intros a2 [<-|Ha] He; [|apply IH; [intros; apply HU; [right|]; assumption|exact Ha|exact He]].
      assert (He0 : enabled a = true) by (unfold enabled in He |- *; rewrite E2 in He; exact He).
      destruct (HU a (or_introl eq_refl) (proj1 (enabled_scale a) He0)) as (_ & U & _). rewrite E3.
      destruct (a_fp a); [apply Hst; [reflexivity|exact He0]|]. unfold usable in U |- *. rewrite E1. exact U.
    + intros D' L O E. split; [exact L|]. split; [exact O|]. intros i Hi HG. rewrite E by exact Hi.
      rewrite (pen_fold_same rows cols V0 V i las las' HS). apply pen_fold_spec; try assumption.
      intros a Ha He. apply enabled_scale in He. split; [|apply (HG a Ha He)].
      intros l n Ek. destruct (HU a Ha He) as ((_ & _ & U) & _). rewrite Ek in U. apply U.
Qed.
Print Assumptions C87_gradient.

(** ** A case: two neurons, two samples; all three kinds *)
Definition la_r (n : nat) : list R := repeat 0%R n.
Definition la_t : tmem := mkT (la_r 4) (la_r 4) (la_r 4).
Definition la_V : list R := [1; 2; 3; 5]%R.
Definition la_las : list adn := [mkA KL1 2%R true true (la_r 4); mkA KL2 3%R false false []; mkA (KDeCov true false) 4%R false false []; mkA KL2 0%R false false []].

Lemma la_usable a : In a la_las -> a_scale a <> 0%R -> usable a 2 2 la_t /\ usable a 2 2 la_t /\ (a_fp a = true -> 2 * 2 <= length (a_mtx a)).
Proof.
  assert (K : usable a 2 2 la_t -> (a_fp a = true -> 2 * 2 <= length (a_mtx a)) -> usable a 2 2 la_t /\ usable a 2 2 la_t /\ (a_fp a = true -> 2 * 2 <= length (a_mtx a)))
    by (intros H1 H2; split; [exact H1|]; split; [exact H1|exact H2]).
  unfold la_las. intros [<-|[<-|[<-|[<-|[]]]]] Hs; cbn in Hs; try lra; apply K; try (cbn; lia);
    unfold usable; cbn [a_kind]; repeat split; cbn; try lia; try (unfold in_range; cbn; lia).
Qed.
Lemma la_value : pen_value la_las 2 2 la_V = (22 + 117 / 2 + 1)%R.
Proof.
  unfold pen_value, la_las, la_V. cbn [map a_scale a_kind penalty]. unfold cov, mean_of, total. cbn.
  rewrite !Rabs_pos_eq by lra. field.
Qed.
Example C87_example :
  (forall th pool, pab_lossAddendum th pool la_las 2 2 la_V la_t 0%R (fun v => v = (22 + 117 / 2 + 1)%R)) /\
  (forall a, In a la_las -> a_scale a <> 0%R -> usable a 2 2 la_t /\ usable a 2 2 la_t /\ (a_fp a = true -> 2 * 2 <= length (a_mtx a))) /\
  (forall a i, In a la_las -> i < 2 * 2 -> regular a (nth i (if a_fp a then la_V else la_V) 0%R)).
Proof.
  split; [|split].
  - intros th pool. rewrite <- la_value. apply C87_value; [|cbn; lia]. intros a Ha Hs. apply (la_usable a Ha Hs).
  - exact la_usable.
  - intros a i _ Hi _. replace (if a_fp a then la_V else la_V) with la_V by (destruct (a_fp a); reflexivity).
    unfold la_V. do 4 (destruct i as [|i]; [cbn; lra|]). lia.
Qed.
(** the flag of the first term leaves the zero of dL/dA to the other terms: 3 * 1 from
    L2, 4 * 1/2 * ... from the covariances *)
Example C87_zero : forall th pool,
  pab_fprop th pool [mkA KL1 2%R true true (la_r 4)] 2 2 la_V la_t (fun las' =>
    pab_update_dLdA th pool las' 2 2 la_V [0; 7; 0; 9]%R la_t (fun D' => nth 0 D' 0%R = 0%R /\ nth 1 D' 0%R = 9%R)).
Proof.
  intros th pool. apply pab_fprop_ok; [cbn; lia| |].
  - intros a [<-|[]] _ _. split; [|cbn; lia]. unfold usable. cbn. repeat split; lia.
  - intros las' HF. inversion HF as [|a a' l1 l2 [(E1 & E2 & E3 & E4 & E5) Hst] HF' H1 H2]; subst. inversion HF'; subst.
    assert (Ee : enabled (mkA KL1 2%R true true (la_r 4)) = true) by (apply enabled_scale; cbn; lra).
    apply (pab_update_ok th pool 2 2 la_V la_V); [lia|lia|cbn; lia| |cbn; lia|].
    + intros a [<-|[]] _. rewrite E3. apply Hst; [reflexivity|exact Ee].
    + intros D' L O E. rewrite !E by lia. cbn [pen_fold]. unfold enabled. rewrite E1, E2, E3, E4. cbn [a_scale a_kind a_fp a_nz nth pen_grad la_V].
      destruct (Req_EM_T 0 2) as [F|_]; [lra|]. destruct (Req_EM_T 0 0) as [_|F]; [|lra]. destruct (Req_EM_T 7 0) as [F|_]; [lra|].
      split; [reflexivity|]. unfold Opt_Model.sgn, Opt_Model.bR, Opt_Model.gtb. destruct (Rlt_dec 0 2); [|lra]. destruct (Rlt_dec 2 0); [lra|ring].
Qed.

(** weights of two neurons with two inputs and biases, which are ignored *)
Definition la_W : list R := [1; -2; 3; 4; 50; 60]%R.
Definition la_reg : list (adn * bool) := [(mkA KL1 2%R false false [], true); (mkA KL2 3%R false false [], false); (mkA KL2 0%R false false [], true)].
Example C86_example :
  (forall th pool, gw_lossAddendum th pool la_reg 2 3 la_W la_t 0%R (fun v => v = (2 * 10 + 3 * / 2 * 6130)%R)) /\
  (forall a ib, In (a, ib) la_reg -> a_scale a <> 0%R -> usable a 2 (shown ib 3) la_t /\ a_fp a = false /\ a_nz a = false) /\
  (forall a ib i, In (a, ib) la_reg -> i < 6 -> regular a (nth i la_W 0%R)).
Proof.
  assert (U : forall a ib, In (a, ib) la_reg -> a_scale a <> 0%R -> usable a 2 (shown ib 3) la_t /\ a_fp a = false /\ a_nz a = false).
  { unfold la_reg. intros a ib [E|[E|[E|[]]]] Hs; injection E as <- <-; cbn in Hs; try lra; repeat split; cbn; lia. }
  split; [|split; [exact U|]].
  - intros th pool. replace (2 * 10 + 3 * / 2 * 6130)%R with (reg_value la_reg 2 3 la_W).
    + apply C86_value; [|cbn; lia]. intros a ib Ha Hs. apply (U a ib Ha Hs).
    + unfold reg_value, la_reg, la_W, shown. cbn [map fst snd a_scale a_kind penalty Nat.b2n Nat.sub]. unfold total. cbn.
      rewrite (Rabs_left (-2)) by lra. rewrite !Rabs_pos_eq by lra. field.
  - intros a ib i _ Hi _. unfold la_W. do 6 (destruct i as [|i]; [cbn; lra|]). lia.
Qed.
