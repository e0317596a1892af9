(** Penalties of activations. *)
From Coq Require Import Reals Lra Bool.
From Coquelicot Require Import Coquelicot.
From Verif Require Import Base BaseLemmas Workers_Model Kern_Model Kern_Spec Kern_Proofs Act_Spec Act_Proofs Loss_Proofs Sum_Spec Net_Proofs Net_Proofs3
  Rng_Proofs La_Model La_Spec La_Proofs La_Proofs2 La_Proofs3.
Local Open Scope R_scope.

Lemma enabled_scale a : enabled a = true <-> a_scale a <> 0.
Proof.
  unfold enabled. destruct (Req_EM_T 0 (a_scale a)) as [E|E]; split; intros H; try discriminate H; try reflexivity.
  - congruence.
  - intros E'. congruence.
Qed.
Lemma disabled_scale a : enabled a = false -> a_scale a = 0.
Proof. unfold enabled. destruct (Req_EM_T 0 (a_scale a)) as [E|E]; intros H; [congruence|discriminate H]. Qed.

Section K.
Context (th : lthr) (pool : list prange).

Lemma pab_value las rows cols A t : (forall a, In a las -> enabled a = true -> usable a rows cols t) ->
  (rows * cols <= length A)%nat ->
  forall ret (post : R -> Prop), post (ret + pen_value las rows cols A) -> pab_lossAddendum th pool las rows cols A t ret post.
Proof.
  intros HU HW. induction las as [|a las IH]; intros ret post HP.
  - cbn [pab_lossAddendum]. replace ret with (ret + pen_value [] rows cols A); [exact HP|]. unfold pen_value. cbn. ring.
  - cbn [pab_lossAddendum].
    assert (HE : pen_value (a :: las) rows cols A = a_scale a * penalty (a_kind a) rows cols A + pen_value las rows cols A) by reflexivity.
    rewrite HE in HP.
    assert (HU' : forall a, In a las -> enabled a = true -> usable a rows cols t) by (intros; apply HU; [right|]; assumption).
    specialize (IH HU').
    destruct (enabled a) eqn:Ea.
    + apply lossAdd_ok; [apply HU; [left; reflexivity|exact Ea]|exact HW|]. apply IH. rewrite Rplus_assoc. exact HP.
    + apply IH. apply disabled_scale in Ea. rewrite Ea, Rmult_0_l, Rplus_0_l in HP. exact HP.
Qed.

(** after forward propagation *)
Definition kept (rows cols : nat) (V0 : list R) (a a' : adn) : Prop :=
  same_adn a a' /\ (a_fp a = true -> enabled a = true -> stored a' rows cols V0).

Lemma pab_fprop_ok rows cols V t : (rows * cols <= length V)%nat -> forall las,
  (forall a, In a las -> enabled a = true -> a_fp a = true -> usable a rows cols t /\ (rows * cols <= length (a_mtx a))%nat) ->
  forall post : list adn -> Prop, (forall las', Forall2 (kept rows cols V) las las' -> post las') -> pab_fprop th pool las rows cols V t post.
Proof.
  intros HV las. induction las as [|a las IH]; intros HU post HP; [apply HP; constructor|].
  cbn [pab_fprop].
  assert (HU' : forall a, In a las -> enabled a = true -> a_fp a = true -> usable a rows cols t /\ (rows * cols <= length (a_mtx a))%nat)
    by (intros; apply HU; [right|..]; assumption).
  specialize (IH HU').
  destruct (a_fp a) eqn:Ef, (enabled a) eqn:Ee; cbn [andb].
  - destruct (HU a (or_introl eq_refl) Ee Ef) as [U1 U2]. apply on_fprop_ok; [exact U1|exact HV|exact U2|].
    intros M HS HL. apply IH. intros las' HF. apply HP. constructor; [|exact HF]. split; [|intros _ _; exact HS].
    unfold same_adn. cbn [a_kind a_scale a_fp a_nz a_mtx]. auto.
  - apply IH. intros las' HF. apply HP. constructor; [|exact HF]. split; [unfold same_adn; auto 6|congruence].
  - apply IH. intros las' HF. apply HP. constructor; [|exact HF]. split; [unfold same_adn; auto 6|congruence].
  - apply IH. intros las' HF. apply HP. constructor; [|exact HF]. split; [unfold same_adn; auto 6|congruence].
Qed.

(** what back-propagation adds to one entry *)
Fixpoint pen_fold (rows cols : nat) (V0 V : list R) (i : nat) (las : list adn) (d : R) : R :=
  match las with
  | [] => d
  | a :: las => pen_fold rows cols V0 V i las
      (if enabled a then
         let g := a_scale a * pen_grad (a_kind a) rows cols (if a_fp a then V0 else V) i in
         if a_nz a then if Req_EM_T d 0 then 0 else d + g else d + g
       else d)
  end.

Lemma pab_update_ok rows cols V0 V t : (0 < rows)%nat -> (0 < cols)%nat -> (rows * cols <= length V)%nat -> forall las,
  (forall a, In a las -> enabled a = true -> if a_fp a then stored a rows cols V0 else usable a rows cols t) ->
  forall D, (rows * cols <= length D)%nat ->
  forall post : list R -> Prop, (forall D', length D' = length D -> (forall i, (rows * cols <= i)%nat -> nth i D' 0 = nth i D 0) ->
    (forall i, (i < rows * cols)%nat -> nth i D' 0 = pen_fold rows cols V0 V i las (nth i D 0)) -> post D') ->
  pab_update_dLdA th pool las rows cols V D t post.
Proof.
  intros Hr Hc HV las. induction las as [|a las IH]; intros HU D HD post HP; [apply HP; reflexivity|].
  cbn [pab_update_dLdA].
  assert (HU' : forall a, In a las -> enabled a = true -> if a_fp a then stored a rows cols V0 else usable a rows cols t)
    by (intros; apply HU; [right|]; assumption).
  specialize (IH HU').
  destruct (enabled a) eqn:Ee.
  - specialize (HU a (or_introl eq_refl) Ee).
    assert (HK : forall D1, upto (rows * cols) (added a (pen_grad (a_kind a) rows cols (if a_fp a then V0 else V)) D) D D1 ->
      pab_update_dLdA th pool las rows cols V D1 t post).
    { intros D1 (L1 & E1 & O1). apply IH; [lia|]. intros D2 L2 O2 E2. apply HP; [lia|intros i Hi; rewrite O2, O1 by lia; reflexivity|].
      intros i Hi. rewrite E2, E1 by exact Hi. cbn [pen_fold]. rewrite Ee. reflexivity. }
    destruct (a_fp a) eqn:Ef.
    + apply (dLossAdd_fp th pool a rows cols V V0); try assumption.
    + apply dLossAdd_ok; try assumption.
  - apply IH; [exact HD|]. intros D' L' O' E'. apply HP; [exact L'|exact O'|]. intros i Hi. rewrite E' by exact Hi.
    cbn [pen_fold]. rewrite Ee. reflexivity.
Qed.
End K.

Lemma pen_fold_same rows cols V0 V i las las' : Forall2 same_adn las las' -> forall d,
  pen_fold rows cols V0 V i las' d = pen_fold rows cols V0 V i las d.
Proof.
  intros H. induction H as [|a a' las las' (E1 & E2 & E3 & E4 & _) HF IH]; intros d; [reflexivity|].
  cbn [pen_fold]. unfold enabled. rewrite E1, E2, E3, E4. apply IH.
Qed.

(** ... is what the specification says *)
Lemma pen_fold_spec rows cols V0 V i las : (0 < rows)%nat -> (i < rows * cols)%nat -> (rows * cols <= length V0)%nat -> (rows * cols <= length V)%nat ->
  (forall a, In a las -> enabled a = true -> (forall l n, a_kind a = KDeCov l n -> (1 < cols)%nat) /\ regular a (nth i (if a_fp a then V0 else V) 0)) ->
  forall d, penalised rows cols V0 V i las d (pen_fold rows cols V0 V i las d).
Proof.
  intros Hr Hi H0 HV. induction las as [|a las IH]; intros HR d; [constructor|].
  assert (HR' : forall a, In a las -> enabled a = true -> (forall l n, a_kind a = KDeCov l n -> (1 < cols)%nat) /\ regular a (nth i (if a_fp a then V0 else V) 0))
    by (intros; apply HR; [right|]; assumption).
  specialize (IH HR'). cbn [pen_fold]. destruct (enabled a) eqn:Ee.
  - destruct (HR a (or_introl eq_refl) Ee) as [HC HG]. cbv zeta.
    assert (HX : is_derive (fun x => a_scale a * penalty (a_kind a) rows cols (setn i x (if a_fp a then V0 else V)))
        (nth i (if a_fp a then V0 else V) 0) (a_scale a * pen_grad (a_kind a) rows cols (if a_fp a then V0 else V) i)).
    { eapply d_eq; [apply d_mult; [apply d_const|apply pen_grad_derive]|]; try assumption.
      - destruct (a_fp a); assumption.
      - cbv beta. ring. }
    destruct (a_nz a) eqn:En; [destruct (Req_EM_T d 0) as [->|Hd]|].
    + apply pen_skip; [exact En|apply IH].
    + eapply pen_add; [apply enabled_scale, Ee|intros _; exact Hd|exact HX|apply IH].
    + eapply pen_add; [apply enabled_scale, Ee|congruence|exact HX|apply IH].
  - apply pen_off; [apply disabled_scale, Ee|apply IH].
Qed.

(** ** Without the flag: the total derivative along a path *)
Definition pgrad (las : list adn) (rows cols : nat) (V : list R) (i : nat) : R :=
  sumR (map (fun a => a_scale a * pen_grad (a_kind a) rows cols V i) las).
Lemma pgrad_cons a las rows cols V i : pgrad (a :: las) rows cols V i = a_scale a * pen_grad (a_kind a) rows cols V i + pgrad las rows cols V i.
Proof. reflexivity. Qed.
Lemma pen_fold_sum rows cols V i las : (forall a, In a las -> enabled a = true -> a_nz a = false) -> forall d,
  pen_fold rows cols V V i las d = d + pgrad las rows cols V i.
Proof.
  induction las as [|a las IH]; intros HN d; [unfold pgrad; cbn; ring|].
  cbn [pen_fold]. rewrite IH by (intros; apply HN; [right|]; assumption). rewrite pgrad_cons.
  destruct (enabled a) eqn:Ee.
  - rewrite (HN a (or_introl eq_refl) Ee). destruct (a_fp a); ring.
  - apply disabled_scale in Ee. rewrite Ee. ring.
Qed.

Lemma d_sq f x df : is_derive f x df -> is_derive (fun t => f t ^ 2) x (2 * f x * df).
Proof.
  intros H. apply (d_ext (fun t => f t * f t)); [intros; ring|]. eapply d_eq; [apply d_mult; exact H|]. ring.
Qed.

Section P.
Context (x : R) (rows cols : nat) (V : R -> list R) (dV : nat -> R) (HD : dpath x (rows * cols) V dV).

Lemma path_mean j : (j < cols)%nat -> is_derive (fun t => mean_of rows (V t) j) x (/ INR rows * bs rows (fun r => dV (r + rows * j)%nat)).
Proof.
  intros Hj. unfold mean_of. apply (d_ext (fun t => / INR rows * bs rows (fun r => nth (r + rows * j) (V t) 0))); [intros t; rewrite total_bs; reflexivity|].
  eapply d_eq; [apply d_mult; [apply d_const|apply (d_bs rows _ (fun r => dV (r + rows * j)%nat))]|].
  - intros r Hr. apply (proj2 HD). nia.
  - cbv beta. ring.
Qed.

Lemma path_cov i j : (0 < rows)%nat -> (i < cols)%nat -> (j < cols)%nat -> is_derive (fun t => cov rows (V t) i j) x
  (/ INR rows * bs rows (fun r => (nth (r + rows * j) (V x) 0 - mean_of rows (V x) j) * dV (r + rows * i)%nat +
                                  (nth (r + rows * i) (V x) 0 - mean_of rows (V x) i) * dV (r + rows * j)%nat)).
Proof.
  intros H0 Hi Hj.
  apply (d_ext (fun t => / INR rows * bs rows (fun r => (nth (r + rows * i) (V t) 0 - mean_of rows (V t) i) * (nth (r + rows * j) (V t) 0 - mean_of rows (V t) j))));
    [intros t; rewrite cov_bs; reflexivity|].
  set (di := / INR rows * bs rows (fun r => dV (r + rows * i)%nat)). set (dj := / INR rows * bs rows (fun r => dV (r + rows * j)%nat)).
  assert (HM : forall c r, (c < cols)%nat -> (r < rows)%nat -> is_derive (fun t => nth (r + rows * c) (V t) 0 - mean_of rows (V t) c) x
    (dV (r + rows * c)%nat - / INR rows * bs rows (fun r => dV (r + rows * c)%nat))).
  { intros c r Hc Hr. apply (is_derive_minus (fun t => nth (r + rows * c) (V t) 0) (fun t => mean_of rows (V t) c)); [apply (proj2 HD); nia|apply path_mean, Hc]. }
  eapply d_eq.
  { apply d_mult; [apply d_const|]. apply (d_bs rows _ (fun r =>
     (dV (r + rows * i)%nat - di) * (nth (r + rows * j) (V x) 0 - mean_of rows (V x) j) +
     (nth (r + rows * i) (V x) 0 - mean_of rows (V x) i) * (dV (r + rows * j)%nat - dj))).
    intros r Hr.
    apply (d_mult (fun t => nth (r + rows * i) (V t) 0 - mean_of rows (V t) i) (fun t => nth (r + rows * j) (V t) 0 - mean_of rows (V t) j));
      [apply HM; assumption|apply HM; assumption]. }
  cbv beta. rewrite Rmult_0_l, Rplus_0_l. f_equal.
  rewrite (bs_ext rows _ (fun r => (((nth (r + rows * j) (V x) 0 - mean_of rows (V x) j) * dV (r + rows * i)%nat +
      (nth (r + rows * i) (V x) 0 - mean_of rows (V x) i) * dV (r + rows * j)%nat) +
      (- di) * (nth (r + rows * j) (V x) 0 - mean_of rows (V x) j)) + (- dj) * (nth (r + rows * i) (V x) 0 - mean_of rows (V x) i))) by (intros; ring).
  rewrite bs_plus, bs_plus, !bs_scal, !deviations by exact H0. ring.
Qed.

(** the covariances of one variable with the others *)
Let u i j := bs rows (fun r => (nth (r + rows * i) (V x) 0 - mean_of rows (V x) i) * dV (r + rows * j)%nat).

Lemma path_decov l n : (0 < rows)%nat -> (1 < cols)%nat ->
  is_derive (fun t => penalty (KDeCov l n) rows cols (V t)) x (bs (rows * cols) (fun q => pen_grad (KDeCov l n) rows cols (V x) q * dV q)).
Proof.
  intros H0 H1. pose proof (INR_pos rows H0) as HN. pose proof (INR_pos (cols - 1) ltac:(lia)) as HC.
  cbn [penalty].
  apply (d_ext (fun t => / INR (cols - 1) * (/ 2 * bs cols (fun i => bs cols (fun j => if Nat.eqb i j then 0 else cov rows (V t) i j ^ 2))))).
  { intros t. rewrite total_bs. do 2 f_equal. apply bs_ext. intros i Hi. rewrite total_bs. reflexivity. }
  eapply d_eq.
  { apply d_mult; [apply d_const|]. apply d_mult; [apply d_const|].
    apply (d_bs cols _ (fun i => bs cols (fun j => if Nat.eqb i j then 0 else 2 * cov rows (V x) i j * (/ INR rows * (u j i + u i j))))).
    intros i Hi. apply (d_bs cols _ (fun j => if Nat.eqb i j then 0 else 2 * cov rows (V x) i j * (/ INR rows * (u j i + u i j)))). intros j Hj.
    destruct (Nat.eqb_spec i j) as [E|E]; [apply d_const|]. eapply d_eq; [apply d_sq, path_cov; assumption|]. unfold u. rewrite <- bs_plus. reflexivity. }
  cbv beta. rewrite !Rmult_0_l, !Rplus_0_l.
  set (w := fun i j => if Nat.eqb i j then 0 else cov rows (V x) i j * u i j).
  assert (E : bs cols (fun i => bs cols (fun j => if Nat.eqb i j then 0 else 2 * cov rows (V x) i j * (/ INR rows * (u j i + u i j)))) =
    4 * / INR rows * bs cols (fun j => bs cols (fun i => w i j))).
  { rewrite (bs_ext cols _ (fun i => bs cols (fun j => 2 * / INR rows * w j i) + bs cols (fun j => 2 * / INR rows * w i j))).
    2: { intros i Hi. rewrite <- bs_plus. apply bs_ext. intros j Hj. unfold w. rewrite (Nat.eqb_sym j i), (cov_sym rows (V x) j i). destruct (Nat.eqb i j); ring. }
    rewrite bs_plus. rewrite (bs_swap cols cols (fun i j => 2 * / INR rows * w i j)).
    rewrite (bs_ext cols (fun i => bs cols (fun j => 2 * / INR rows * w j i)) (fun j => 2 * / INR rows * bs cols (fun i => w i j)))
      by (intros i Hi; rewrite bs_scal; reflexivity).
    rewrite bs_scal. ring. }
  rewrite E. clear E.
  assert (E : bs (rows * cols) (fun q => pen_grad (KDeCov l n) rows cols (V x) q * dV q) =
    2 / INR (rows * cols - rows) * bs cols (fun j => bs cols (fun i => w i j))).
  { rewrite (bs_dbl rows cols (fun q => pen_grad (KDeCov l n) rows cols (V x) q * dV q)).
    rewrite <- bs_scal. apply bs_ext. intros j Hj. rewrite <- bs_scal.
    unfold w. cbn [pen_grad].
    rewrite (bs_ext rows _ (fun r => bs cols (fun k => 2 / INR (rows * cols - rows) * (if Nat.eqb k j then 0 else
       cov rows (V x) k j * ((nth (r + rows * k) (V x) 0 - mean_of rows (V x) k) * dV (r + rows * j)%nat))))).
    2: { intros r Hr. replace (j * rows + r)%nat with (r + rows * j)%nat by lia.
         rewrite (proj1 (divmod rows r j Hr)), (proj2 (divmod rows r j Hr)). rewrite bs_scal.
         rewrite Rmult_assoc. f_equal. rewrite Rmult_comm, <- bs_scal. apply bs_ext. intros k Hk. destruct (Nat.eqb k j); ring. }
    rewrite bs_swap. apply bs_ext. intros k Hk. rewrite bs_scal. f_equal. destruct (Nat.eqb k j).
    - apply bs_0. reflexivity.
    - rewrite bs_scal. reflexivity. }
  rewrite E. replace (rows * cols - rows)%nat with (rows * (cols - 1))%nat by nia. rewrite mult_INR. field. auto.
Qed.

Lemma path_penalty k : (0 < rows)%nat -> (forall l n, k = KDeCov l n -> (1 < cols)%nat) ->
  (k = KL1 -> forall q, (q < rows * cols)%nat -> nth q (V x) 0 <> 0) ->
  is_derive (fun t => penalty k rows cols (V t)) x (bs (rows * cols) (fun q => pen_grad k rows cols (V x) q * dV q)).
Proof.
  intros Hr Hd H1. destruct k as [| |l n].
  - cbn [penalty]. apply (d_ext (fun t => bs (rows * cols) (fun i => Rabs (nth i (V t) 0)))); [intros t; rewrite total_bs; reflexivity|].
    apply (d_bs (rows * cols) _ (fun q => pen_grad KL1 rows cols (V x) q * dV q)). intros q Hq. cbn [pen_grad].
    apply (d_comp Rabs (fun t => nth q (V t) 0)); [apply abs_derive, H1; auto|apply (proj2 HD), Hq].
  - cbn [penalty]. apply (d_ext (fun t => / 2 * bs (rows * cols) (fun i => nth i (V t) 0 ^ 2))); [intros t; rewrite total_bs; reflexivity|].
    eapply d_eq; [apply d_mult; [apply d_const|apply (d_bs (rows * cols) _ (fun q => 2 * nth q (V x) 0 * dV q))]|].
    + intros q Hq. apply (d_sq (fun t => nth q (V t) 0) x (dV q)), (proj2 HD), Hq.
    + cbv beta. rewrite Rmult_0_l, Rplus_0_l, <- bs_scal. apply bs_ext. intros q Hq. cbn [pen_grad]. field.
  - apply path_decov; [exact Hr|apply (Hd l n eq_refl)].
Qed.

Lemma path_pen las : (0 < rows)%nat ->
  (forall a, In a las -> enabled a = true -> (forall l n, a_kind a = KDeCov l n -> (1 < cols)%nat) /\ (forall q, (q < rows * cols)%nat -> regular a (nth q (V x) 0))) ->
  is_derive (fun t => pen_value las rows cols (V t)) x (bs (rows * cols) (fun q => pgrad las rows cols (V x) q * dV q)).
Proof.
  intros Hr. induction las as [|a las IH]; intros HR.
  - apply (d_ext (fun _ => 0)); [reflexivity|]. eapply d_eq; [apply d_const|]. symmetry. apply bs_0. intros; unfold pgrad; cbn; ring.
  - assert (HR' : forall a, In a las -> enabled a = true -> (forall l n, a_kind a = KDeCov l n -> (1 < cols)%nat) /\ (forall q, (q < rows * cols)%nat -> regular a (nth q (V x) 0)))
      by (intros; apply HR; [right|]; assumption).
    specialize (IH HR').
    destruct (enabled a) eqn:Ee.
    + destruct (HR a (or_introl eq_refl) Ee) as [HC HG].
      apply (d_ext (fun t => a_scale a * penalty (a_kind a) rows cols (V t) + pen_value las rows cols (V t))); [reflexivity|].
      eapply d_eq; [apply d_plus; [apply d_mult; [apply d_const|apply path_penalty]|exact IH]|].
      * exact Hr.
      * exact HC.
      * intros Ek q Hq. apply HG; assumption.
      * cbv beta. rewrite Rmult_0_l, Rplus_0_l, <- bs_scal, <- bs_plus. apply bs_ext. intros q Hq. rewrite pgrad_cons. ring.
    + apply disabled_scale in Ee.
      apply (d_ext (fun t => pen_value las rows cols (V t))).
      { intros t. unfold pen_value. cbn [map sumR fold_right]. rewrite Ee. unfold sumR. cbn [fold_right]. ring. }
      eapply d_eq; [exact IH|]. apply bs_ext. intros q Hq. rewrite pgrad_cons, Ee. ring.
Qed.
End P.
