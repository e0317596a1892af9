(** Theorems about the numeric gradient check: C48, C49, C78, C79. *)
From Coq Require Import Reals Lra.
From Verif Require Import Base BaseLemmas TData_Model Gc_Model Gc_Spec Gc_Proofs4 Gc_Proofs5 Gc_Proofs6.
Local Open Scope nat_scope.

(** ** A network: a layer of 2 neurons, a pack that tiles a layer of one neuron over
    them, an output of one neuron *)
Definition ex_net : gnet :=
  mkNet 2 (GCons (GFC 1 2 2 true) (GCons (GPack 2 2 2 (GCons (GFC 3 1 1 true) GNil)) GNil)) 4 1 2 true.
Definition ex_W : list (list xf) := [[]; repeat (XR 1) 6; []; repeat (XR 2) 2; repeat (XR 3) 3].
Definition ex_set : setts :=
  mkSt (TotalMin 1) (TotalMin 1) (mkEv (XR 0) (XR 1) 100) (mkEv (XR 0) (XR 1) 100) true [] [] (XR 1) true 1.
(** loss [L], derivatives [a] and [w] *)
Definition ex_env (L a w : xf) : genv nat :=
  mkGE (fun _ => true) (fun _ => true) (fun _ W => W) (fun _ => 0) (fun _ _ x => x) (fun _ _ x => x) (fun _ => L)
    (fun _ _ _ _ => w) (fun _ _ _ _ => a) (fun _ _ => 0).
(** trained, with batches of 2 *)
Definition ex_st (fp tb : nat) : st nat :=
  mkS (mkN ex_W 7 true fp tb 2 true false false false) (mkI [] 0 GA PAnalytical 0 0 XNaN 0 None XNaN false) [].

Lemma ex_net_ok : net_ok ex_net.
Proof.
  split; [|split].
  - cbn. repeat constructor; cbn; intuition discriminate.
  - cbn. intuition discriminate.
  - cbn. lia.
Qed.
Lemma ex_layers m m' l : layer_of ex_net m m' l ->
  l = GFC 1 2 2 true \/ l = GPack 2 2 2 (GCons (GFC 3 1 1 true) GNil) \/ l = GFC 3 1 1 true \/ l = GFC 4 1 2 true.
Proof.
  intros [(t & Ht & Hi)|[_ ->]]; [|tauto]. cbn in Ht.
  inversion Ht as [|? ? ? Ht1]; subst; [inversion Hi; subst; tauto|].
  inversion Ht1 as [|? ? ? Ht2]; subst; [|inversion Ht2].
  inversion Hi as [|? ? ? ? ? ? ? ? Hg Hj]; subst; [tauto|].
  inversion Hg as [|? ? ? Hg2]; subst; [inversion Hj; subst; tauto|inversion Hg2].
Qed.
Lemma ex_weights_ok : weights_ok ex_net ex_W.
Proof.
  intros m m' idx n inc u H. apply ex_layers in H as [H|[H|[H|H]]]; try discriminate H; injection H as -> -> -> ->; cbn; lia.
Qed.
Lemma ex_rng L a w : rng_good (ex_env L a w).
Proof. intros h k Hk. cbn. exact Hk. Qed.
Lemma ex_finite : finite_thresholds ex_set.
Proof. intros []; exists 0%R, 1%R; split; reflexivity. Qed.
Lemma ex_admitted : admitted ex_net ex_set 5 2 5 1 3.
Proof. repeat split; cbn; lia. Qed.
Lemma ex_initialised : initialised ex_set 3 (s_n (ex_st 4 4)).
Proof. repeat split; cbn; lia. Qed.
Lemma ex_sane fp tb : 2 <= tb -> sane (s_n (ex_st fp tb)).
Proof. intros H. split; [reflexivity|exact H]. Qed.

(** ** C48 *)
(** A network that is initialised for the batches of the check is left as it was:
    weights, state of the optimizers, sizes, mode, batch size and flags. *)
Theorem C48_restored_partial : forall G (E : genv G) N T rows xw yrows yw bs s,
  net_ok N -> rng_good E -> finite_thresholds T -> admitted N T rows xw yrows yw bs -> 0 < st_online T ->
  (Nat.max bs (st_online T) < rows \/ bs = st_online T) ->
  initialised T bs (s_n s) -> sane (s_n s) -> weights_ok N (n_W (s_n s)) -> i_stack (s_i s) = [] ->
  exists r s', gradcheck E N T rows xw yrows yw bs s = Some (r, s') /\ s_n s' = s_n s /\ i_stack (s_i s') = [].
Proof.
  intros G E N T rows xw yrows yw bs s HN HE HF HA Hon Hsz HI Hs HW Hst. destruct (ge_math E (s_h s)) eqn:Hm.
  - destruct (gradcheck_initialised E N T HN HE HF rows bs xw yrows yw s HA Hon Hsz HI Hs HW Hst Hm) as (r & s' & cs & E1 & E2 & E3 & _).
    exists r, s'. auto.
  - exists false, s. split; [apply gradcheck_math; assumption|]. auto.
Qed.
Print Assumptions C48_restored_partial.
(** Data of the wrong shape are refused, nothing is changed. *)
Theorem C48_refused : forall G (E : genv G) N T rows xw yrows yw bs s,
  ~ admitted N T rows xw yrows yw bs -> gradcheck E N T rows xw yrows yw bs s = Some (false, s).
Proof. intros. apply gradcheck_rejects. assumption. Qed.
Print Assumptions C48_refused.
(** Weights that exist are never changed, whatever is initialised or fails. *)
Theorem C48_weights : forall G (E : genv G) N T rows xw yrows yw bs s,
  net_ok N -> rng_good E -> finite_thresholds T -> 0 < st_online T -> (Nat.max bs (st_online T) < rows \/ bs = st_online T) ->
  n_made (s_n s) = true -> sane (s_n s) -> weights_ok N (n_W (s_n s)) -> i_stack (s_i s) = [] ->
  exists r s', gradcheck E N T rows xw yrows yw bs s = Some (r, s') /\ n_W (s_n s') = n_W (s_n s) /\ n_made (s_n s') = true /\
    n_full (s_n s') = n_full (s_n s) /\ n_block (s_n s') = false.
Proof. intros. apply gradcheck_any; assumption. Qed.
Print Assumptions C48_weights.
Example C48_example : forall L a w, exists r s', gradcheck (ex_env L a w) ex_net ex_set 5 2 5 1 3 (ex_st 4 4) = Some (r, s') /\ s_n s' = s_n (ex_st 4 4).
Proof.
  intros L a w. destruct (C48_restored_partial _ (ex_env L a w) ex_net ex_set 5 2 5 1 3 (ex_st 4 4) ex_net_ok (ex_rng L a w) ex_finite ex_admitted) as (r & s' & H1 & H2 & _).
  - cbn; lia.
  - left; cbn; lia.
  - exact ex_initialised.
  - apply ex_sane; lia.
  - exact ex_weights_ok.
  - reflexivity.
  - exists r, s'. auto.
Qed.
Example C48_refused_example : ~ admitted ex_net ex_set 5 2 4 1 3 /\ ~ admitted ex_net ex_set 2 2 2 1 3.
Proof. split; intros (_ & _ & _ & H1 & H2); cbn in *; lia. Qed.
Example C48_weights_example : forall L a w, exists r s', gradcheck (ex_env L a w) ex_net ex_set 5 2 5 1 3 (ex_st 2 2) = Some (r, s') /\ n_W (s_n s') = ex_W.
Proof.
  intros L a w. destruct (C48_weights _ (ex_env L a w) ex_net ex_set 5 2 5 1 3 (ex_st 2 2) ex_net_ok (ex_rng L a w) ex_finite) as (r & s' & H1 & H2 & _).
  - cbn; lia.
  - left; cbn; lia.
  - reflexivity.
  - apply ex_sane; lia.
  - exact ex_weights_ok.
  - reflexivity.
  - exists r, s'. auto.
Qed.
(** A network initialised for smaller batches: mode and batch size are not restored and
    the state of the optimizers is lost. *)
Theorem C48_reinit_refuted : exists (E : genv nat) N T s r s',
  net_ok N /\ rng_good E /\ finite_thresholds T /\ admitted N T 5 2 5 1 3 /\ sane (s_n s) /\ weights_ok N (n_W (s_n s)) /\
  gradcheck E N T 5 2 5 1 3 s = Some (r, s') /\
  n_train (s_n s) = true /\ n_cur (s_n s) = 2 /\ n_opt (s_n s) = 7 /\
  n_train (s_n s') = false /\ n_cur (s_n s') = 0 /\ n_opt (s_n s') = 0.
Proof.
  exists (ex_env (XR 0) (XR 0) (XR 0)), ex_net, ex_set, (ex_st 2 2).
  destruct (gradcheck_reinit (ex_env (XR 0) (XR 0) (XR 0)) ex_net ex_set ex_net_ok (ex_rng _ _ _) ex_finite 5 3 2 5 1 (ex_st 2 2) ex_admitted) as (r & s' & E1 & E2 & E3 & h & E4).
  - cbn; lia.
  - left; cbn; lia.
  - intros (_ & _ & H & _). cbn in H. lia.
  - reflexivity.
  - exact ex_weights_ok.
  - reflexivity.
  - reflexivity.
  - exists r, s'. split; [exact ex_net_ok|]. split; [apply ex_rng|]. split; [exact ex_finite|]. split; [exact ex_admitted|]. split; [apply ex_sane; lia|].
    split; [exact ex_weights_ok|]. split; [exact E1|]. split; [reflexivity|]. split; [reflexivity|]. split; [reflexivity|].
    split; [exact E2|]. split; [exact E3|]. exact E4.
Qed.
Print Assumptions C48_reinit_refuted.

(** ** C49 *)
(** The check succeeds exactly if no check compared two numbers that differ too much
    and no layer had too many zero derivatives. *)
Theorem C49_verdict_partial : forall G (E : genv G) N T rows xw yrows yw bs s,
  net_ok N -> rng_good E -> finite_thresholds T -> admitted N T rows xw yrows yw bs -> 0 < st_online T ->
  (Nat.max bs (st_online T) < rows \/ bs = st_online T) ->
  initialised T bs (s_n s) -> sane (s_n s) -> weights_ok N (n_W (s_n s)) -> i_stack (s_i s) = [] -> ge_math E (s_h s) = true ->
  exists r s' cs, gradcheck E N T rows xw yrows yw bs s = Some (r, s') /\ run_result E N T rows bs s s' cs /\ (r = true <-> passes N T cs).
Proof.
  intros G E N T rows xw yrows yw bs s HN HE HF HA Hon Hsz HI Hs HW Hst Hm.
  destruct (gradcheck_initialised E N T HN HE HF rows bs xw yrows yw s HA Hon Hsz HI Hs HW Hst Hm) as (r & s' & cs & E1 & E2 & E3 & E4 & E5 & _).
  exists r, s', cs. auto.
Qed.
Print Assumptions C49_verdict_partial.

Lemma ran_in {G} (E : genv G) N T W rows bs h evs cs : ran E N T W rows bs h evs cs ->
  forall l g r c an num, In (l, g, r, c, an, num) cs ->
  exists h' blk, ran_check E N T W rows (match g with GA => st_online T | GW => bs end) h' g l r c blk an num.
Proof.
  intros H. induction H as [|h evs cs H IH|h t b evs cs H IH|h g l r c blk an num evs cs Hc H IH]; intros l1 g1 r1 c1 an1 num1 Hin.
  - destruct Hin.
  - apply IH, Hin.
  - apply IH, Hin.
  - destruct Hin as [Hin|Hin]; [|apply IH, Hin]. injection Hin as <- <- <- <- <- <-. exists h, blk. exact Hc.
Qed.
Definition is_number (x : xf) : Prop := exists r, x = XR r.

(** Derivatives that are not numbers are never noticed. *)
Theorem C49_not_numbers : forall G (E : genv G) N T rows xw yrows yw bs s,
  net_ok N -> rng_good E -> finite_thresholds T -> admitted N T rows xw yrows yw bs -> 0 < st_online T ->
  (Nat.max bs (st_online T) < rows \/ bs = st_online T) ->
  initialised T bs (s_n s) -> sane (s_n s) -> weights_ok N (n_W (s_n s)) -> i_stack (s_i s) = [] -> ge_math E (s_h s) = true ->
  st_may T = [] -> (forall h idx r c, ~ is_number (ge_dLdA E h idx r c) /\ ~ is_number (ge_dLdW E h idx r c)) ->
  exists s' cs, gradcheck E N T rows xw yrows yw bs s = Some (true, s') /\ run_result E N T rows bs s s' cs /\ covers N T cs /\
    (forall l g r c an num, In (l, g, r, c, an, num) cs -> ~ is_number an).
Proof.
  intros G E N T rows xw yrows yw bs s HN HE HF HA Hon Hsz HI Hs HW Hst Hm Hmay Hnan.
  destruct (gradcheck_initialised E N T HN HE HF rows bs xw yrows yw s HA Hon Hsz HI Hs HW Hst Hm) as (r & s' & cs & E1 & E2 & E3 & E4 & E5 & E6).
  assert (Hn : forall l g r c an num, In (l, g, r, c, an, num) cs -> ~ is_number an).
  { destruct E4 as (evs & post & _ & _ & Hran). intros l g r0 c an num Hin.
    destruct (ran_in _ _ _ _ _ _ _ _ _ Hran _ _ _ _ _ _ Hin) as (h' & blk & b & m' & _ & _ & _ & _ & _ & _ & Han).
    rewrite Hmay in Han. cbn [in_list existsb andb] in Han. rewrite Han.
    destruct g; [apply Hnan|]. destruct l as [? ? ? [|]|? ?|? ? ? ?]; try apply Hnan; intros [x Hx]; discriminate Hx. }
  assert (Hr : r = true).
  { apply E5. split.
    - intros l g r0 c an num Hin (a & n & w & f & -> & _). elim (Hn _ _ _ _ _ _ Hin). exists a. reflexivity.
    - intros l g Hl Hx. replace (zeros cs (gidx l) g) with 0; [lia|]. symmetry. unfold zeros.
      replace (filter _ cs) with (@nil check); [reflexivity|]. symmetry. clear - Hn.
      induction cs as [|[[[[[l1 g1] r1] c1] an1] num1] cs IH]; [reflexivity|]. cbn [filter].
      replace (x_is0 an1) with false.
      + rewrite andb_false_r. cbn [andb]. apply IH. intros. eapply Hn. right. eassumption.
      + symmetry. destruct (x_is0 an1) eqn:Q; [|reflexivity]. apply x_is0_iff in Q. elim (Hn _ _ _ _ _ _ (or_introl eq_refl)). exists 0%R. exact Q. }
  subst r. exists s', cs. auto.
Qed.
Print Assumptions C49_not_numbers.
Lemma ex_run (E := ex_env) L a w r s' :
  gradcheck (ex_env L a w) ex_net ex_set 5 2 5 1 3 (ex_st 4 4) = Some (r, s') ->
  exists cs, run_result (ex_env L a w) ex_net ex_set 5 3 (ex_st 4 4) s' cs /\ (r = true <-> passes ex_net ex_set cs) /\ (r = true -> covers ex_net ex_set cs).
Proof.
  intros H. destruct (gradcheck_initialised (ex_env L a w) ex_net ex_set ex_net_ok (ex_rng L a w) ex_finite 5 3 2 5 1 (ex_st 4 4) ex_admitted) as (r1 & s1 & cs & E1 & _ & _ & E4 & E5 & E6).
  - cbn; lia.
  - left; cbn; lia.
  - exact ex_initialised.
  - apply ex_sane; lia.
  - exact ex_weights_ok.
  - reflexivity.
  - reflexivity.
  - rewrite E1 in H. injection H as <- <-. exists cs. auto.
Qed.
Lemma ex_num0 a w l g r c h blk an num :
  ran_check (ex_env (XR 0) a w) ex_net ex_set ex_W 5 (match g with GA => 1 | GW => 3 end) h g l r c blk an num -> num = XR 0.
Proof.
  intros (b & m' & _ & _ & _ & Hl & H). cbv zeta in H. destruct H as (_ & Hn & _). rewrite Hn. clear Hn.
  cbn [ge_loss ex_env ex_set st_step x_mul x_nat x_sub x_neg x_add].
  assert (Hm : (INR m' <> 0)%R).
  { apply not_0_INR. pose proof (Gc_Proofs2.layer_pos ex_net ex_net_ok _ _ _ (match g return 0 < match g with GA => 1 | GW => 3 end with GA => Nat.lt_0_succ _ | GW => Nat.lt_0_succ _ end) Hl). lia. }
  assert (H2 : (INR 2 <> 0)%R) by (apply not_0_INR; discriminate).
  destruct g; cbn [x_div x_mul].
  - destruct (Req_EM_T (1 * INR 2) 0) as [Q|Q]; [lra|]. unfold x_nat. cbn [x_div]. destruct (Req_EM_T (1 * INR 2) 0) as [Q1|Q1]; [lra|]. cbn [x_mul]. f_equal. replace (0 + - 0)%R with 0%R by lra. apply Rmult_0_r.
  - destruct (Req_EM_T (1 * INR 2 * INR m') 0) as [Q|Q].
    + exfalso. rewrite Rmult_1_l in Q. apply Rmult_integral in Q. tauto.
    + f_equal. unfold Rdiv. replace (0 + - 0)%R with 0%R by lra. apply Rmult_0_l.
Qed.
(** a wrong derivative is found: all are 1 though the loss is constant *)
Example C49_example : forall r s', gradcheck (ex_env (XR 0) (XR 1) (XR 1)) ex_net ex_set 5 2 5 1 3 (ex_st 4 4) = Some (r, s') -> r = false.
Proof.
  intros r s' H. destruct (ex_run _ _ _ _ _ H) as (cs & (evs & post & _ & _ & Hran) & Hp & Hc). destruct r; [|reflexivity]. exfalso.
  assert (Hl : in_net ex_net (GFC 1 2 2 true)). { exists 1, 1. left. eexists. split; [constructor|constructor]. }
  pose proof (Hc eq_refl (GFC 1 2 2 true) GA Hl (fun x => x)) as Hcov. cbn [covered] in Hcov.
  destruct Hcov as (xs & _ & Hx & _ & HF); [discriminate|]. destruct xs as [|x xs]; [discriminate Hx|].
  inversion HF as [|? ? Hd _]; subst. destruct Hd as (an & num & Hin).
  destruct (proj1 (proj1 Hp eq_refl) _ _ _ _ _ _ Hin).
  destruct (ran_in _ _ _ _ _ _ _ _ _ Hran _ _ _ _ _ _ Hin) as (h' & blk & Hck). pose proof (ex_num0 _ _ _ GA _ _ _ _ _ _ Hck) as Hnum.
  destruct Hck as (b & m' & _ & _ & _ & _ & _ & _ & Han). cbn in Han.
  exists 1%R, 0%R, 0%R, 1%R. split; [exact Han|]. split; [exact Hnum|]. split; [reflexivity|]. split; [reflexivity|].
  split; [left; lra|]. unfold rel_diff. replace (1 - 0)%R with 1%R by lra.
  rewrite Rabs_R1, Rabs_R0, Rmax_left by lra. split; lra.
Qed.
(** the derivatives are NaN, or infinite, though the loss is constant: success *)
Lemma ex_bad a : ~ is_number a -> exists s' cs l r c num,
  gradcheck (ex_env (XR 0) a a) ex_net ex_set 5 2 5 1 3 (ex_st 4 4) = Some (true, s') /\
  run_result (ex_env (XR 0) a a) ex_net ex_set 5 3 (ex_st 4 4) s' cs /\ In (l, GA, r, c, a, num) cs /\ num = XR 0.
Proof.
  intros Ha. destruct (C49_not_numbers _ (ex_env (XR 0) a a) ex_net ex_set 5 2 5 1 3 (ex_st 4 4) ex_net_ok (ex_rng _ _ _) ex_finite ex_admitted) as (s' & cs & E1 & E2 & E3 & E4).
  - cbn; lia.
  - left; cbn; lia.
  - exact ex_initialised.
  - apply ex_sane; lia.
  - exact ex_weights_ok.
  - reflexivity.
  - reflexivity.
  - reflexivity.
  - intros h idx r c. split; exact Ha.
  - assert (Hl : in_net ex_net (GFC 1 2 2 true)). { exists 1, 1. left. eexists. split; [constructor|constructor]. }
    pose proof (E3 (GFC 1 2 2 true) GA Hl (fun x => x)) as Hcov. cbn [covered] in Hcov.
    destruct Hcov as (xs & _ & Hx & _ & HF); [discriminate|]. destruct xs as [|x xs]; [discriminate Hx|].
    inversion HF as [|? ? Hd _]; subst. destruct Hd as (an & num & Hin).
    pose proof E2 as (evs & post & _ & _ & Hran).
    destruct (ran_in _ _ _ _ _ _ _ _ _ Hran _ _ _ _ _ _ Hin) as (h' & blk & Hck). pose proof (ex_num0 _ _ _ GA _ _ _ _ _ _ Hck) as Hnum.
    destruct Hck as (b & m' & _ & _ & _ & _ & _ & _ & Han). cbn in Han. rewrite Han in Hin.
    exists s', cs. do 4 eexists. split; [exact E1|]. split; [exact E2|]. split; [exact Hin|exact Hnum].
Qed.
Theorem C49_nan_refuted : exists (E : genv nat) N T s s' cs l r c num,
  net_ok N /\ rng_good E /\ finite_thresholds T /\ admitted N T 5 2 5 1 3 /\ initialised T 3 (s_n s) /\ sane (s_n s) /\
  gradcheck E N T 5 2 5 1 3 s = Some (true, s') /\ run_result E N T 5 3 s s' cs /\ In (l, GA, r, c, XNaN, num) cs /\ num = XR 0.
Proof.
  destruct (ex_bad XNaN) as (s' & cs & l & r & c & num & H); [intros [x Hx]; discriminate Hx|].
  exists (ex_env (XR 0) XNaN XNaN), ex_net, ex_set, (ex_st 4 4), s', cs, l, r, c, num.
  split; [exact ex_net_ok|]. split; [apply ex_rng|]. split; [exact ex_finite|]. split; [exact ex_admitted|]. split; [exact ex_initialised|].
  split; [apply ex_sane; lia|]. exact H.
Qed.
Print Assumptions C49_nan_refuted.
Theorem C49_inf_refuted : exists (E : genv nat) N T s s' cs l r c num,
  net_ok N /\ rng_good E /\ finite_thresholds T /\ admitted N T 5 2 5 1 3 /\ initialised T 3 (s_n s) /\ sane (s_n s) /\
  gradcheck E N T 5 2 5 1 3 s = Some (true, s') /\ run_result E N T 5 3 s s' cs /\ In (l, GA, r, c, XInf false, num) cs /\ num = XR 0.
Proof.
  destruct (ex_bad (XInf false)) as (s' & cs & l & r & c & num & H); [intros [x Hx]; discriminate Hx|].
  exists (ex_env (XR 0) (XInf false) (XInf false)), ex_net, ex_set, (ex_st 4 4), s', cs, l, r, c, num.
  split; [exact ex_net_ok|]. split; [apply ex_rng|]. split; [exact ex_finite|]. split; [exact ex_admitted|]. split; [exact ex_initialised|].
  split; [apply ex_sane; lia|]. exact H.
Qed.
Print Assumptions C49_inf_refuted.

(** ** C78 *)
(** Every check is what [ran_check] of the specification says (one batch of distinct
    samples, two forward passes that differ in one parameter, the analytical derivative
    from a backward pass of the unchanged network); success means that the requested
    number of distinct parameters of every layer were checked. *)
Theorem C78_checks : forall G (E : genv G) N T rows xw yrows yw bs s,
  net_ok N -> rng_good E -> finite_thresholds T -> admitted N T rows xw yrows yw bs -> 0 < st_online T ->
  (Nat.max bs (st_online T) < rows \/ bs = st_online T) ->
  initialised T bs (s_n s) -> sane (s_n s) -> weights_ok N (n_W (s_n s)) -> i_stack (s_i s) = [] -> ge_math E (s_h s) = true ->
  exists r s' cs, gradcheck E N T rows xw yrows yw bs s = Some (r, s') /\ run_result E N T rows bs s s' cs /\
    (forall l g r c an num, In (l, g, r, c, an, num) cs ->
       exists h blk, ran_check E N T (n_W (s_n s)) rows (match g with GA => st_online T | GW => bs end) h g l r c blk an num) /\
    (r = true -> covers N T cs).
Proof.
  intros G E N T rows xw yrows yw bs s HN HE HF HA Hon Hsz HI Hs HW Hst Hm.
  destruct (gradcheck_initialised E N T HN HE HF rows bs xw yrows yw s HA Hon Hsz HI Hs HW Hst Hm) as (r & s' & cs & E1 & E2 & E3 & E4 & E5 & E6).
  exists r, s', cs. split; [exact E1|]. split; [exact E4|]. split; [|exact E6].
  destruct E4 as (evs & post & _ & _ & Hran). intros. eapply ran_in; eassumption.
Qed.
Print Assumptions C78_checks.
(** a run that succeeds and checks a weight of the tiled layer, where the batch of 3
    becomes 6 rows *)
Example C78_example : exists s' cs r c an num, gradcheck (ex_env (XR 0) XNaN XNaN) ex_net ex_set 5 2 5 1 3 (ex_st 4 4) = Some (true, s') /\
  run_result (ex_env (XR 0) XNaN XNaN) ex_net ex_set 5 3 (ex_st 4 4) s' cs /\ In (GFC 3 1 1 true, GW, r, c, an, num) cs.
Proof.
  destruct (C49_not_numbers _ (ex_env (XR 0) XNaN XNaN) ex_net ex_set 5 2 5 1 3 (ex_st 4 4) ex_net_ok (ex_rng _ _ _) ex_finite ex_admitted) as (s' & cs & E1 & E2 & E3 & E4).
  - cbn; lia.
  - left; cbn; lia.
  - exact ex_initialised.
  - apply ex_sane; lia.
  - exact ex_weights_ok.
  - reflexivity.
  - reflexivity.
  - reflexivity.
  - intros h idx r c. split; intros [x Hx]; discriminate Hx.
  - assert (Hl : in_net ex_net (GFC 3 1 1 true)).
    { exists 1, 2. left. exists (GPack 2 2 2 (GCons (GFC 3 1 1 true) GNil)). split; [do 2 constructor|].
      apply (in_pack 1 2 2 2 (GCons (GFC 3 1 1 true) GNil) (GFC 3 1 1 true) 2 _); constructor. }
    pose proof (E3 (GFC 3 1 1 true) GW Hl (fun x => x)) as Hcov. cbn [covered] in Hcov.
    destruct (Hcov _ _ _ _ eq_refl) as (_ & xs & _ & Hx & _ & HF). destruct xs as [|x xs]; [discriminate Hx|].
    inversion HF as [|? ? Hd _]; subst. destruct Hd as (an & num & Hin). exists s', cs. do 4 eexists. split; [exact E1|]. split; [exact E2|exact Hin].
Qed.

(** ** C79 *)
(** A batch as large as the data set together with smaller online batches: the data are
    accepted, and then the iterators of a container that was not filled are used. *)
Theorem C79_whole_set : forall G (E : genv G) N T rows xw yrows yw bs s,
  admitted N T rows xw yrows yw bs -> 0 < st_online T < bs -> bs = rows ->
  fst (init E bs bs s) = true -> gradcheck E N T rows xw yrows yw bs s = None.
Proof.
  intros G E N T rows xw yrows yw bs s HA Hon Hr Hi. apply gradcheck_full_data; auto.
  replace (Nat.max bs (st_online T)) with bs by lia. exact Hi.
Qed.
Print Assumptions C79_whole_set.
Theorem C79_refuted : exists (E : genv nat) N T rows xw yrows yw bs s,
  net_ok N /\ rng_good E /\ finite_thresholds T /\ admitted N T rows xw yrows yw bs /\ 0 < st_online T /\
  initialised T bs (s_n s) /\ sane (s_n s) /\ weights_ok N (n_W (s_n s)) /\ gradcheck E N T rows xw yrows yw bs s = None.
Proof.
  exists (ex_env (XR 0) (XR 0) (XR 0)), ex_net, ex_set, 4, 2, 4, 1, 4, (ex_st 4 4).
  assert (HA : admitted ex_net ex_set 4 2 4 1 4) by (repeat split; cbn; lia).
  split; [exact ex_net_ok|]. split; [apply ex_rng|]. split; [exact ex_finite|]. split; [exact HA|]. split; [cbn; lia|].
  split; [repeat split; cbn; lia|]. split; [apply ex_sane; lia|]. split; [exact ex_weights_ok|].
  apply C79_whole_set; [exact HA|cbn; lia|reflexivity|reflexivity].
Qed.
Print Assumptions C79_refuted.
(** All other sizes are handled. *)
Theorem C79_other_sizes_partial : forall G (E : genv G) N T rows xw yrows yw bs s,
  net_ok N -> rng_good E -> finite_thresholds T -> 0 < st_online T -> (Nat.max bs (st_online T) < rows \/ bs = st_online T) ->
  n_made (s_n s) = true -> sane (s_n s) -> weights_ok N (n_W (s_n s)) -> i_stack (s_i s) = [] ->
  gradcheck E N T rows xw yrows yw bs s <> None.
Proof.
  intros G E N T rows xw yrows yw bs s HN HE HF Hon Hsz Hmade Hs HW Hst.
  destruct (gradcheck_any E N T HN HE HF rows bs xw yrows yw s Hon Hsz Hmade Hs HW Hst) as (r & s' & H & _). rewrite H. discriminate.
Qed.
Print Assumptions C79_other_sizes_partial.
Example C79_example : Nat.max 3 (st_online ex_set) < 5 /\ 0 < st_online ex_set /\ n_made (s_n (ex_st 2 2)) = true.
Proof. cbn. repeat split; lia. Qed.
