(** Closed forms of the optimizers. *)
From Coq Require Import Reals Lra Lia.
From Verif Require Import Base BaseLemmas Workers_Model Workers_Spec Kern_Model Kern_Spec Kern_Proofs
  IdxMax_Model IdxMax_Spec Priv_Model Priv_Proofs Act_Spec Sfm_Spec Sfm_Proofs Norm_Model Norm_Spec Norm_Proofs
  Opt_Model Opt_Spec Opt_Ema Opt_Proofs.
Local Open Scope R_scope.

Lemma rsqrt_ok x : 0 <= x -> rsqrt x = Some (sqrt x).
Proof. intros H. unfold rsqrt. destruct (Rlt_dec x 0); [lra|reflexivity]. Qed.
Lemma rdiv_ok a b : b <> 0 -> rdiv a b = Some (a / b).
Proof. intros H. unfold rdiv. destruct (Req_EM_T b 0); [contradiction|reflexivity]. Qed.

Lemma sgn_ok x : sgn x = sign_of x.
Proof.
  unfold sgn, sign_of, gtb, bR. destruct (Rlt_dec 0 x), (Rlt_dec x 0); lra.
Qed.

(** ** One weight *)
Section Cell.
Context (lr : R) (c : cell) (l : list R).
Let g := cD c.
Let l' := l ++ [g].

Lemma len' : length l' = S (length l).
Proof. unfold l'. rewrite app_length. cbn. lia. Qed.
Lemma lst' : last l' 0 = g.
Proof. apply last_snoc. Qed.
Lemma ne1 : l <> [] -> Nat.eqb (length l') 1 = false.
Proof. intros H. rewrite len'. destruct l; [congruence|reflexivity]. Qed.

Lemma hinton_cell d eps : 0 < d < 1 -> 0 < eps -> l <> [] -> cA c = ema1 d (sqs l) ->
  f_hinton lr d eps c = Some (upD (upA c (ema1 d (sqs l'))) (update (RMSprop d eps) lr l')).
Proof.
  intros Hd He Hne HA. unfold f_hinton. cbv zeta. fold g. rewrite HA.
  assert (E : ema1 d (sqs l') = d * ema1 d (sqs l) + g * g * (1 - d)).
  { unfold l'. rewrite sqs_snoc, ema1_snoc by (intros E; apply sqs_nil in E; contradiction). ring. }
  rewrite <- E. pose proof (ema1_pos d (sqs l') Hd (sqs_pos l')) as Hp. rewrite rsqrt_ok by exact Hp. cbn [obind].
  pose proof (sqrt_pos (ema1 d (sqs l'))). rewrite rdiv_ok by lra. cbn [obind]. do 2 f_equal.
  unfold update. rewrite (ne1 Hne). rewrite lst'. unfold Rdiv. ring.
Qed.

Lemma graves_cell d eps : 0 < d < 1 -> 0 < eps -> l <> [] -> cA c = ema1 d (sqs l) -> cB c = ema1 d l ->
  f_graves lr d eps c = Some (upD (upB (upA c (ema1 d (sqs l'))) (ema1 d l')) (update (RMSpropCentred d eps) lr l')).
Proof.
  intros Hd He Hne HA HB. unfold f_graves. cbv zeta. fold g. rewrite HA, HB.
  assert (E : ema1 d (sqs l') = d * ema1 d (sqs l) + g * (g * (1 - d))).
  { unfold l'. rewrite sqs_snoc, ema1_snoc by (intros E; apply sqs_nil in E; contradiction). ring. }
  assert (E2 : ema1 d l' = d * ema1 d l + g * (1 - d)) by (unfold l'; rewrite ema1_snoc by exact Hne; ring).
  rewrite <- E, <- E2. pose proof (ema1_jensen d l' Hd) as Hj.
  replace (ema1 d (sqs l') - ema1 d l' * ema1 d l' + eps) with (ema1 d (sqs l') - (ema1 d l') ^ 2 + eps) by ring.
  assert (Hp : 0 < ema1 d (sqs l') - ema1 d l' ^ 2 + eps) by lra. rewrite rsqrt_ok by lra. cbn [obind].
  pose proof (sqrt_lt_R0 _ Hp). rewrite rdiv_ok by lra. cbn [obind]. do 2 f_equal.
  unfold update. rewrite (ne1 Hne). rewrite lst'. unfold Rdiv. ring.
Qed.

Lemma modprop_cell d eps : 0 < d < 1 -> 0 < eps -> l <> [] -> cA c = ema1 d (abss l) ->
  f_modprop lr d eps c = Some (upD (upA c (ema1 d (abss l'))) (update (MeanAbs d eps) lr l')).
Proof.
  intros Hd He Hne HA. unfold f_modprop. cbv zeta. fold g. rewrite HA.
  assert (E : ema1 d (abss l') = ema1 d (abss l) * d + Rabs g * (1 - d)).
  { unfold l'. rewrite abss_snoc, ema1_snoc by (intros E; apply abss_nil in E; contradiction). ring. }
  rewrite <- E. pose proof (ema1_pos d (abss l') Hd (abss_pos l')) as Hp.
  rewrite rdiv_ok by lra. cbn [obind]. do 2 f_equal.
  unfold update. rewrite (ne1 Hne). rewrite lst'. unfold Rdiv. ring.
Qed.

Lemma adam_cell b1 b2 eps : 0 < b1 < 1 -> 0 < b2 < 1 -> 0 < eps -> cA c = ema b1 l -> cB c = ema b2 (sqs l) ->
  f_adam (b1 ^ length l * b1) (b2 ^ length l * b2) lr b1 b2 eps c =
  Some (upD (upB (upA c (ema b1 l')) (ema b2 (sqs l'))) (update (ADAM b1 b2 eps) lr l')).
Proof.
  intros H1 H2 He HA HB. unfold f_adam. cbv zeta. fold g. rewrite HA, HB.
  assert (Hn : (0 < length l')%nat) by (rewrite len'; lia).
  assert (P1 : b1 ^ length l * b1 = b1 ^ length l') by (rewrite len'; cbn [pow]; ring).
  assert (P2 : b2 ^ length l * b2 = b2 ^ length l') by (rewrite len'; cbn [pow]; ring).
  rewrite P1, P2. pose proof (pow_lt1 b1 _ H1 Hn). pose proof (pow_lt1 b2 _ H2 Hn).
  rewrite rsqrt_ok by lra. cbn [obind]. rewrite rdiv_ok by lra. cbn [obind].
  assert (E : ema b1 l' = ema b1 l * b1 + g * (1 - b1)) by (unfold l'; rewrite ema_snoc; ring).
  assert (E2 : ema b2 (sqs l') = ema b2 (sqs l) * b2 + g * g * (1 - b2)) by (unfold l'; rewrite sqs_snoc, ema_snoc; ring).
  rewrite <- E, <- E2. pose proof (ema_pos b2 (sqs l') H2 (sqs_pos l')) as Hp. rewrite rsqrt_ok by exact Hp. cbn [obind].
  pose proof (sqrt_pos (ema b2 (sqs l'))). rewrite rdiv_ok by lra. cbn [obind]. do 2 f_equal.
  unfold update. unfold Rdiv. ring.
Qed.

Lemma adamax_cell b1 b2 eps : 0 < b1 < 1 -> 0 < b2 < 1 -> 0 < eps -> cA c = ema b1 l -> cB c = maxdisc b2 l ->
  f_adamax (b1 ^ length l * b1) lr b1 b2 eps c =
  Some (upD (upB (upA c (ema b1 l')) (maxdisc b2 l')) (update (ADAMAX b1 b2 eps) lr l')).
Proof.
  intros H1 H2 He HA HB. unfold f_adamax. cbv zeta. fold g. rewrite HA, HB.
  assert (Hn : (0 < length l')%nat) by (rewrite len'; lia).
  assert (P1 : b1 ^ length l * b1 = b1 ^ length l') by (rewrite len'; cbn [pow]; ring).
  rewrite P1. pose proof (pow_lt1 b1 _ H1 Hn). rewrite rdiv_ok by lra. cbn [obind].
  assert (E : ema b1 l' = ema b1 l * b1 + g * (1 - b1)) by (unfold l'; rewrite ema_snoc; ring).
  assert (E2 : maxdisc b2 l' = Rmax (Rabs g) (b2 * maxdisc b2 l)) by (unfold l'; rewrite maxdisc_snoc by lra; reflexivity).
  rewrite <- E, <- E2. pose proof (maxdisc_pos b2 l') as Hp. rewrite rdiv_ok by lra. cbn [obind]. do 2 f_equal.
Qed.

(** normalised averages *)
Lemma norm_ema b x (k : list R) : 0 < b < 1 -> let n := length k in
  let bt := b ^ n * b in
  (n = 0%nat -> forall y, y * ((b - bt) / (1 - bt)) + x * (1 - (b - bt) / (1 - bt)) = ema b (k ++ [x]) / (1 - b ^ S n)) /\
  (n <> 0%nat -> ema b k / (1 - b ^ n) * ((b - bt) / (1 - bt)) + x * (1 - (b - bt) / (1 - bt)) = ema b (k ++ [x]) / (1 - b ^ S n)).
Proof.
  intros Hb n bt. split.
  - intros H0 y. destruct k; [|discriminate H0]. subst bt n. rewrite ema_snoc, ema_nil. cbn [length pow]. field. lra.
  - intros H0. pose proof (pow_lt1 b n Hb ltac:(lia)). pose proof (pow_lt1 b (S n) Hb ltac:(lia)) as HS.
    rewrite ema_snoc. subst bt. cbn [pow] in *. field. split; lra.
Qed.

Lemma rnadam_cell mu eta gamma eps : 0 < mu < 1 -> 0 < eta < 1 -> 0 < eps ->
  (l <> [] -> cA c = ema mu l / (1 - mu ^ length l)) -> (l <> [] -> cB c = ema eta (sqs l) / (1 - eta ^ length l)) ->
  f_rnadam (mu ^ length l * mu) (eta ^ length l * eta) lr mu eta gamma eps c =
  Some (upD (upB (upA c (ema mu l' / (1 - mu ^ length l'))) (ema eta (sqs l') / (1 - eta ^ length l')))
    (update (if Req_EM_T gamma 0 then NADAM mu eta eps else RADAM mu eta gamma eps) lr l')).
Proof.
  intros H1 H2 He HA HB. unfold f_rnadam. cbv zeta. fold g.
  assert (Hn : (0 < length l')%nat) by (rewrite len'; lia).
  assert (P1 : mu ^ length l * mu = mu ^ length l') by (rewrite len'; cbn [pow]; ring).
  assert (P2 : eta ^ length l * eta = eta ^ length l') by (rewrite len'; cbn [pow]; ring).
  assert (EA : cA c * ((mu - mu ^ length l') / (1 - mu ^ length l')) + g * (1 - (mu - mu ^ length l') / (1 - mu ^ length l')) =
    ema mu l' / (1 - mu ^ length l')).
  { destruct (norm_ema mu g l H1) as [N0 N1]. rewrite P1 in N0, N1. rewrite len'. rewrite len' in N0, N1. unfold l'.
    destruct l as [|y k] eqn:El; [apply N0; reflexivity|]. rewrite HA by discriminate. apply N1. discriminate. }
  assert (EB : cB c * ((eta - eta ^ length l') / (1 - eta ^ length l')) + g * g * (1 - (eta - eta ^ length l') / (1 - eta ^ length l')) =
    ema eta (sqs l') / (1 - eta ^ length l')).
  { destruct (norm_ema eta (g * g) (sqs l) H2) as [N0 N1]. unfold sqs in N0, N1. rewrite map_length in N0, N1. fold (sqs l) in N0, N1.
    rewrite P2 in N0, N1. rewrite len'. rewrite len' in N0, N1. unfold l'. rewrite sqs_snoc.
    replace (g ^ 2) with (g * g) by ring.
    destruct l as [|y k] eqn:El; [apply N0; reflexivity|]. rewrite HB by discriminate. apply N1. discriminate. }
  rewrite P1, P2. pose proof (pow_lt1 mu _ H1 Hn) as Q1. pose proof (pow_lt1 eta _ H2 Hn) as Q2.
  rewrite !rdiv_ok by lra. cbn [obind].
  rewrite EB. pose proof (ema_pos eta (sqs l') H2 (sqs_pos l')) as Hp.
  assert (Hp2 : 0 <= ema eta (sqs l') / (1 - eta ^ length l')) by (apply Rmult_le_pos; [exact Hp|apply Rlt_le, Rinv_0_lt_compat; lra]).
  pose proof (sqrt_pos (ema eta (sqs l') / (1 - eta ^ length l'))) as Hs.
  assert (Q3 : 0 < 1 - mu * mu ^ length l') by nra.
  destruct (Req_EM_T gamma 0) as [->|Hg].
  - rewrite rdiv_ok by lra. cbn [obind]. rewrite rsqrt_ok by exact Hp2. cbn [obind]. rewrite EA, rdiv_ok by lra. cbn [obind].
    do 2 f_equal. unfold update. rewrite lst', Nat.add_1_r. cbn [pow]. unfold Rdiv at 1 6. rewrite <- Rmult_assoc. f_equal. f_equal. field. lra.
  - cbn [obind]. rewrite rsqrt_ok by exact Hp2. cbn [obind]. rewrite EA, rdiv_ok by lra. cbn [obind].
    do 2 f_equal. unfold update. rewrite lst'. unfold Rdiv. ring.
Qed.
End Cell.

(** ** A whole matrix *)
Definition run1 (f : cf) c := match f c with Some c' => c' | None => c end.
Lemma run1_eq f c c' : f c = Some c' -> run1 f c = c'.
Proof. intros H. unfold run1. rewrite H. reflexivity. Qed.

Definition at_ (s : st) (i : nat) (c : cell) : Prop := bget (s_cells s) i = Some c.

Lemma kcall_run e k f s (post : st -> Prop) : nonempty s -> (forall i c, at_ s i c -> f c <> None) ->
  post (cmap (run1 f) s) -> kcall e k [f] s post.
Proof.
  intros Hn Hf HP. eapply kcall_ok; [exact Hn| |exact HP]. intros c Hc. apply In_nth_error in Hc. destruct Hc as (i & Hi).
  cbn [chain]. unfold run1. destruct (f c) eqn:E; [reflexivity|]. exfalso. exact (Hf i c Hi E).
Qed.
Lemma kcall_bt_run e k b1 b2 f s (post : st -> Prop) : nonempty s ->
  (forall i c, at_ s i c -> f (s_b1t s * b1) (s_b2t s * b2) c <> None) ->
  post (with_bt (cmap (run1 (f (s_b1t s * b1) (s_b2t s * b2))) s) (s_b1t s * b1) (s_b2t s * b2)) -> kcall_bt e k b1 b2 f s post.
Proof.
  intros Hn Hf HP. eapply kcall_bt_ok; [exact Hn| |exact HP]. intros c Hc. apply In_nth_error in Hc. destruct Hc as (i & Hi).
  unfold run1. destruct (f _ _ c) eqn:E; [reflexivity|]. exfalso. exact (Hf i c Hi E).
Qed.

Lemma at_map (f : cell -> cell) s s' i c : s_cells s' = map f (s_cells s) -> at_ s i c -> at_ s' i (f c).
Proof. unfold at_, bget. intros E H. rewrite E, nth_error_map, H. reflexivity. Qed.
Lemma at_map_inv (f : cell -> cell) s s' i c' : s_cells s' = map f (s_cells s) -> at_ s' i c' -> exists c, at_ s i c /\ c' = f c.
Proof.
  unfold at_, bget. intros E H. rewrite E, nth_error_map in H. destruct (nth_error (s_cells s) i) as [c|]; [|discriminate].
  exists c. split; [reflexivity|]. cbn in H. congruence.
Qed.

Definition same_rest (c c' : cell) : Prop := cW c' = cW c /\ cV c' = cV c /\ cG c' = cG c /\ cP c' = cP c.

(** the state of the optimizer after gradients [gs] *)
Definition tracked (o : cfg) (gamma : R) (gs : list (list R)) (s : st) : Prop :=
  let a := algo_of o gamma in
  (gs = [] -> s_first s = true) /\ (gs <> [] -> s_first s = false) /\
  (o_type o <> Nadam -> s_gamma s = gamma) /\ (gs <> [] -> o_type o = Nadam -> s_gamma s = 0) /\
  (gs <> [] -> (forall p, pow1 a (length gs) = Some p -> s_b1t s = p) /\ (forall p, pow2 a (length gs) = Some p -> s_b2t s = p) /\
    forall i c, at_ s i c -> (hasA a = true -> cA c = accA a (hist i gs)) /\ (hasB a = true -> cB c = accB a (hist i gs))).

Lemma hist_snoc i gs g : hist i (gs ++ [g]) = hist i gs ++ [nth i g 0].
Proof. unfold hist. rewrite map_app. reflexivity. Qed.
Lemma hist_len i gs : length (hist i gs) = length gs.
Proof. apply map_length. Qed.
Lemma hist_nil i gs : gs <> [] -> hist i gs <> [].
Proof. destruct gs; [congruence|discriminate]. Qed.
Lemma snoc_ne {X} (l : list X) x : l ++ [x] <> [].
Proof. destruct l; discriminate. Qed.

Definition opt_post (o : cfg) (gamma lr : R) (gs : list (list R)) (g : list R) (s s' : st) : Prop :=
  length (s_cells s') = length (s_cells s) /\ tracked o gamma (gs ++ [g]) s' /\
  (forall i c, at_ s i c -> exists c', at_ s' i c' /\ cD c' = update (algo_of o gamma) lr (hist i (gs ++ [g])) /\ same_rest c c').

(** all stages end in a map over the cells *)
Lemma opt_fin o gamma lr gs g s s' (F : cell -> cell) :
  s_cells s' = map F (s_cells s) -> s_first s' = false ->
  (o_type o <> Nadam -> s_gamma s' = gamma) -> (o_type o = Nadam -> s_gamma s' = 0) ->
  (forall p, pow1 (algo_of o gamma) (S (length gs)) = Some p -> s_b1t s' = p) ->
  (forall p, pow2 (algo_of o gamma) (S (length gs)) = Some p -> s_b2t s' = p) ->
  (forall i c, at_ s i c -> let a := algo_of o gamma in let l := hist i gs ++ [nth i g 0] in
     cD (F c) = update a lr l /\ (hasA a = true -> cA (F c) = accA a l) /\ (hasB a = true -> cB (F c) = accB a l) /\ same_rest c (F c)) ->
  opt_post o gamma lr gs g s s'.
Proof.
  intros EC E1 E2 E3 E4 E5 H. split; [rewrite EC; apply map_length|]. split.
  - split; [intros E; exfalso; revert E; apply snoc_ne|]. split; [intros _; exact E1|]. split; [exact E2|]. split; [intros _; exact E3|].
    intros _. rewrite app_length. cbn [length]. rewrite Nat.add_1_r. split; [exact E4|]. split; [exact E5|].
    intros i c' Hc'. destruct (at_map_inv F s s' i c' EC Hc') as (c & Hc & ->). destruct (H i c Hc) as (_ & HA & HB & _).
    rewrite hist_snoc. auto.
  - intros i c Hc. exists (F c). split; [eapply at_map; eassumption|]. destruct (H i c Hc) as (HD & _ & _ & HR). rewrite hist_snoc. auto.
Qed.

Lemma opt_closed e o gamma lr gs g s (post : st -> Prop) : nonempty s -> algo_ok (algo_of o gamma) -> tracked o gamma gs s ->
  (forall i c, at_ s i c -> cD c = nth i g 0) ->
  (forall s', opt_post o gamma lr gs g s s' -> post s') ->
  opt_stage e o lr (s_first s) (with_first s false) post.
Proof.
  intros Hn Hok (T1 & T2 & T3 & T4 & T5) HD HP.
  assert (Hfirst : s_first s = true -> gs = []).
  { intros E. destruct gs; [reflexivity|]. rewrite T2 in E by discriminate. discriminate. }
  assert (Hnf : s_first s = false -> gs <> []).
  { intros E EE. rewrite (T1 EE) in E. discriminate. }
  assert (Hh : s_first s = true -> forall i, hist i gs = []) by (intros E i; rewrite (Hfirst E); reflexivity).
  assert (Hl : s_first s = true -> length gs = 0%nat) by (intros E; rewrite (Hfirst E); reflexivity).
  assert (Hs : forall x, sqs [x] = [x * x]) by (intros x; unfold sqs; cbn; f_equal; ring).
  unfold algo_of in Hok. unfold opt_stage. cbv zeta. destruct (o_type o) eqn:Et; cbn [algo_ok] in Hok.
  - (* SGD *) apply kcall_run; [exact Hn|discriminate|]. apply HP. eapply opt_fin; try reflexivity; unfold algo_of; rewrite Et; try discriminate.
    { intros _. apply T3. congruence. }
    intros i c Hc. cbn. split; [|repeat split; discriminate]. unfold update. rewrite last_snoc, (HD i c Hc). ring.
  - (* RMSProp *) destruct Hok as [Hd He]. destruct (s_first s) eqn:Ef.
    + apply kcall_run; [exact Hn|discriminate|]. apply kcall_run; [exact (cmap_ne _ _ Hn)|discriminate|]. apply HP.
      eapply opt_fin; try (cbn; rewrite map_map; reflexivity); try reflexivity; unfold algo_of; rewrite Et; try discriminate.
      { intros _. apply T3. congruence. }
      intros i c Hc. rewrite (Hh eq_refl). cbn [app]. cbv zeta. cbn [accA accB hasA hasB]. unfold abss. cbn [map]. rewrite ?Hs, ?ema1_single. unfold run1, f_square, f_mulC_D. cbn -[update Rmult]. rewrite (HD i c Hc). repeat split; try discriminate. unfold update. cbn. ring.
    + specialize (Hnf eq_refl). destruct (T5 Hnf) as (_ & _ & HT). unfold algo_of in HT; rewrite Et in HT.
      assert (HC : forall i c, at_ s i c -> f_hinton lr (o_b1 o) (o_eps o) c =
        Some (upD (upA c (ema1 (o_b1 o) (sqs (hist i gs ++ [nth i g 0])))) (update (RMSprop (o_b1 o) (o_eps o)) lr (hist i gs ++ [nth i g 0])))).
      { intros i c Hc. rewrite <- (HD i c Hc). apply hinton_cell; [exact Hd|exact He|apply hist_nil; exact Hnf|]. apply (HT i c Hc). reflexivity. }
      apply kcall_run; [exact Hn|intros i c Hc; rewrite (HC i c Hc); discriminate|]. apply HP.
      eapply opt_fin; try reflexivity; unfold algo_of; rewrite Et; try discriminate.
      { intros _. apply T3. congruence. }
      intros i c Hc. rewrite (run1_eq _ _ _ (HC i c Hc)). repeat split; try discriminate.
  - (* centred *) destruct Hok as [Hd He]. destruct (s_first s) eqn:Ef.
    + apply kcall_run; [exact Hn|discriminate|]. apply kcall_run; [exact (cmap_ne _ _ (cmap_ne _ _ Hn))|discriminate|]. apply HP.
      eapply opt_fin; try (cbn; rewrite !map_map; reflexivity); try reflexivity; unfold algo_of; rewrite Et; try discriminate.
      { intros _. apply T3. congruence. }
      intros i c Hc. rewrite (Hh eq_refl). cbn [app]. cbv zeta. cbn [accA accB hasA hasB]. unfold abss. cbn [map]. rewrite ?Hs, ?ema1_single. unfold run1, f_square, f_mulC_D. cbn -[update Rmult]. rewrite (HD i c Hc). repeat split; try discriminate. unfold update. cbn. ring.
    + specialize (Hnf eq_refl). destruct (T5 Hnf) as (_ & _ & HT). unfold algo_of in HT; rewrite Et in HT.
      assert (HC : forall i c, at_ s i c -> f_graves lr (o_b1 o) (o_eps o) c =
        Some (upD (upB (upA c (ema1 (o_b1 o) (sqs (hist i gs ++ [nth i g 0])))) (ema1 (o_b1 o) (hist i gs ++ [nth i g 0])))
          (update (RMSpropCentred (o_b1 o) (o_eps o)) lr (hist i gs ++ [nth i g 0])))).
      { intros i c Hc. rewrite <- (HD i c Hc). destruct (HT i c Hc) as [HA HB].
        apply graves_cell; [exact Hd|exact He|apply hist_nil; exact Hnf|apply HA; reflexivity|apply HB; reflexivity]. }
      apply kcall_run; [exact Hn|intros i c Hc; rewrite (HC i c Hc); discriminate|]. apply HP.
      eapply opt_fin; try reflexivity; unfold algo_of; rewrite Et; try discriminate.
      { intros _. apply T3. congruence. }
      intros i c Hc. rewrite (run1_eq _ _ _ (HC i c Hc)). repeat split; try discriminate.
  - (* RProp *) apply kcall_run; [exact Hn|discriminate|]. apply HP. eapply opt_fin; try reflexivity; unfold algo_of; rewrite Et; try discriminate.
    { intros _. apply T3. congruence. }
    intros i c Hc. cbn. split; [|repeat split; discriminate]. unfold update. rewrite last_snoc, (HD i c Hc), sgn_ok. reflexivity.
  - (* ModProp *) destruct Hok as [Hd He]. destruct (s_first s) eqn:Ef.
    + apply kcall_run; [exact Hn|discriminate|]. apply kcall_run; [exact (cmap_ne _ _ Hn)|discriminate|]. apply HP.
      eapply opt_fin; try (cbn; rewrite map_map; reflexivity); try reflexivity; unfold algo_of; rewrite Et; try discriminate.
      { intros _. apply T3. congruence. }
      intros i c Hc. rewrite (Hh eq_refl). cbn [app]. cbv zeta. cbn [accA accB hasA hasB]. unfold abss. cbn [map]. rewrite ?Hs, ?ema1_single. unfold run1, f_abs, f_mulC_D. cbn -[update Rmult]. rewrite (HD i c Hc). repeat split; try discriminate. unfold update. cbn. ring.
    + specialize (Hnf eq_refl). destruct (T5 Hnf) as (_ & _ & HT). unfold algo_of in HT; rewrite Et in HT.
      assert (HC : forall i c, at_ s i c -> f_modprop lr (o_b1 o) (o_eps o) c =
        Some (upD (upA c (ema1 (o_b1 o) (abss (hist i gs ++ [nth i g 0])))) (update (MeanAbs (o_b1 o) (o_eps o)) lr (hist i gs ++ [nth i g 0])))).
      { intros i c Hc. rewrite <- (HD i c Hc). apply modprop_cell; [exact Hd|exact He|apply hist_nil; exact Hnf|]. apply (HT i c Hc). reflexivity. }
      apply kcall_run; [exact Hn|intros i c Hc; rewrite (HC i c Hc); discriminate|]. apply HP.
      eapply opt_fin; try reflexivity; unfold algo_of; rewrite Et; try discriminate.
      { intros _. apply T3. congruence. }
      intros i c Hc. rewrite (run1_eq _ _ _ (HC i c Hc)). repeat split; try discriminate.
  - (* Adam *) destruct Hok as (H1 & H2 & He).
    set (z := fun c => upB (upA c 0) 0).
    set (s1 := if s_first s then with_bt (cmap z (with_first s false)) 1 1 else with_first s false).
    assert (P1 : s_b1t s1 = o_b1 o ^ length gs /\ s_b2t s1 = o_b2 o ^ length gs).
    { unfold s1. destruct (s_first s) eqn:Ef; [rewrite (Hl eq_refl); cbn; auto|].
      destruct (T5 (Hnf eq_refl)) as (Q1 & Q2 & _). unfold algo_of in Q1, Q2; rewrite Et in Q1, Q2. cbn. split; [apply Q1|apply Q2]; reflexivity. }
    destruct P1 as [P1 P2].
    set (z' := if s_first s then z else (fun c => c)).
    assert (Hc1 : s_cells s1 = map z' (s_cells s)) by (unfold s1, z'; destruct (s_first s); cbn; [reflexivity|symmetry; apply map_id]).
    assert (Hn1 : nonempty s1) by (unfold nonempty; rewrite Hc1, map_length; exact Hn).
    assert (HC : forall i c, at_ s i c -> f_adam (o_b1 o ^ length gs * o_b1 o) (o_b2 o ^ length gs * o_b2 o) lr (o_b1 o) (o_b2 o) (o_eps o) (z' c) =
        Some (upD (upB (upA (z' c) (ema (o_b1 o) (hist i gs ++ [nth i g 0]))) (ema (o_b2 o) (sqs (hist i gs ++ [nth i g 0]))))
          (update (ADAM (o_b1 o) (o_b2 o) (o_eps o)) lr (hist i gs ++ [nth i g 0])))).
    { intros i c Hc. assert (HDz : cD (z' c) = nth i g 0) by (unfold z', z; destruct (s_first s); apply (HD i c Hc)).
      rewrite <- HDz. rewrite <- (hist_len i gs). apply adam_cell; try assumption; unfold z', z; destruct (s_first s) eqn:Ef.
      - rewrite (Hh eq_refl). reflexivity.
      - destruct (T5 (Hnf eq_refl)) as (_ & _ & HT). unfold algo_of in HT; rewrite Et in HT. apply (HT i c Hc). reflexivity.
      - rewrite (Hh eq_refl). reflexivity.
      - destruct (T5 (Hnf eq_refl)) as (_ & _ & HT). unfold algo_of in HT; rewrite Et in HT. apply (HT i c Hc). reflexivity. }
    change (with_first s false) with (with_first s false). fold z. fold s1.
    apply kcall_bt_run; [exact Hn1| |]; rewrite P1, P2.
    + intros i c' Hc'. destruct (at_map_inv z' s s1 i c' Hc1 Hc') as (c & Hc & ->). rewrite (HC i c Hc). discriminate.
    + apply HP. eapply opt_fin with (F := fun c => run1 _ (z' c)).
      * cbn. rewrite Hc1, map_map. reflexivity.
      * unfold s1; destruct (s_first s); reflexivity.
      * intros _. unfold s1; destruct (s_first s); cbn; apply T3; congruence.
      * congruence.
      * unfold algo_of; rewrite Et. intros p Hp. inversion Hp. cbn. ring.
      * unfold algo_of; rewrite Et. intros p Hp. inversion Hp. cbn. ring.
      * intros i c Hc. cbv zeta. rewrite (run1_eq _ _ _ (HC i c Hc)). unfold algo_of; rewrite Et. unfold z', z. destruct (s_first s); repeat split.
  - (* AdaMax *) destruct Hok as (H1 & H2 & He).
    set (z := fun c => upB (upA c 0) 0).
    set (s1 := if s_first s then with_bt (cmap z (with_first s false)) 1 (s_b2t (with_first s false)) else with_first s false).
    assert (P1 : s_b1t s1 = o_b1 o ^ length gs).
    { unfold s1. destruct (s_first s) eqn:Ef; [rewrite (Hl eq_refl); cbn; auto|].
      destruct (T5 (Hnf eq_refl)) as (Q1 & _). unfold algo_of in Q1; rewrite Et in Q1. cbn. apply Q1; reflexivity. }
    set (z' := if s_first s then z else (fun c => c)).
    assert (Hc1 : s_cells s1 = map z' (s_cells s)) by (unfold s1, z'; destruct (s_first s); cbn; [reflexivity|symmetry; apply map_id]).
    assert (Hn1 : nonempty s1) by (unfold nonempty; rewrite Hc1, map_length; exact Hn).
    assert (HC : forall i c, at_ s i c -> f_adamax (o_b1 o ^ length gs * o_b1 o) lr (o_b1 o) (o_b2 o) (o_eps o) (z' c) =
        Some (upD (upB (upA (z' c) (ema (o_b1 o) (hist i gs ++ [nth i g 0]))) (maxdisc (o_b2 o) (hist i gs ++ [nth i g 0])))
          (update (ADAMAX (o_b1 o) (o_b2 o) (o_eps o)) lr (hist i gs ++ [nth i g 0])))).
    { intros i c Hc. assert (HDz : cD (z' c) = nth i g 0) by (unfold z', z; destruct (s_first s); apply (HD i c Hc)).
      rewrite <- HDz. rewrite <- (hist_len i gs). apply adamax_cell; try assumption; unfold z', z; destruct (s_first s) eqn:Ef.
      - rewrite (Hh eq_refl). reflexivity.
      - destruct (T5 (Hnf eq_refl)) as (_ & _ & HT). unfold algo_of in HT; rewrite Et in HT. apply (HT i c Hc). reflexivity.
      - rewrite (Hh eq_refl). reflexivity.
      - destruct (T5 (Hnf eq_refl)) as (_ & _ & HT). unfold algo_of in HT; rewrite Et in HT. apply (HT i c Hc). reflexivity. }
    fold z. fold s1.
    apply kcall_bt_run; [exact Hn1| |]; rewrite P1.
    + intros i c' Hc'. destruct (at_map_inv z' s s1 i c' Hc1 Hc') as (c & Hc & ->). rewrite (HC i c Hc). discriminate.
    + apply HP. eapply opt_fin with (F := fun c => run1 _ (z' c)).
      * cbn. rewrite Hc1, map_map. reflexivity.
      * unfold s1; destruct (s_first s); reflexivity.
      * intros _. unfold s1; destruct (s_first s); cbn; apply T3; congruence.
      * congruence.
      * unfold algo_of; rewrite Et. intros p Hp. inversion Hp. cbn. ring.
      * unfold algo_of; rewrite Et. discriminate.
      * intros i c Hc. cbv zeta. rewrite (run1_eq _ _ _ (HC i c Hc)). unfold algo_of; rewrite Et. unfold z', z. destruct (s_first s); repeat split.
  - (* Nadam *) destruct Hok as (H1 & H2 & He). 
    set (z := fun c => upB (upA c 0) 0).
    set (s1 := if s_first s then with_bt (cmap z (with_first s false)) 1 1 else with_first s false).
    set (s2 := if s_first s then with_gamma s1 0 else s1).
    assert (P1 : s_b1t s2 = o_b1 o ^ length gs /\ s_b2t s2 = o_b2 o ^ length gs).
    { unfold s2, s1. destruct (s_first s) eqn:Ef; [rewrite (Hl eq_refl); cbn; auto|].
      destruct (T5 (Hnf eq_refl)) as (Q1 & Q2 & _). unfold algo_of in Q1, Q2; rewrite Et in Q1, Q2. cbn. split; [apply Q1|apply Q2]; reflexivity. }
    destruct P1 as [P1 P2].
    assert (PG : s_gamma s2 = 0) by (unfold s2, s1; destruct (s_first s) eqn:Ef; cbn; [reflexivity|apply T4; [apply Hnf; reflexivity|reflexivity]]).
    set (z' := if s_first s then z else (fun c => c)).
    assert (Hc1 : s_cells s2 = map z' (s_cells s)) by (unfold s2, s1, z'; destruct (s_first s); cbn; [reflexivity|symmetry; apply map_id]).
    assert (Hn1 : nonempty s2) by (unfold nonempty; rewrite Hc1, map_length; exact Hn).
    assert (HC : forall i c, at_ s i c -> f_rnadam (o_b1 o ^ length gs * o_b1 o) (o_b2 o ^ length gs * o_b2 o) lr (o_b1 o) (o_b2 o) (0) (o_eps o) (z' c) =
        Some (upD (upB (upA (z' c) (accA (algo_of o gamma) (hist i gs ++ [nth i g 0]))) (accB (algo_of o gamma) (hist i gs ++ [nth i g 0])))
          (update (algo_of o gamma) lr (hist i gs ++ [nth i g 0])))).
    { intros i c Hc. assert (HDz : cD (z' c) = nth i g 0) by (unfold z', z; destruct (s_first s); apply (HD i c Hc)).
      rewrite <- HDz. rewrite <- (hist_len i gs). unfold algo_of; rewrite Et. rewrite rnadam_cell; try assumption.
      - destruct (Req_EM_T (0) 0); [reflexivity|contradiction].
      - intros Hne. unfold z', z. destruct (s_first s) eqn:Ef; [rewrite (Hh eq_refl) in Hne; congruence|].
        destruct (T5 (Hnf eq_refl)) as (_ & _ & HT). unfold algo_of in HT; rewrite Et in HT. apply (HT i c Hc). reflexivity.
      - intros Hne. unfold z', z. destruct (s_first s) eqn:Ef; [rewrite (Hh eq_refl) in Hne; congruence|].
        destruct (T5 (Hnf eq_refl)) as (_ & _ & HT). unfold algo_of in HT; rewrite Et in HT. apply (HT i c Hc). reflexivity. }
    fold z. fold s1. fold s2. rewrite PG.
    apply kcall_bt_run; [exact Hn1| |]; rewrite P1, P2.
    + intros i c' Hc'. destruct (at_map_inv z' s s2 i c' Hc1 Hc') as (c & Hc & ->). rewrite (HC i c Hc). discriminate.
    + apply HP. eapply opt_fin with (F := fun c => run1 _ (z' c)).
      * cbn. rewrite Hc1, map_map. reflexivity.
      * unfold s2, s1; destruct (s_first s); reflexivity.
      * congruence.
      * intros _. exact PG.
      * unfold algo_of; rewrite Et. intros p Hp. inversion Hp. cbn. ring.
      * unfold algo_of; rewrite Et. intros p Hp. inversion Hp. cbn. ring.
      * intros i c Hc. cbv zeta. rewrite (run1_eq _ _ _ (HC i c Hc)). unfold z', z. destruct (s_first s); repeat split.
  - (* Radam *) destruct Hok as (H1 & H2 & Hg & He). 
    set (z := fun c => upB (upA c 0) 0).
    set (s1 := if s_first s then with_bt (cmap z (with_first s false)) 1 1 else with_first s false).
    set (s2 := if s_first s then s1 else s1).
    assert (P1 : s_b1t s2 = o_b1 o ^ length gs /\ s_b2t s2 = o_b2 o ^ length gs).
    { unfold s2, s1. destruct (s_first s) eqn:Ef; [rewrite (Hl eq_refl); cbn; auto|].
      destruct (T5 (Hnf eq_refl)) as (Q1 & Q2 & _). unfold algo_of in Q1, Q2; rewrite Et in Q1, Q2. cbn. split; [apply Q1|apply Q2]; reflexivity. }
    destruct P1 as [P1 P2].
    assert (PG : s_gamma s2 = gamma) by (unfold s2, s1; destruct (s_first s) eqn:Ef; cbn; [apply T3; congruence|apply T3; congruence]).
    set (z' := if s_first s then z else (fun c => c)).
    assert (Hc1 : s_cells s2 = map z' (s_cells s)) by (unfold s2, s1, z'; destruct (s_first s); cbn; [reflexivity|symmetry; apply map_id]).
    assert (Hn1 : nonempty s2) by (unfold nonempty; rewrite Hc1, map_length; exact Hn).
    assert (HC : forall i c, at_ s i c -> f_rnadam (o_b1 o ^ length gs * o_b1 o) (o_b2 o ^ length gs * o_b2 o) lr (o_b1 o) (o_b2 o) (gamma) (o_eps o) (z' c) =
        Some (upD (upB (upA (z' c) (accA (algo_of o gamma) (hist i gs ++ [nth i g 0]))) (accB (algo_of o gamma) (hist i gs ++ [nth i g 0])))
          (update (algo_of o gamma) lr (hist i gs ++ [nth i g 0])))).
    { intros i c Hc. assert (HDz : cD (z' c) = nth i g 0) by (unfold z', z; destruct (s_first s); apply (HD i c Hc)).
      rewrite <- HDz. rewrite <- (hist_len i gs). unfold algo_of; rewrite Et. rewrite rnadam_cell; try assumption.
      - destruct (Req_EM_T (gamma) 0); [lra|reflexivity].
      - intros Hne. unfold z', z. destruct (s_first s) eqn:Ef; [rewrite (Hh eq_refl) in Hne; congruence|].
        destruct (T5 (Hnf eq_refl)) as (_ & _ & HT). unfold algo_of in HT; rewrite Et in HT. apply (HT i c Hc). reflexivity.
      - intros Hne. unfold z', z. destruct (s_first s) eqn:Ef; [rewrite (Hh eq_refl) in Hne; congruence|].
        destruct (T5 (Hnf eq_refl)) as (_ & _ & HT). unfold algo_of in HT; rewrite Et in HT. apply (HT i c Hc). reflexivity. }
    fold z. fold s1. fold s2. rewrite PG.
    apply kcall_bt_run; [exact Hn1| |]; rewrite P1, P2.
    + intros i c' Hc'. destruct (at_map_inv z' s s2 i c' Hc1 Hc') as (c & Hc & ->). rewrite (HC i c Hc). discriminate.
    + apply HP. eapply opt_fin with (F := fun c => run1 _ (z' c)).
      * cbn. rewrite Hc1, map_map. reflexivity.
      * unfold s2, s1; destruct (s_first s); reflexivity.
      * intros _. exact PG.
      * congruence.
      * unfold algo_of; rewrite Et. intros p Hp. inversion Hp. cbn. ring.
      * unfold algo_of; rewrite Et. intros p Hp. inversion Hp. cbn. ring.
      * intros i c Hc. cbv zeta. rewrite (run1_eq _ _ _ (HC i c Hc)). unfold z', z. destruct (s_first s); repeat split.
Qed.
