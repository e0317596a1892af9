(** Normalisation of all values together: the passes. *)
From Coq Require Import Reals Lra Permutation.
From Verif Require Import Base BaseLemmas Act_Spec TData_Model TData_Spec Nrm_Model Nrm_Spec Nrm_Proofs Nrm_Proofs4 Tf_Model Tf_Spec Tf_Proofs Tf_Proofs2.
Local Open Scope R_scope.
Notation ca := Tf_Proofs.ca. Notation cb := Tf_Proofs.cb.

Notation drifts := tdrifts.

Section W.
Context (p : nset) (V : list R).
Definition aff a b : list R := map (fun v => a * v + b) V.
Notation final s := (aff (sc s) (ofs s)).
Notation wl := (wloop p V).

Lemma vals_aff n : vals V n = aff (ca n 0%nat) (cb n 0%nat). Proof. reflexivity. Qed.
Lemma eff_whole a : eff (whole_stat p a) = eff (pass_stat p a).
Proof. unfold eff, whole_stat, pass_stat. cbn [bsc bofs sc ofs]. destruct (do_central p a); reflexivity. Qed.

(** ** Whatever the values *)
Definition GI (n : nprm) (s : scd) : Prop := wfs s /\
  match n with NNone => s = scd0 | NWhole o => sc o = sc s /\ bsc o = bsc s /\ bofs o = bofs s | NCols _ => False end.
Lemma GI_coef n s : GI n s -> ca n 0%nat = sc s /\ (bofs s = false -> cb n 0%nat = 0).
Proof.
  intros [Hw H]. unfold ca, cb, coef. destruct n as [|o|]; [subst s; cbn; split; reflexivity| |contradiction]. destruct H as (H1 & H2 & H3). unfold eff. cbn [fst snd].
  rewrite H2, H3, H1. split; [|intros ->; reflexivity]. destruct (bsc s) eqn:E; [reflexivity|]. symmetry. apply Hw. exact E.
Qed.
Lemma GI_step n s a : GI n s -> GI (compose n (whole_stat p a)) (upd_stat p a s).
Proof.
  intros [Hw H]. split; [apply upd_ok; exact Hw|]. destruct n as [|o|]; [|destruct H as (H1 & H2 & H3)|contradiction]; cbn [compose].
  - subst s. unfold whole_stat, upd_stat, upd_scale, upd_ofs, factor. cbn [sc bsc bofs ofs].
    destruct (do_scale p a), (do_central p a); cbn [sc bsc bofs ofs scd0]; repeat split; destruct (get_scale (n_adj p) a); ring.
  - unfold upd_all, whole_stat, upd_stat, upd_scale, upd_ofs. cbn [bsc bofs sc ofs].
    destruct (do_scale p a), (do_central p a); cbn [sc bsc bofs ofs]; rewrite ?H1, ?H2, ?H3; repeat split; reflexivity.
Qed.
Lemma GI_loop k : forall n s r n' s', GI n s -> wl k n s = (r, n', s') ->
  GI n' s' /\ (n_dos p = false -> sc s' = sc s) /\ (n_doc p = false -> bofs s' = bofs s) /\ (0 < n_scale p -> 0 < sc s -> 0 < sc s').
Proof.
  induction k as [|k IH]; intros n s r n' s' H E; cbn [wloop] in E.
  - injection E as <- <- <-. auto.
  - cbv zeta in E. set (a := seen _) in *. destruct (_ && _); [injection E as <- <- <-; auto|]. destruct (settled p a); [injection E as <- <- <-; auto|].
    destruct (IH _ _ _ _ _ (GI_step n s a H) E) as (A1 & A2 & A3 & A4). split; [exact A1|].
    destruct (upd_ok p a s (proj1 H)) as (_ & U2 & _). rewrite U2 in A2, A4.
    split; [intros Q; rewrite (A2 Q), (eff_dos p a Q); ring|]. split.
    + intros Q. rewrite (A3 Q). unfold upd_stat. replace (do_central p a) with false by (unfold do_central; rewrite Q, andb_false_r; reflexivity).
      destruct (do_scale p a); reflexivity.
    + intros Q1 Q2. apply A4; [exact Q1|]. apply Rmult_lt_0_compat; [apply eff_pos; exact Q1|exact Q2].
Qed.
Lemma GI0 : GI NNone scd0. Proof. split; [apply wfs0|reflexivity]. Qed.
Lemma clean_loop k : forall n s r n' s', GI n s -> wl k n s = (r, n', s') -> dirty s' = false -> n' = n /\ s' = s.
Proof.
  induction k as [|k IH]; intros n s r n' s' H E Hd; cbn [wloop] in E.
  - injection E as <- <- <-. auto.
  - cbv zeta in E. set (a := seen _) in *. destruct (_ && _); [injection E as <- <- <-; auto|]. destruct (settled p a) eqn:Es; [injection E as <- <- <-; auto|].
    exfalso. destruct (IH _ _ _ _ _ (GI_step n s a H) E Hd) as [_ ->]. destruct (upd_ok p a s (proj1 H)) as (_ & _ & _ & U4 & _). rewrite U4, Es, orb_true_r in Hd. discriminate.
Qed.

(** ** Enough values *)
Context (HE : enough p V) (HF : fine p).
Notation m := (mean V). Notation d := (dev (n_adj p) V). Notation T := (n_central p).
Lemma V_nil : V <> []. Proof. exact (enough_nil p V HE). Qed.
Lemma aff_enough a b : enough p (aff a b). Proof. apply enough_map. exact HE. Qed.
Lemma aff_mean a b : mean (aff a b) = a * m + b. Proof. apply mean_affine. exact V_nil. Qed.
Lemma aff_dev a b : 0 < a -> dev (n_adj p) (aff a b) = a * d. Proof. intros H. apply dev_affine; [exact V_nil|exact H]. Qed.
Lemma aff_id : aff 1 0 = V.
Proof. unfold aff. rewrite <- (map_id V) at 2. apply map_ext. intros v. ring. Qed.
Lemma aff_aff a b c e : map (fun v => a * v + b) (aff c e) = aff (a * c) (a * e + b).
Proof. unfold aff. rewrite map_map. apply map_ext. intros v. ring. Qed.
Lemma nobad n : bad_stats p (seen (vals V n)) = false. Proof. apply good_stats. apply aff_enough. Qed.
Lemma met_aff a b : 0 < a -> met p (aff a b) <->
  (n_dos p = true -> a * d = 0 \/ Rabs (a * d - n_scale p) < n_stol p) /\ (n_doc p = true -> Rabs (a * m + b - T) < n_ctol p).
Proof. intros H. unfold met. rewrite aff_mean, aff_dev by exact H. tauto. Qed.
Lemma wl_S k n s : wl (S k) n s = if settled p (seen (vals V n)) then (true, n, s) else wl k (compose n (whole_stat p (seen (vals V n)))) (upd_stat p (seen (vals V n)) s).
Proof. cbn [wloop]. rewrite nobad. reflexivity. Qed.
Lemma wl_met k n s : met p (vals V n) -> wl (S k) n s = (true, n, s).
Proof. intros H. rewrite wl_S. replace (settled p (seen (vals V n))) with true; [reflexivity|]. symmetry. apply (settled_iff p _ (aff_enough _ _)). exact H. Qed.
Lemma wl_not k n s : ~ met p (vals V n) -> wl (S k) n s = wl k (compose n (whole_stat p (seen (vals V n)))) (upd_stat p (seen (vals V n)) s).
Proof. intros H. rewrite wl_S. destruct (settled p _) eqn:E; [|reflexivity]. exfalso. apply H. apply (settled_iff p _ (aff_enough _ _)). exact E. Qed.
Lemma vals0 : vals V NNone = V. Proof. rewrite vals_aff. unfold ca, cb. cbn. apply aff_id. Qed.

(** a pass that only centres *)
Lemma centre_only a b : 0 < a -> (n_dos p = true -> a * d = 0 \/ Rabs (a * d - n_scale p) < n_stol p) -> n_doc p = true -> ~ Rabs (a * m + b - T) < n_ctol p ->
  do_scale p (seen (aff a b)) = false /\ do_central p (seen (aff a b)) = true /\ factor p (seen (aff a b)) = 1 /\ shift p (seen (aff a b)) = T - (a * m + b).
Proof.
  intros Ha Hs Hd Hm. assert (E1 : do_scale p (seen (aff a b)) = false).
  { destruct (do_scale p (seen (aff a b))) eqn:E; [|reflexivity]. apply (do_scale_iff p _ (aff_enough a b)) in E. rewrite aff_dev in E by exact Ha.
    destruct E as (X1 & X2 & X3). destruct (Hs X1); contradiction. }
  assert (E2 : do_central p (seen (aff a b)) = true) by (apply (do_central_iff p _ (aff_enough a b)); rewrite aff_mean; auto).
  assert (E3 : factor p (seen (aff a b)) = 1) by (unfold factor; rewrite E1; destruct (get_scale _ _); reflexivity).
  do 3 (split; [assumption|]). unfold shift. rewrite central_ok by (apply (enough_nil p), aff_enough). rewrite E3, aff_mean. ring.
Qed.

Theorem wloop_main k : (met p V -> wl (S k) NNone scd0 = (true, NNone, scd0)) /\
  (~ met p V -> forall r n' s', wl (S k) NNone scd0 = (r, n', s') ->
     (r = true -> dirty s' = true /\ (met p (final s') <-> ~ drifts p V)) /\ (k = 0%nat -> r = false) /\
     (((if n_dos p && n_doc p then (if Req_EM_T T 0 then 2 else 3) else 1) <= k)%nat -> r = true) /\ (r = false -> ~ (ca n' 0%nat = 1 /\ cb n' 0%nat = 0))).
Proof.
  destruct HF as (Hs & Hst & Hct). split; [intros H; apply wl_met; rewrite vals0; exact H|]. intros Hn r n' s' E.
  rewrite wl_not in E by (rewrite vals0; exact Hn). rewrite vals0 in E. cbn [compose] in E.
  set (a := seen V) in *. set (n1 := NWhole (whole_stat p a)) in *. set (s1 := upd_stat p a scd0) in *.
  pose proof (upd_ok p a scd0 wfs0) as (U1 & U2 & U3 & U4 & _). fold s1 in U1, U2, U3, U4. cbn [sc ofs scd0] in U2, U3. rewrite Rmult_1_r in U2. rewrite Rmult_0_r, Rplus_0_l in U3.
  assert (D1 : dirty s1 = true). { rewrite U4. destruct (settled p a) eqn:X; [|reflexivity]. exfalso. apply Hn. apply (settled_iff p V HE). exact X. }
  assert (V1 : vals V n1 = final s1). { rewrite vals_aff. unfold ca, cb, n1, coef. rewrite eff_whole, U2, U3. reflexivity. }
  assert (V1' : vals V n1 = map (one_pass p V) V). { rewrite V1, map_pass. fold a. rewrite <- U2, <- U3. reflexivity. }
  destruct k as [|k].
  { cbn [wloop] in E. injection E as <- <- <-. split; [discriminate|]. split; [reflexivity|]. split; [destruct (n_dos p && n_doc p); [destruct (Req_EM_T T 0); lia|lia]|].
    intros _ [X1 X2]. assert (R1 : (0 < rank p V)%nat). { destruct (rank p V) eqn:X; [|lia]. exfalso. apply Hn. apply (settled_iff p V HE). apply rank0. exact X. }
    pose proof (rank_pass p V HE Hs Hst Hct R1) as R2. rewrite <- V1', vals_aff, X1, X2, aff_id in R2. lia. }
  pose proof (do_scale_iff p V HE) as S0. pose proof (do_central_iff p V HE) as C0. fold a in S0, C0.
  assert (Hpos : 0 < sc s1) by (rewrite U2; apply eff_pos; exact Hs).
  (* everything settled after the first pass *)
  assert (Quick : met p (vals V n1) -> ~ drifts p V -> (r = true -> dirty s' = true /\ (met p (final s') <-> ~ drifts p V)) /\ (S k = 0%nat -> r = false) /\
     (((if n_dos p && n_doc p then (if Req_EM_T T 0 then 2 else 3) else 1) <= S k)%nat -> r = true) /\ (r = false -> ~ (ca n' 0%nat = 1 /\ cb n' 0%nat = 0))).
  { intros M ND. rewrite wl_met in E by exact M. injection E as <- <- <-. split; [|split; [discriminate|split; [reflexivity|discriminate]]]. intros _. split; [exact D1|]. rewrite <- V1. tauto. }
  destruct (do_scale p a) eqn:Es; [destruct (n_doc p) eqn:Ed|].
  2:{ (* no centring asked for *)
      apply Quick; [|unfold tdrifts; intros (_ & X & _); rewrite Ed in X; discriminate]. rewrite V1'. apply (settled_iff p _ (enough_map p (one_pass p V) V HE)). apply rank0.
      assert (rank p V = 1)%nat as R1 by (unfold rank; fold a; rewrite Es, Ed; destruct (settled p a) eqn:X; [exfalso; apply Hn; apply (settled_iff p V HE); exact X|reflexivity]).
      pose proof (rank_pass p V HE Hs Hst Hct ltac:(lia)). lia. }
  2:{ (* no scaling *)
      apply Quick; [|unfold tdrifts; intros (X1 & _ & X2 & X3 & _); assert (false = true) by (apply S0; auto); discriminate].
      rewrite V1'. apply (settled_iff p _ (enough_map p (one_pass p V) V HE)). apply rank0.
      assert (rank p V = 1)%nat as R1 by (unfold rank; fold a; rewrite Es; destruct (settled p a) eqn:X; [exfalso; apply Hn; apply (settled_iff p V HE); exact X|reflexivity]).
      pose proof (rank_pass p V HE Hs Hst Hct ltac:(lia)). lia. }
  destruct (proj1 S0 eq_refl) as (Hdos & Hd0 & Hdt). rewrite Hdos in *. cbn [andb] in *.
  set (f := n_scale p / d) in *.
  assert (Ef : factor p a = f) by (unfold factor, a; rewrite scale_ok by exact HE; fold a; rewrite Es; reflexivity).
  assert (Efd : f * d = n_scale p) by (unfold f; field; exact Hd0).
  assert (Esc : sc s1 = f) by (rewrite U2; unfold eff, pass_stat; cbn [bsc sc fst]; rewrite Es; exact Ef).
  assert (Hdev : f * d = 0 \/ Rabs (f * d - n_scale p) < n_stol p) by (right; rewrite Efd, Rminus_diag_eq, Rabs_R0 by reflexivity; exact Hst).
  assert (Hf : 0 < f) by (rewrite <- Esc; exact Hpos).
  assert (Hf1 : f <> 1). { intros X. apply Hdt. rewrite <- Efd, X, Rmult_1_l, Rminus_diag_eq, Rabs_R0 by reflexivity. exact Hst. }
  destruct (do_central p a) eqn:Ec.
  { (* scaled and centred at once *)
    destruct (proj1 C0 eq_refl) as (_ & Hm). assert (ND : ~ drifts p V) by (unfold tdrifts; tauto).
    assert (Eo : ofs s1 = (T - m) * f).
    { rewrite U3. unfold eff, pass_stat. cbn [bofs ofs snd]. rewrite Ec. unfold shift, a. rewrite central_ok by exact V_nil. fold a. rewrite Ef. reflexivity. }
    destruct (Rlt_dec (Rabs (f * m + (T - m) * f - T)) (n_ctol p)) as [Hn1|Hn1].
    { apply Quick; [|exact ND]. rewrite V1. apply met_aff; [exact Hpos|]. rewrite Esc, Eo. auto. }
    destruct (centre_only f ((T - m) * f) Hf ltac:(auto) Ed Hn1) as (K1 & K2 & K3 & K4).
    assert (VV : vals V n1 = aff f ((T - m) * f)) by (rewrite V1, Esc, Eo; reflexivity).
    rewrite wl_not in E by (rewrite VV, met_aff by exact Hf; intros [_ X]; exact (Hn1 (X Ed))). rewrite VV in E.
    set (b := seen (aff f ((T - m) * f))) in *. unfold n1 in E. cbn [compose] in E.
    assert (En2 : upd_all (whole_stat p a) (whole_stat p b) = mkSC f ((T - m) * f + (T - (f * m + (T - m) * f))) true true).
    { unfold upd_all, whole_stat. cbn [bsc bofs sc ofs]. rewrite K1, K2, Ec, Es. unfold upd_ofs. cbn [sc ofs bsc bofs]. rewrite Ef, K4. f_equal.
      f_equal. unfold shift, a. rewrite central_ok by exact V_nil. fold a. rewrite Ef. reflexivity. }
    assert (Es2 : upd_stat p b s1 = mkSC f ((T - m) * f + (T - (f * m + (T - m) * f))) (bsc s1) true).
    { unfold upd_stat. rewrite K1, K2, K4. unfold upd_ofs. rewrite Esc, Eo. reflexivity. }
    rewrite En2, Es2 in E.
    assert (M2 : met p (aff f ((T - m) * f + (T - (f * m + (T - m) * f))))).
    { apply met_aff; [exact Hf|]. split; [auto|]. intros _. replace (_ - T) with 0 by ring. rewrite Rabs_R0. exact Hct. }
    destruct k as [|k].
    { cbn [wloop] in E. injection E as <- <- <-. split; [discriminate|]. split; [reflexivity|]. split; [destruct (Req_EM_T T 0); lia|]. intros _ [X _]. exact (Hf1 X). }
    rewrite wl_met in E by exact M2. injection E as <- <- <-. split; [|split; [discriminate|split; [reflexivity|discriminate]]]. intros _. split; [apply orb_true_r|].
    cbn [sc ofs]. tauto. }
  (* scaled only *)
  assert (Hmn : Rabs (m - T) < n_ctol p).
  { destruct (Rlt_dec (Rabs (m - T)) (n_ctol p)) as [X|X]; [exact X|]. assert (false = true) by (apply C0; auto). discriminate. }
  assert (En1 : whole_stat p a = mkSC f m true false) by (unfold whole_stat; rewrite Es, Ec, Ef; f_equal; unfold a; rewrite central_ok by exact V_nil; reflexivity).
  assert (Eo : ofs s1 = 0) by (rewrite U3; unfold eff, pass_stat; cbn [bofs snd]; rewrite Ec; reflexivity).
  destruct (Rlt_dec (Rabs (f * m + 0 - T)) (n_ctol p)) as [Hn1|Hn1].
  { apply Quick; [|unfold tdrifts; fold f; rewrite Rplus_0_r in Hn1; tauto]. rewrite V1. apply met_aff; [exact Hpos|]. rewrite Esc, Eo. auto. }
  destruct (centre_only f 0 Hf ltac:(auto) Ed Hn1) as (K1 & K2 & K3 & K4).
  assert (VV : vals V n1 = aff f 0) by (rewrite V1, Esc, Eo; reflexivity).
  rewrite wl_not in E by (rewrite VV, met_aff by exact Hf; intros [_ X]; exact (Hn1 (X Ed))). rewrite VV in E.
  set (b := seen (aff f 0)) in *. unfold n1 in E. cbn [compose] in E. rewrite En1 in E.
  assert (En2 : upd_all (mkSC f m true false) (whole_stat p b) = mkSC f (m + (T - (f * m + 0))) true true).
  { unfold upd_all, whole_stat. cbn [bsc bofs sc ofs]. rewrite K1, K2, K4. reflexivity. }
  assert (Es2 : upd_stat p b s1 = mkSC f (0 + (T - (f * m + 0))) (bsc s1) true).
  { unfold upd_stat. rewrite K1, K2, K4. unfold upd_ofs. rewrite Esc, Eo. reflexivity. }
  rewrite En2, Es2 in E. set (g := m + (T - (f * m + 0))) in *.
  destruct k as [|k].
  { cbn [wloop] in E. injection E as <- <- <-. split; [discriminate|]. split; [reflexivity|]. split; [destruct (Req_EM_T T 0); lia|]. intros _ [X _]. exact (Hf1 X). }
  assert (Eg : f * m + g - T = m) by (unfold g; ring).
  destruct (Rlt_dec (Rabs m) (n_ctol p)) as [Hm0|Hm0].
  { rewrite wl_met in E by (change (vals V (NWhole (mkSC f g true true))) with (aff f g); apply met_aff; [exact Hf|]; split; [auto|]; intros _; rewrite Eg; exact Hm0).
    injection E as <- <- <-. split; [|split; [discriminate|split; [reflexivity|discriminate]]]. intros _. split; [apply orb_true_r|]. cbn [sc ofs].
    assert (ND : ~ drifts p V) by (unfold tdrifts; tauto). assert (M : met p (aff f (0 + (T - (f * m + 0))))); [|tauto].
    apply met_aff; [exact Hf|]. split; [auto|]. intros _. replace (_ - T) with 0 by ring. rewrite Rabs_R0. exact Hct. }
  assert (Hn2 : ~ Rabs (f * m + g - T) < n_ctol p) by (rewrite Eg; exact Hm0).
  destruct (centre_only f g Hf ltac:(auto) Ed Hn2) as (J1 & J2 & J3 & J4).
  assert (VV2 : vals V (NWhole (mkSC f g true true)) = aff f g) by reflexivity.
  rewrite wl_not in E by (rewrite VV2, met_aff by exact Hf; intros [_ X]; exact (Hn2 (X Ed))). rewrite VV2 in E.
  set (c := seen (aff f g)) in *. cbn [compose] in E.
  assert (En3 : upd_all (mkSC f g true true) (whole_stat p c) = mkSC f (g + (T - (f * m + g))) true true).
  { unfold upd_all, whole_stat. cbn [bsc bofs sc ofs]. rewrite J1, J2, J4. reflexivity. }
  assert (Es3 : upd_stat p c (mkSC f (0 + (T - (f * m + 0))) (bsc s1) true) = mkSC f (0 + (T - (f * m + 0)) + (T - (f * m + g))) (bsc s1) true).
  { unfold upd_stat. rewrite J1, J2, J4. reflexivity. }
  rewrite En3, Es3 in E.
  destruct k as [|k].
  { cbn [wloop] in E. injection E as <- <- <-. split; [discriminate|]. split; [reflexivity|]. split; [|intros _ [X _]; exact (Hf1 X)]. destruct (Req_EM_T T 0) as [Z|]; [|lia].
    exfalso. apply Hm0. rewrite Z, Rminus_0_r in Hmn. exact Hmn. }
  rewrite wl_met in E by (change (vals V (NWhole (mkSC f (g + (T - (f * m + g))) true true))) with (aff f (g + (T - (f * m + g)))); apply met_aff; [exact Hf|]; split; [auto|]; intros _; replace (_ - T) with 0 by ring; rewrite Rabs_R0; exact Hct).
  injection E as <- <- <-. split; [|split; [discriminate|split; [reflexivity|discriminate]]]. intros _. split; [apply orb_true_r|]. cbn [sc ofs]. split.
  - rewrite met_aff by exact Hf. intros [_ X] _. specialize (X Ed). apply Hm0. replace (f * m + (0 + (T - (f * m + 0)) + (T - (f * m + g))) - T) with (- m) in X by (unfold g; ring).
    rewrite Rabs_Ropp in X. exact X.
  - intros ND. exfalso. apply ND. unfold tdrifts. fold f. rewrite Rplus_0_r in Hn1. tauto.
Qed.
End W.
