(** All layers; the run. *)
From Coq Require Import Reals Lra Permutation.
From Verif Require Import Base BaseLemmas Act_Model Act_Spec Act_Proofs Loss_Proofs Smx_Model Smx_Spec Kern_Model Kern_Spec
  TData_Model TData_Spec TData_Proofs TData_Proofs2 TData_Proofs3 TData_Proofs4 TData_Proofs5
  Net_Model Net_Spec Net_Proofs Net_Proofs2 Net_Proofs3 Net_Proofs4 Net_Proofs5 Nrm_Model Nrm_Spec Nrm_Proofs Nrm_Proofs2 Nrm_Proofs3 Nrm_Proofs4 Nrm_Proofs5 Nrm_Proofs7
  Fit_Model Fit_Spec Fit_Proofs Fit_Proofs2 Lsu_Model Lsu_Spec Lsu_Proofs Lsu_Proofs2 Lsu_Proofs3 Lsu_Proofs4 Lsu_Proofs5.
Local Open Scope nat_scope.

(** ** The order of the layers *)
Lemma visited_ids x : visited x = map Some (nids x) ++ [None].
Proof. unfold visited, nids. rewrite map_map. reflexivity. Qed.
Lemma visited_names x : map u_q (nunits x) = visited x.
Proof.
  unfold nunits, visited, nfcl. rewrite map_app. f_equal. destruct (n_hid x) as [s|]; [|reflexivity]. rewrite (proj1 (proj2 units_fcl)), map_map. reflexivity.
Qed.
Lemma visited_put q u x : visited (put_w q u x) = visited x.
Proof. rewrite !visited_ids. unfold put_w. destruct q; rewrite nids_reweight; reflexivity. Qed.
Lemma layer_visited q x : In q (visited x) -> exists F, layer_of q x = Some F.
Proof.
  rewrite visited_ids. intros H. apply in_app_or in H. destruct H as [H|[<-|[]]]; [|eexists; reflexivity]. apply in_map_iff in H. destruct H as (id & <- & H).
  unfold nids in H. apply in_map_iff in H. destruct H as (F & E & H). cbn [layer_of]. destruct (find (fun f => f_id f =? id) (nfcl x)) as [F'|] eqn:Q; [eauto|].
  pose proof (find_none _ _ Q F H) as K. cbn in K. apply Nat.eqb_neq in K. contradiction.
Qed.
Lemma unit_layer x u : NoDup (nids x) -> In u (nunits x) -> exists F, layer_of (u_q u) x = Some F /\ u = unit_q (u_q u) F (f_W F).
Proof.
  intros HN H. unfold nunits in H. apply in_app_or in H. destruct H as [H|[<-|[]]].
  - unfold nids, nfcl in HN. cbn. destruct (n_hid x) as [s|] eqn:Eh; [|destruct H]. rewrite (proj1 (proj2 units_fcl)) in H. apply in_map_iff in H. destruct H as (F & <- & H).
    exists F. split; [|reflexivity]. cbn [unit_of u_q layer_of]. unfold nfcl. rewrite Eh. apply find_id_in; [exact HN|exact H|reflexivity].
  - eexists. split; reflexivity.
Qed.
Lemma layer_unit x q F : layer_of q x = Some F -> In (unit_q q F (f_W F)) (nunits x).
Proof.
  intros H. apply layer_of_in in H. unfold nunits. apply in_or_app. destruct q as [id|]; [|subst F; right; left; reflexivity]. left. destruct H as [<- H]. unfold nfcl in H.
  destruct (n_hid x) as [s|]; [|destruct H]. rewrite (proj1 (proj2 units_fcl)). change (unit_q (Some (f_id F)) F (f_W F)) with (unit_of F). apply in_map, H.
Qed.
Lemma before_incl id L j : In j (before id L) -> In j L.
Proof. induction L as [|k L IH]; [auto|]. cbn [before]. destruct (k =? id); [intros []|]. intros [Q|Q]; [left; exact Q|right; auto]. Qed.
Lemma late_order x q r d1 d2 : NoDup (nids x) -> visited x = d1 ++ r :: d2 -> In q d1 -> late q r x /\ q <> r.
Proof.
  intros HN HV HQ. rewrite visited_ids in HV. destruct (exists_last (l := r :: d2)) as (l & z & El); [discriminate|]. rewrite El, app_assoc in HV.
  apply app_inj_tail in HV. destruct HV as [HV <-].
  assert (HND : NoDup (d1 ++ l)). { rewrite <- HV. apply FinFun.Injective_map_NoDup; [intros a b Q; congruence|exact HN]. }
  assert (Hq : In q (map Some (nids x))) by (rewrite HV; apply in_or_app; auto). apply in_map_iff in Hq. destruct Hq as (id & <- & Hid).
  destruct r as [j|]; [|split; [exact I|discriminate]].
  destruct l as [|r' l]; [cbn in El; congruence|]. cbn [app] in El. injection El as <- _.
  assert (Hd : exists a b, nids x = a ++ j :: b /\ map Some a = d1).
  { apply map_eq_app in HV. destruct HV as (a & b & E1 & E2 & E3). destruct b as [|j' b]; [discriminate|]. cbn [map] in E3. injection E3 as -> _. eauto. }
  destruct Hd as (a & b & Ea & Ed). assert (Hia : In id a). { rewrite <- Ed in HQ. apply in_map_iff in HQ. destruct HQ as (k & Ek & Hk). congruence. }
  assert (Hj : ~ In j a). { rewrite Ea in HN. apply NoDup_remove_2 in HN. intros Q. apply HN. apply in_or_app. auto. }
  split.
  - cbn [late]. rewrite Ea, before_in by exact Hia. intros Q. apply before_incl in Q. contradiction.
  - intros Q. injection Q as ->. contradiction.
Qed.

Lemma lname_eq (a b : lname) : a = b \/ a <> b.
Proof. destruct a as [i|], b as [j|]; try (right; discriminate); [|left; reflexivity]. destruct (Nat.eq_dec i j); [left|right]; congruence. Qed.

(** ** Nothing but weights changes *)
Lemma reweight_reweight f g f' g' x : reweight f' g' (reweight f g x) = reweight (fun i W => f' i (f i W)) (fun W => g' (g W)) x.
Proof.
  apply net_eq; try reflexivity. rewrite !reweight_hid. destruct (n_hid x) as [s|]; [|reflexivity]. cbn [option_map]. f_equal.
  rewrite (proj1 (proj2 (tw_tw _ _))). reflexivity.
Qed.
Definition rew (x x' : net) : Prop := exists f g, x' = reweight f g x.
Lemma rew_refl x : rew x x.
Proof.
  exists (fun _ W => W), (fun W => W). apply net_eq; try reflexivity. rewrite reweight_hid. destruct (n_hid x) as [s|]; [|reflexivity]. cbn [option_map]. f_equal. symmetry.
  apply tw_id. reflexivity.
Qed.
Lemma rew_trans x y z : rew x y -> rew y z -> rew x z.
Proof. intros (f & g & ->) (f' & g' & ->). rewrite reweight_reweight. unfold rew. eauto. Qed.
Lemma rew_put q u x : rew x (put_w q u x).
Proof. unfold put_w. destruct q; unfold rew; eauto. Qed.

Section R.
Context (S : sets R R) (HC : coherent 1%R S) (Hb : s_bir (x0 S) = false).
Context (E : lenv) (HE : env_ok E) (cfg : lname -> lset).
Notation good := (good_net (sample_size (x0 S))).

Definition fitw (x : net) : Prop := forall q F rt, layer_of q x = Some F -> length (le_new E q rt) = length (f_W F).
Definition normd (x : net) (q : lname) : Prop := forall F, layer_of q x = Some F -> normalized S (cfg q) x (unit_q q F (f_W F)).
Definition WR (q : lname) (F : fc) (W' : list R) : Prop :=
  length W' = length (f_W F) /\ (~ lasked (cfg q) -> W' = f_W F) /\ (reachable S (cfg q) -> lasked (cfg q) -> outcome cfg q F (f_W F) W').
Definition setF (F : fc) (W : list R) : fc := mkF (f_id F) (f_act F) (f_inc F) (f_n F) W (f_A F).
Definition chg (qs : list lname) (x x' : net) : Prop :=
  forall q F, layer_of q x = Some F -> exists W', layer_of q x' = Some (setF F W') /\ (~ In q qs -> W' = f_W F) /\ WR q F W'.

Lemma setF_self F : setF F (f_W F) = F. Proof. destruct F; reflexivity. Qed.
Lemma outcome_id q F : outcome cfg q F (f_W F) (f_W F).
Proof. exists (fun _ => 1%R), (fun _ => 0%R). split; [apply rescaled_id|]. split; [intros c; do 2 (split; [reflexivity|]); lra|auto]. Qed.
Lemma WR_id q F : WR q F (f_W F).
Proof. split; [reflexivity|]. split; [reflexivity|]. intros _ _. apply outcome_id. Qed.

Lemma normalized_ext ls x x' u : (forall v, net_inputs (u_q u) x' v = net_inputs (u_q u) x v) -> normalized S ls x u -> normalized S ls x' u.
Proof.
  intros H. unfold normalized, lgroups.
  assert (EV : forall v c, values (l_pre ls) x' u v c = values (l_pre ls) x u v c) by (intros v c; unfold values; rewrite H; reflexivity).
  destruct (n_cw (l_n ls)).
  - rewrite (map_ext _ _ (fun c => flat_map_ext_in _ _ (seq 0 (llooked S ls)) (fun i _ => EV (sample (x0 S) i) c))). auto.
  - rewrite (flat_map_ext_in _ _ (seq 0 (llooked S ls)) (fun i _ => flat_map_ext_in _ _ (seq 0 (u_n u)) (fun c _ => EV (sample (x0 S) i) c))). auto.
Qed.
Lemma normd_put q r W x : NoDup (nids x) -> late q r x -> q <> r -> normd x q -> normd (setw r W x) q.
Proof.
  intros HN HL Hne H F HF. unfold setw in HF. rewrite put_w_other in HF by exact Hne. apply (normalized_ext _ x); [|apply H; exact HF].
  intros v. apply put_w_inputs; assumption.
Qed.
Lemma fitw_put r W x F : fitw x -> layer_of r x = Some F -> length W = length (f_W F) -> fitw (setw r W x).
Proof.
  intros H HF HW q F' rt HF'. destruct (lname_eq q r) as [->|Q].
  - rewrite (setw_layer r W x F HF) in HF'. injection HF' as <-. cbn [f_W]. rewrite HW. apply H, HF.
  - unfold setw in HF'. rewrite put_w_other in HF' by exact Q. apply H, HF'.
Qed.

(** of the layers in [done], asked for: *)
Definition status (x : net) (bad : option lname) (done : list lname) : Prop :=
  match bad with
  | None => forall q, In q done -> lasked (cfg q) -> normd x q
  | Some b => exists d1 d2, done = d1 ++ b :: d2 /\ lasked (cfg b) /\ forall q, In q d1 -> lasked (cfg q) -> normd x q
  end.

Lemma process_all_ok (H2 : 2 <= cnt S 0) : forall qs done bad t x, good x -> fitw x -> INV S t -> visited x = done ++ qs -> status x bad done ->
  exists bad' t' x', process_all E cfg S (cnt S 0) qs bad t x = Some (bad', t', x') /\ good x' /\ rew x x' /\ chg qs x x' /\ visited x' = visited x /\
    status x' bad' (done ++ qs) /\ ((forall q, In q qs -> lasked (cfg q) -> reachable S (cfg q)) -> bad' = bad).
Proof.
  induction qs as [|q qs IH]; intros done bad t x HG HFt HI HV HS.
  - exists bad, t, x. split; [reflexivity|]. split; [exact HG|]. split; [apply rew_refl|]. split.
    { intros q F HF. exists (f_W F). rewrite setF_self. split; [exact HF|]. split; [reflexivity|apply WR_id]. }
    split; [reflexivity|]. rewrite app_nil_r. auto.
  - destruct (layer_visited q x) as (F & HF); [rewrite HV; apply in_or_app; right; left; reflexivity|].
    destruct (process_ok S HC Hb H2 E HE cfg q x F HG HF bad t HI (fun rt => HFt q F rt HF)) as (ok & t1 & W1 & E1 & HI1 & L1 & N1 & A1 & P1 & R1).
    cbn [process_all]. rewrite E1. cbn [obind]. set (bad1 := match ok, bad with false, None => Some q | _, _ => bad end) in *.
    pose proof (setw_good _ q W1 x F HG HF L1) as HG1. pose proof (fitw_put q W1 x F HFt HF L1) as HF1.
    assert (HV1 : visited (setw q W1 x) = (done ++ [q]) ++ qs) by (unfold setw; rewrite visited_put, HV, <- app_assoc; reflexivity).
    assert (HL1 : layer_of q (setw q W1 x) = Some (setF F W1)) by (apply setw_layer; exact HF).
    assert (Hold : forall r, In r done -> normd x r -> normd (setw q W1 x) r).
    { intros r Hr. destruct (late_order x r q done qs (proj2 HG) HV Hr). apply normd_put; [apply HG|assumption|assumption]. }
    assert (HS1 : status (setw q W1 x) bad1 (done ++ [q])).
    { unfold bad1, status in *. destruct bad as [b|].
      - assert (Q : exists d1 d2, done ++ [q] = d1 ++ b :: d2 /\ lasked (cfg b) /\ forall q0, In q0 d1 -> lasked (cfg q0) -> normd (setw q W1 x) q0).
        { destruct HS as (d1 & d2 & -> & Hb1 & Hd). exists d1, (d2 ++ [q]). rewrite <- app_assoc. split; [reflexivity|]. split; [exact Hb1|]. intros r Hr Ha. apply Hold; [apply in_or_app; auto|auto]. }
        destruct ok; exact Q.
      - destruct ok.
        + intros r Hr Ha. apply in_app_or in Hr. destruct Hr as [Hr|[<-|[]]]; [apply Hold; auto|]. intros F' HF'. rewrite HL1 in HF'. injection HF' as <-. apply P1; auto.
        + exists done, []. split; [reflexivity|]. split; [auto|]. intros r Hr Ha. apply Hold; auto. }
    destruct (IH (done ++ [q]) bad1 t1 (setw q W1 x) HG1 HF1 HI1 HV1 HS1) as (bad' & t' & x' & E2 & HG2 & HR2 & HC2 & HV2 & HS2 & HB2).
    exists bad', t', x'. split; [exact E2|]. split; [exact HG2|]. split; [apply (rew_trans x (setw q W1 x)); [apply rew_put|exact HR2]|]. split; [|split; [|split]].
    + intros r F' HF'. destruct (lname_eq r q) as [->|Q].
      * rewrite HF in HF'. injection HF' as <-. destruct (HC2 q _ HL1) as (W' & J1 & J2 & J3). 
        assert (Hnq : ~ In q qs).
        { intros Q. assert (ND : NoDup (visited x)).
          { rewrite visited_ids. apply (Permutation_NoDup (Permutation_cons_append (map Some (nids x)) None)). constructor.
            - intros K. apply in_map_iff in K. destruct K as (? & ? & _). discriminate.
            - apply FinFun.Injective_map_NoDup; [intros a b K; congruence|apply HG]. }
          rewrite HV in ND. apply NoDup_remove_2 in ND. apply ND. apply in_or_app. auto. }
        specialize (J2 Hnq). cbn [setF f_W] in J2. subst W'. exists W1. split; [exact J1|]. split; [intros Q; destruct Q; left; reflexivity|].
        split; [exact L1|]. split; [exact N1|]. intros Q1 Q2. apply R1; assumption.
      * destruct (HC2 r F') as (W' & J1 & J2 & J3); [unfold setw; rewrite put_w_other by exact Q; exact HF'|]. exists W'. split; [exact J1|]. split; [|exact J3].
        intros K. apply J2. intros K'. apply K. right. exact K'.
    + rewrite HV2. unfold setw. apply visited_put.
    + rewrite <- app_assoc in HS2. exact HS2.
    + intros Q. rewrite HB2 by (intros r Hr; apply Q; right; exact Hr). unfold bad1. destruct ok; [reflexivity|].
      assert (K : false = true); [|discriminate]. apply R1. apply Q; [left; reflexivity|auto].
Qed.

Lemma history_INV t h : history 1%R S t h -> INV S t.
Proof.
  intros H. destruct h as [[fp tb]|].
  - destruct (history_J 1%R S t fp tb HC H) as (ph & HW & _). right. exists fp, tb. exact (InvW_idle 1%R _ _ _ _ _ HW).
  - left. inversion H. assumption.
Qed.
Lemma fitw_spec x : NoDup (nids x) -> weights_fit E x -> fitw x.
Proof. intros _ H q F rt HF. apply (H (unit_q q F (f_W F)) rt). apply layer_unit, HF. Qed.

Lemma lsuv_ok t h x : history 1%R S t h -> good x -> weights_fit E x ->
  exists ok ff t' x', lsuv E cfg S t x = Some (ok, ff, t', x') /\ rew x x' /\ good x' /\ chg (visited x) x x' /\ visited x' = visited x /\
    (cnt S 0 < 2 -> ok = false /\ ff = None /\ x' = x /\ t' = t) /\
    (2 <= cnt S 0 -> (ok = true <-> ff = None) /\ (forall b, is_initialized4inference S t' b = None) /\ status x' ff (visited x) /\
       ((forall q, In q (visited x) -> lasked (cfg q) -> reachable S (cfg q)) -> ok = true)).
Proof.
  intros Hh HG HW. unfold lsuv. change (trainset_samples_count S) with (cnt S 0). destruct (Nat.ltb_spec (cnt S 0) 2) as [Q|Q].
  - exists false, None, t, x. split; [reflexivity|]. split; [apply rew_refl|]. split; [exact HG|]. split.
    { intros q F HF. exists (f_W F). rewrite setF_self. split; [exact HF|]. split; [reflexivity|apply WR_id]. }
    split; [reflexivity|]. split; [auto|]. lia.
  - destruct (process_all_ok Q (visited x) [] None t x HG (fitw_spec x (proj2 HG) HW) (history_INV t h Hh) eq_refl) as (bad & t1 & x' & E1 & HG' & HR & HCh & HV & HS & HB).
    { intros q []. }
    rewrite E1. cbn [obind]. exists (match bad with None => true | Some _ => false end), bad, (deinit4all t1), x'. split; [reflexivity|]. split; [exact HR|]. split; [exact HG'|]. split; [exact HCh|].
    split; [exact HV|]. split; [lia|]. intros _. split; [destruct bad; split; congruence|]. split; [apply deinit_none|]. split; [exact HS|]. intros K. rewrite (HB K). reflexivity.
Qed.
End R.
