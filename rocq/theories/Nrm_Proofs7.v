(** The states the call may find the object in. *)
From Coq Require Import Reals Lra Permutation.
From Verif Require Import Base BaseLemmas Workers_Model Act_Spec Loss_Proofs Kern_Model Kern_Spec Kern_Proofs
  Smx_Model Smx_Spec TData_Model TData_Spec TData_Proofs TData_Proofs2 TData_Proofs3 TData_Proofs4 TData_Proofs5
  Nrm_Model Nrm_Spec Nrm_Proofs Nrm_Proofs2 Nrm_Proofs3 Nrm_Proofs4 Nrm_Proofs5 Nrm_Proofs6.
Local Open Scope nat_scope.

Section T.
Context {B : Type} (oneB : B).
Notation sets := (sets R B). Notation tds := (tds R B). Notation imath := (imath R B).
Notation Inv := (Inv 1%R oneB). Notation InvW := (InvW 1%R oneB).

(** initialised for training, or for inference only *)
Definition J (S : sets) fp tb (t : tds) ph : Prop :=
  InvW S fp tb t ph /\ (Inv S fp tb t ph \/ (tb = 0 /\ match ph with Training _ _ => False | _ => True end)).

Lemma step_refinesJ (S : sets) fp tb t ph o : coherent 1%R S -> J S fp tb t ph -> allowed S t fp tb ph o ->
  exists b t' ph', step 1%R S t o = Some (b, t') /\ spec_step 1%R oneB S fp tb ph o b ph' /\ J S fp tb t' ph'.
Proof.
  intros HC [HW [HI|[-> HP]]] Ha.
  - destruct (step_refines 1%R oneB S fp tb t ph o HC HI Ha) as (b & t' & ph' & E & Hs & HI'). exists b, t', ph'.
    split; [exact E|]. split; [exact Hs|]. split; [apply Inv_W; exact HI'|left; exact HI'].
  - destruct o.
    + destruct Ha as (_ & Q & _). lia.
    + destruct ph; [contradiction|contradiction|contradiction].
    + destruct (walk_stepW 1%R oneB S fp 0 t ph id ibs bs flag HC HW Ha) as (b & t' & ph' & E & Hs & HW' & _). exists b, t', ph'.
      split; [exact E|]. split; [exact Hs|]. split; [exact HW'|]. right. destruct Hs as [_ ->]. auto.
    + destruct (subset_stepW 1%R oneB S fp 0 t ph im bi HC HW Ha) as (b & t' & ph' & E & Hs & HW' & _). exists b, t', ph'.
      split; [exact E|]. split; [exact Hs|]. split; [exact HW'|]. right. destruct ph; try contradiction. destruct Hs as [_ ->]. auto.
Qed.
Lemma run_refinesJ (S : sets) fp tb os : coherent 1%R S -> forall t ph, J S fp tb t ph -> allowed_run 1%R oneB S fp tb t ph os ->
  exists bs t' ph', run 1%R S t os = Some (bs, t') /\ spec_run 1%R oneB S fp tb ph os bs ph' /\ J S fp tb t' ph'.
Proof.
  intros HC. induction os as [|o os IH]; intros t ph HI Ha.
  - exists [], t, ph. split; [reflexivity|]. split; [constructor|exact HI].
  - inversion Ha as [|t0 ph0 o0 os0 Hal Hnext]; subst.
    destruct (step_refinesJ S fp tb t ph o HC HI Hal) as (b & t1 & ph1 & E & Hsp & HI1).
    destruct (IH t1 ph1 HI1 (Hnext b t1 ph1 E Hsp)) as (bs & t2 & ph2 & E2 & Hsp2 & HI2).
    exists (b :: bs), t2, ph2. cbn [run]. rewrite E. cbn [obind]. rewrite E2. cbn [obind].
    split; [reflexivity|]. split; [econstructor; eassumption|exact HI2].
Qed.
Lemma J_serves (S : sets) fp tb t : coherent 1%R S -> J S fp tb t Idle -> serves oneB S t fp tb.
Proof. intros HC HJ os Ha. destruct (run_refinesJ S fp tb os HC t Idle HJ Ha) as (bs & t' & ph & E & Hs & _). eauto. Qed.

Lemma init4inf_ok mx my (S : sets) t req : coherent 1%R S ->
  exists e t', init4inference 1%R oneB mx my S t req = Some (e, want req (biggest S), t') /\
    (e = Success -> J S (want req (biggest S)) 0 t' Idle) /\ (e <> Success -> mx = None \/ my = None).
Proof.
  intros HC. destruct (biggest_ok 1%R S HC) as [EB LB]. destruct (coherent_set 1%R S 0 HC) as (_ & _ & _ & _ & _ & _ & _ & Hb0 & Hp0 & _); [lia|].
  unfold init4inference. rewrite EB. cbn [obind]. destruct (Z.ltb_spec max_vec_len (Z.of_nat (biggest S))); [lia|].
  rewrite andb_false_r, leb0. fold (want req (biggest S)). set (fp := want req (biggest S)).
  assert (Hfp : 0 < fp <= biggest S).
  { unfold fp, want. destruct (Nat.eqb_spec req 0), (Nat.ltb_spec (biggest S) req); cbn [orb]; lia. }
  set (t1 := with_sizes (deinit4all t) fp (t_tb (deinit4all t)) (t_mini (deinit4all t))).
  destruct (init_batches_ok 1%R oneB mx my S t1 (fp <? biggest S) fp 0 HC) as (ok & t' & E & H1 & H2); try reflexivity; try lia; try discriminate.
  rewrite E. cbn [obind]. exists (if ok then Success else TdInitNoMemory), t'. split; [reflexivity|]. split.
  - destruct ok; [|discriminate]. intros _. destruct (H1 eq_refl) as (bx & by_ & -> & HX & HY & _). change (t_mini t1) with false in HX, HY.
    split; [|auto]. unfold TData_Proofs4.InvW. cbn [t_fp t_tb t_mini t_bx t_by with_batches in_phase]. change (t_fp t1) with fp. change (t_tb t1) with 0. change (t_mini t1) with false.
    do 2 (split; [reflexivity|]). split; [lia|]. split; [lia|]. auto.
  - destruct ok; [congruence|]. intros _. auto.
Qed.

Lemma history_J (S : sets) t fp tb : coherent 1%R S -> history oneB S t (Some (fp, tb)) -> exists ph, J S fp tb t ph.
Proof.
  intros HC H. inversion H as [|mx my mi t00 rf rt fp' tb' t0 os obs E Ha Er|mx my t00 rf fp' t0 os obs E Ha Er]; subst.
  - destruct (init4train_spec 1%R oneB mx my mi S t00 rf rt HC) as (e & t0' & E' & HS & _). rewrite E in E'. injection E' as <- -> -> <-.
    destruct (HS eq_refl) as (_ & HI & _).
    edestruct (run_refinesJ S) with (3 := Ha) as (bs & t' & ph & E2 & _ & HJ); [exact HC|split; [apply Inv_W; exact HI|left; exact HI]|].
    rewrite Er in E2. injection E2 as <- <-. exists ph. exact HJ.
  - destruct (init4inf_ok mx my S t00 rf HC) as (e & t0' & E' & HS & _). rewrite E in E'. injection E' as <- -> <-.
    edestruct (run_refinesJ S) with (3 := Ha) as (bs & t' & ph & E2 & _ & HJ); [exact HC|exact (HS eq_refl)|].
    rewrite Er in E2. injection E2 as <- <-. exists ph. exact HJ.
Qed.

Lemma J_kept (S S' : sets) fp tb t t' ph : s_bir (x0 S) = false -> kept S S' -> J S fp tb t ph -> InvW S' fp tb t' Idle -> t_mini t' = t_mini t -> t_idx t' = t_idx t ->
  J S' fp tb t' Idle.
Proof.
  intros Hb HK [_ H] HW Em Ei. split; [exact HW|]. destruct H as [(I1 & I2 & I3 & I4 & I5 & I6 & _)|[-> _]]; [left|right; auto].
  pose proof HK as (_ & _ & _ & _ & K1 & K2 & _). destruct HW as (W1 & W2 & W3 & W4 & W5 & W6 & W7).
  assert (Et : train_cnt S' = train_cnt S) by exact K1. unfold TData_Proofs3.Inv. rewrite Et, Em, Ei in *.
  do 2 (split; [assumption|]). split; [exact I3|]. split; [exact I4|]. split; [lia|]. split; [exact I6|]. split; [exact W5|]. split; [exact W6|exact W7].
Qed.

Lemma biggest_cnt (S : sets) : biggest S = Nat.max (cnt S 0) (cnt S 1). Proof. reflexivity. Qed.
Lemma deinit_none (S : sets) (t : tds) b : is_initialized4inference S (deinit4all t) b = None.
Proof. unfold is_initialized4inference. cbn [deinit4all t_fp Nat.eqb]. rewrite orb_true_r. reflexivity. Qed.
Lemma inf_self (S : sets) fp tb t ph : coherent 1%R S -> InvW S fp tb t ph -> is_initialized4inference S t fp = Some fp /\ is_initialized4inference S t 0 = Some fp.
Proof.
  intros HC (I1 & _ & I3 & _). unfold is_initialized4inference. rewrite I1, (sets_nonempty 1%R S HC).
  cbn [Nat.eqb]. assert (E : (fp =? 0) = false) by (apply Nat.eqb_neq; lia). rewrite E, Nat.ltb_irrefl. cbn [orb andb]. split; reflexivity.
Qed.
Lemma inf_some (S : sets) (t : tds) n m : 0 < n -> is_initialized4inference S t n = Some m -> m = n.
Proof.
  unfold is_initialized4inference. destruct (Nat.eqb_spec n 0); [lia|]. intros _.
  destruct (_ || _); [discriminate|]. destruct (_ && _); [discriminate|]. congruence.
Qed.

Context (p : nset) (imw : nat -> nat -> imath) (imf : nat -> imath) (imd : imath) (ibs : nat).
Context (Hw : forall i k, im_ok (imw i k)) (Hf : forall i, im_ok (imf i)) (Hd : im_ok imd).

Lemma normalize_ok mx my mok (S : sets) t h : coherent 1%R S -> s_bir (x0 S) = false -> history oneB S t h -> fit p ibs S t h ->
  exists r S' t' a b, normalize_data oneB p imw imf ibs mx my mok imd S t = Some (r, S', t') /\ kept S S' /\
    result p (looked p (cnt S 0) (used p ibs S h)) S S' r a b /\
    (should_normalize p = true -> prepared p mx my mok S t -> converges p (looked p (cnt S 0) (used p ibs S h)) S S' r a b) /\
    (should_normalize p = true -> ~ prepared p mx my mok S t -> (r = false /\ S' = S) \/ converges p (looked p (cnt S 0) (used p ibs S h)) S S' r a b) /\
    (should_normalize p = false -> r = true /\ S' = S /\ t' = t) /\
    (forall fp tb, h = Some (fp, tb) -> should_normalize p = false \/ is_initialized4inference S t (Z.to_nat (n_bs p)) <> None -> serves oneB S' t' fp tb) /\
    (should_normalize p = true -> is_initialized4inference S t (Z.to_nat (n_bs p)) = None -> mx <> None -> my <> None -> mok = true ->
       forall b, is_initialized4inference S' t' b = None) /\
    (should_normalize p = true -> is_initialized4inference S t (Z.to_nat (n_bs p)) = None -> (Z.of_nat (Nat.max (cnt S 0) (cnt S 1)) < n_bs p)%Z -> r = false /\ S' = S).
Proof.
  intros HC Hb Hh Hfit. pose proof (coherent_xdata S 0 HC Hb ltac:(lia)) as Hx0. change (set_x S 0) with (x0 S) in Hx0.
  pose proof (coherent_xdata S 1 HC Hb ltac:(lia)) as Hx1. change (set_x S 1) with (x1 S) in Hx1.
  assert (Hsame : forall (r : bool) L, (should_normalize p = true -> r = true -> False) -> result p L S S r (fun _ => 1%R) (fun _ => 0%R)).
  { intros r L Q. split; [apply mapped_id; exact Hx0|]. split; [intros _; apply mapped_id; exact Hx1|]. split; [reflexivity|]. split; [auto|].
    split; [intros j; do 2 (split; [reflexivity|]); lra|]. intros Q1 Q2. destruct (Q Q1 Q2). }
  unfold normalize_data. destruct (should_normalize p) eqn:Es; cbn [negb].
  2: { exists true, S, t, (fun _ => 1%R), (fun _ => 0%R). split; [reflexivity|]. split; [apply kept_refl; assumption|]. split; [apply Hsame; discriminate|].
       split; [discriminate|]. split; [discriminate|]. split; [auto|]. split; [|split; discriminate].
       intros fp tb -> _. destruct (history_J S t fp tb HC Hh) as (ph & HW & HJ). apply J_serves; [exact HC|].
       apply (J_kept S S fp tb t t ph Hb (kept_refl S HC Hb) (conj HW HJ)); [exact (InvW_idle oneB _ _ _ _ _ HW)|reflexivity|reflexivity]. }
  destruct (is_init p S t) eqn:Ei; cbn [negb andb obind].
  - (* already initialised *)
    assert (Hi : is_initialized4inference S t (Z.to_nat (n_bs p)) <> None).
    { unfold is_init in Ei. destruct (is_initialized4inference S t (Z.to_nat (n_bs p))); [discriminate|discriminate Ei]. }
    destruct h as [[fp tb]|].
    2: { inversion Hh as [Hn| |]; subst. exfalso. apply Hi. apply Hn. }
    destruct (history_J S t fp tb HC Hh) as (ph & HW & HJ).
    assert (HR : ready oneB p ibs fp tb S t).
    { unfold ready. do 2 (split; [assumption|]). split; [exact (InvW_idle oneB _ _ _ _ _ HW)|].
      destruct (Z.lt_trichotomy (n_bs p) 0) as [Q|[Q|Q]].
      - unfold asked. rewrite (proj2 (Z.ltb_lt _ _) Q). split; [apply HW|]. apply (inf_self S fp tb t ph HC HW).
      - specialize (Hfit Q). unfold asked. rewrite Q. cbn [Z.ltb Z.eqb Z.compare]. exact Hfit.
      - unfold asked. rewrite (proj2 (Z.ltb_ge _ _)) by lia. rewrite (proj2 (Z.eqb_neq _ _)) by lia. split; [lia|].
        destruct (is_initialized4inference S t (Z.to_nat (n_bs p))) as [m|] eqn:Em; [|congruence]. apply inf_some in Em as Em'; [|lia]. congruence. }
    destruct (core_ok oneB p imw imf imd ibs Hw Hf Hd fp tb S t Es HR Ei) as (r & S' & t' & a & b & E & HK & HI' & Em & Ex & Hres & Hcv).
    rewrite E. cbn [obind]. exists r, S', t', a, b. split; [reflexivity|]. split; [exact HK|]. split; [exact Hres|]. split; [intros _ _; exact Hcv|].
    split. { intros _ Q. exfalso. apply Q. left. exact Hi. }
    split; [discriminate|]. split; [|split; congruence]. intros fp' tb' Q _. injection Q as <- <-.
    apply J_serves; [apply HK|]. apply (J_kept S S' fp tb t t' ph Hb HK (conj HW HJ) HI' Em Ex).
  - (* initialised here *)
    assert (Hi : is_initialized4inference S t (Z.to_nat (n_bs p)) = None).
    { unfold is_init in Ei. destruct (is_initialized4inference S t (Z.to_nat (n_bs p))); [discriminate Ei|reflexivity]. }
    destruct (init4inf_ok mx my S t (Z.to_nat (n_bs p)) HC) as (e & t1 & E & HS & HF). rewrite E. cbn [obind].
    set (fp := want (Z.to_nat (n_bs p)) (biggest S)) in *.
    destruct (match e with Success => mok | _ => false end) eqn:Eok; cbn [negb].
    2: { exists false, S, t1, (fun _ => 1%R), (fun _ => 0%R). split; [reflexivity|]. split; [apply kept_refl; assumption|]. split; [apply Hsame; discriminate|].
         assert (HQ : mx <> None -> my <> None -> mok = true -> False).
         { intros Q1 Q2 Q3. destruct e; try (destruct HF; congruence). }
         split. { intros _ [Q|(Q1 & Q2 & Q3 & _)]; [congruence|]. destruct (HQ Q1 Q2 Q3). }
         split; [auto|]. split; [discriminate|]. split; [intros fp' tb' _ [Q|Q]; congruence|]. split; [|auto]. intros _ _ Q1 Q2 Q3. destruct (HQ Q1 Q2 Q3). }
    assert (e = Success /\ mok = true) as [-> ->] by (destruct e; try discriminate; auto). specialize (HS eq_refl). destruct HS as [HW HJ].
    destruct (is_init p S t1) eqn:Ei1.
    + assert (Hbig : (n_bs p <= Z.of_nat (biggest S))%Z).
      { unfold is_init, is_initialized4inference in Ei1. destruct HW as (Q0 & _ & Hl & _). rewrite Q0 in Ei1. destruct (Nat.eqb_spec (Z.to_nat (n_bs p)) 0); [lia|].
        destruct (Nat.ltb_spec fp (Z.to_nat (n_bs p))); [|lia]. rewrite orb_true_r in Ei1. discriminate. }
      assert (Hu : asked fp ibs (n_bs p) = used p ibs S h /\ 0 < asked fp ibs (n_bs p) /\ asked fp ibs (n_bs p) = fp).
      { unfold used. destruct (Z.lt_trichotomy (n_bs p) 0) as [Q|[Q|Q]].
        - destruct h as [[fp0 tb0]|].
          + exfalso. destruct (history_J S t fp0 tb0 HC Hh) as (ph & HW0 & _). destruct (inf_self S fp0 tb0 t ph HC HW0) as [_ Q1].
            replace (Z.to_nat (n_bs p)) with 0 in Hi by lia. congruence.
          + unfold asked. rewrite (proj2 (Z.ltb_lt _ _) Q). assert (Efp : fp = biggest S).
            { unfold fp, want. replace (Z.to_nat (n_bs p)) with 0 by lia. reflexivity. }
            split; [exact Efp|]. split; [apply HW|reflexivity].
        - destruct h as [[fp0 tb0]|].
          + exfalso. destruct (history_J S t fp0 tb0 HC Hh) as (ph & HW0 & _). destruct (inf_self S fp0 tb0 t ph HC HW0) as [_ Q1].
            rewrite Q in Hi. cbn [Z.to_nat] in Hi. congruence.
          + specialize (Hfit Q). assert (Efp : fp = biggest S). { unfold fp, want. rewrite Q. reflexivity. }
            unfold asked. rewrite Q. cbn [Z.ltb Z.eqb Z.compare]. split; [reflexivity|]. rewrite Hfit, <- biggest_cnt, <- Efp. split; [apply HW|reflexivity].
        - unfold asked. rewrite (proj2 (Z.ltb_ge _ _)) by lia. rewrite (proj2 (Z.eqb_neq _ _)) by lia. split; [reflexivity|]. split; [lia|].
          unfold fp, want. destruct (Nat.eqb_spec (Z.to_nat (n_bs p)) 0); [lia|]. destruct (Nat.ltb_spec (biggest S) (Z.to_nat (n_bs p))); [lia|]. reflexivity. }
      destruct Hu as (Hu & Hpos & Hfp).
      assert (HR : ready oneB p ibs fp 0 S t1).
      { unfold ready. do 3 (split; [assumption|]). split; [exact Hpos|]. rewrite Hfp. apply (inf_self S fp 0 t1 Idle HC HW). }
      destruct (core_ok oneB p imw imf imd ibs Hw Hf Hd fp 0 S t1 Es HR Ei1) as (r & S' & t' & a & b & E' & HK & HI' & Em & Ex & Hres & Hcv).
      rewrite E'. cbn [obind]. rewrite <- Hu. exists r, S', (deinit4all t'), a, b. split; [reflexivity|]. split; [exact HK|]. split; [exact Hres|].
      split; [intros _ _; exact Hcv|]. split.
      { intros _ _. right. exact Hcv. }
      split; [discriminate|]. split; [intros fp' tb' _ [Q|Q]; congruence|]. split; [intros _ _ _ _ _ b0; apply deinit_none|]. intros _ _ Q. rewrite <- biggest_cnt in Q. lia.
    + assert (Hcore : (if n_cw p then normalize_data_cw p imw imf ibs imd S t1 else normalize_data_whole p imw imf ibs imd S t1) = Some (false, S, t1)).
      { unfold normalize_data_cw, normalize_data_whole. rewrite Es, Ei1. cbn [negb]. destruct (n_cw p); reflexivity. }
      rewrite Hcore. cbn [obind]. exists false, S, (deinit4all t1), (fun _ => 1%R), (fun _ => 0%R). split; [reflexivity|]. split; [apply kept_refl; assumption|].
      split; [apply Hsame; discriminate|].
      split. { intros _ [Q|(_ & _ & _ & Q)]; [congruence|]. exfalso. rewrite <- biggest_cnt in Q.
        unfold is_init in Ei1. destruct (Nat.eq_dec (Z.to_nat (n_bs p)) 0) as [Z0|Z0].
        - rewrite Z0 in Ei1. destruct (inf_self S fp 0 t1 Idle HC HW) as [_ Q1]. rewrite Q1 in Ei1. discriminate.
        - assert (Efp : fp = Z.to_nat (n_bs p)).
          { unfold fp, want. destruct (Nat.eqb_spec (Z.to_nat (n_bs p)) 0); [lia|]. destruct (Nat.ltb_spec (biggest S) (Z.to_nat (n_bs p))); [lia|]. reflexivity. }
          rewrite <- Efp in Ei1. destruct (inf_self S fp 0 t1 Idle HC HW) as [Q1 _]. rewrite Q1 in Ei1. discriminate. }
      split; [auto|]. split; [discriminate|]. split; [intros fp' tb' _ [Q|Q]; congruence|]. split; [intros _ _ _ _ _ b; apply deinit_none|]. auto.
Qed.
End T.
