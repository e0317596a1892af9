(** train() on a network: descent and reported losses. *)
From Coq Require Import Reals Lra Permutation.
From Coquelicot Require Import Coquelicot.
From Verif Require Import Base BaseLemmas Act_Model Act_Spec Kern_Model Smx_Model Smx_Spec TData_Model TData_Spec Train_Model Train_Spec
  Train_Proofs Train_Proofs2 Train_Props
  Net_Model Net_Spec Net_Proofs Net_Proofs2 Net_Proofs3 Net_Proofs4 Net_Proofs5 Fit_Model Fit_Spec Fit_Proofs Fit_Proofs2 Fit_Proofs3 Fit_Proofs4.
Local Open Scope nat_scope.

Lemma Forall2_rev {X Y} (P : X -> Y -> Prop) l l' : Forall2 P l l' -> Forall2 P (rev l) (rev l').
Proof. induction 1; cbn; [constructor|]. apply Forall2_app; [assumption|repeat constructor; assumption]. Qed.
Lemma filter_rev' {X} (f : X -> bool) l : filter f (rev l) = rev (filter f l).
Proof. induction l as [|a l IH]; cbn; [reflexivity|]. rewrite filter_app, IH. cbn. destruct (f a); cbn; [reflexivity|apply app_nil_r]. Qed.
Lemma filter_split {X} (f : X -> bool) l : forall l1 v l2, filter f l = l1 ++ v :: l2 -> exists n1 n2, l = n1 ++ v :: n2 /\ filter f n1 = l1 /\ filter f n2 = l2.
Proof.
  induction l as [|a l IH]; intros l1 v l2 E; cbn in E; [destruct l1; discriminate|].
  destruct (f a) eqn:Q.
  - destruct l1 as [|b l1]; cbn in E; injection E as -> E.
    + exists [], l. auto.
    + destruct (IH _ _ _ E) as (n1 & n2 & -> & <- & <-). exists (b :: n1), n2. split; [reflexivity|]. cbn. rewrite Q. auto.
  - destruct (IH _ _ _ E) as (n1 & n2 & -> & <- & <-). exists (a :: n1), n2. split; [reflexivity|]. cbn. rewrite Q. auto.
Qed.
Lemma fits_app {A B} (h1 h2 : list (Train_Model.event A B)) : fits (h1 ++ h2) -> fits h2.
Proof. induction h1; cbn; [auto|]. intros [_ H]. auto. Qed.

Section P.
Context (S : sets R R) (H : hooks) (xx : net) (fp tb : nat).
Context (HS : coherent 1%R S) (Bx : s_bir (x0 S) = false) (By : s_bir (y0 S) = false).
Context (HR : forall h, rule_ok (k_rule H h)).
Notation ii := (sample_size (x0 S)). Notation oo := (sample_size (y0 S)).
Notation shows := (shows 1%R 1%R S). Notation learns := (learns S tb).
Implicit Types (v : event) (h n : list event) (w : wst) (s : nn R R).

Lemma session_learns O ec new h0 : Train_Spec.session 1%R 1%R S O fp tb ec (rev new) -> fits (new ++ h0) -> exists L, learns new L.
Proof.
  intros HP HF.
  assert (G : forall p L, Wp tb p L -> Forall2 shows (filter planned (rev new)) p -> exists L, learns new L).
  { intros p L HW H2. exists L. apply Forall2_rev in H2. rewrite filter_rev', rev_involutive in H2.
    apply (plan_learns S tb (rev p) L HW new h0 H2 HF). }
  assert (G0 : filter planned (rev new) = [] -> exists L, learns new L) by (intros E; apply (G [] []); [constructor|rewrite E; constructor]).
  destruct ec; cbn in HP; try (apply G0; exact HP).
  - destruct HP as (perms & f & _ & Hp & H2). eapply G; [|exact H2]. unfold session_plan. apply (Wp_0app tb [_; _]); [repeat constructor|].
    apply (tail_Wp S tb fp O perms f Hp).
  - eapply G; [|exact HP]. apply Wp_calm. repeat constructor.
  - destruct HP as (perms & f & _ & Hp & H2). eapply G; [|exact H2]. unfold session_plan. apply (Wp_0app tb [_; _]); [repeat constructor|].
    apply (tail_Wp S tb fp O perms f Hp).
Qed.
Lemma life_learns s : life 1%R 1%R S fp tb s -> exists L, learns (n_h s) L.
Proof.
  intros HL. pose proof HL as HL0. induction HL as [s H1 H2 H3 H4|s E O ec s' HL IH HE HO Ht|s HL IH|s HL IH|s HL IH].
  - exists []. rewrite H4. constructor.
  - destruct (IH HL) as (L & HLn). destruct (C42_session _ _ 1%R 1%R S E O fp tb s HS HE HL HO) as (ec2 & s2 & new & Q1 & Q2 & Q3 & _).
    rewrite Q1 in Ht. injection Ht as -> ->. pose proof (proj1 (life_K _ _ _ _ _ _ HL0)) as HF. rewrite Q2 in HF |- *.
    destruct (session_learns O ec new (n_h s) Q3 HF) as (L2 & HL2). exists (L ++ L2). apply learns_app; assumption.
  - destruct (IH HL) as (L & HLn). exists L. apply ln_skip; [exact HLn|exact I].
  - destruct (IH HL) as (L & HLn). exists L. apply ln_skip; [exact HLn|exact I].
  - exact (IH HL).
Qed.

Context (Hw : net_wf ii xx) (HN : NoDup (map fid (nfcs xx))) (Hn : n_n xx = oo) (Hr : room tb tb xx).
Lemma J0 : J S tb [] (mkW xx [] false).
Proof. split; [exact Hw|]. split; [exact HN|]. split; [exact Hn|]. split; [exact Hr|]. intros f t C; discriminate. Qed.
Lemma replay_ok h L : learns h L -> fits h -> exists w, replay H xx h = Some w /\ J S tb h w.
Proof.
  intros HL HF. rewrite <- (app_nil_r h) in HF |- *.
  destruct (go S H xx tb HS Bx By HR [] (mkW xx [] false) h L HL HF eq_refl J0) as (w & us & Q1 & Q2 & _). eauto.
Qed.

Lemma session_descends E O s ec s' : env_ok E -> life 1%R 1%R S fp tb s -> asks S O fp tb ->
  train 1%R 1%R S E O s = Some (ec, s') -> ec = ESuccess \/ ec = EDiverged ->
  exists perms f h1 h2 w0 w1, ec = code f /\ perms_ok S O perms f /\
    n_h s' = h1 ++ VStart tb fp :: h2 /\ length (n_h s) <= length h2 /\
    replay H xx (VStart tb fp :: h2) = Some w0 /\ replay H xx (n_h s') = Some w1 /\
    (forall w, replay H xx (n_h s) = Some w -> w_has w = true -> model (w_x w0) = model (w_x w)) /\
    let us := skipn (length (rules H h2)) (rules H (n_h s')) in
    length us = length (batches S tb perms) /\ descends S (combine us (batches S tb perms)) (model (w_x w0)) (model (w_x w1)).
Proof.
  intros HE HL HO Ht Hec. destruct (C42_session _ _ 1%R 1%R S E O fp tb s HS HE HL HO) as (ec2 & s2 & new & Q1 & Q2 & Q3 & _).
  rewrite Q1 in Ht. injection Ht as -> ->.
  assert (HL' : life 1%R 1%R S fp tb s') by (eapply life_train; eassumption).
  pose proof (proj1 (life_K _ _ _ _ _ _ HL')) as HF.
  assert (HP : exists perms f, ec = code f /\ perms_ok S O perms f /\ Forall2 shows (filter planned (rev new)) (session_plan S O fp tb perms f))
    by (destruct Hec as [-> | ->]; exact Q3).
  destruct HP as (perms & f & Hc & Hp & H2). clear Q3.
  apply Forall2_rev in H2. rewrite filter_rev', rev_involutive in H2.
  change (session_plan S O fp tb perms f) with ([AObsInit true; AStart tb fp] ++ tail_plan S tb fp O perms f) in H2. rewrite rev_app_distr in H2. cbn [rev app] in H2.
  apply Forall2_app_inv_r in H2. destruct H2 as (l1 & l2 & F1 & F2 & E0). inversion F2 as [|v a l3 ? F3 F4]; subst.
  destruct (filter_split _ _ _ _ _ E0) as (n1 & n2 & -> & En1 & En2). subst.
  destruct v as [| | | | | | | | | |[]|[]| | | | | | |]; try contradiction. destruct F3 as [-> ->]. rewrite Q2 in HF |- *. rewrite <- app_assoc in HF |- *. cbn [app] in HF |- *.
  set (h2 := n2 ++ n_h s) in *.
  assert (HF1 : fits (VStart tb fp :: h2)) by (eapply fits_app; exact HF).
  assert (L2 : exists L, learns (VStart tb fp :: h2) L).
  { destruct (life_learns s HL) as (L & HLs). exists (L ++ []). apply ln_skip; [|exact I]. apply learns_app; [|exact HLs].
    apply (plan_learns S tb [AObsInit true] [] (wpr_skip tb (AObsInit true) [] [] (wpr_nil tb) I) n2 (n_h s) F4 (proj2 HF1)). }
  destruct L2 as (L2 & HL2). destruct (replay_ok _ _ HL2 HF1) as (w0 & R0 & J0').
  pose proof (plan_learns S tb _ _ (tail_Wp S tb fp O perms f Hp) n1 _ F1 HF) as HL1.
  destruct (go S H xx tb HS Bx By HR _ w0 n1 _ HL1 HF R0 J0') as (w1 & us & R1 & _ & RU & LU & D).
  assert (Hh : w_has w0 = true).
  { destruct HF1 as [[[f' t'] HD] _]. destruct J0' as (_ & _ & _ & _ & J5). apply (J5 f' t'). exact HD. }
  destruct (D Hh) as [_ D2].
  exists perms, f, n1, h2, w0, w1. split; [reflexivity|]. split; [exact Hp|]. split; [reflexivity|]. split; [unfold h2; rewrite app_length; lia|].
  split; [exact R0|]. split; [exact R1|]. split.
  { intros w Rw Hhw. destruct (life_learns s HL) as (L & HLs). destruct (replay_ok _ _ HLs (fits_app _ _ (proj2 HF1))) as (w' & Rw' & Jw).
    rewrite Rw in Rw'. injection Rw' as <-.
    pose proof (plan_learns S tb [AObsInit true] [] (wpr_skip tb (AObsInit true) [] [] (wpr_nil tb) I) n2 (n_h s) F4 (proj2 HF1)) as HLn2.
    destruct (go S H xx tb HS Bx By HR (n_h s) w (VStart tb fp :: n2) [] (ln_skip S tb (VStart tb fp) _ _ HLn2 I) HF1 Rw Jw) as (w2 & us2 & R2 & _ & _ & LU2 & D3).
    cbn [app] in R2. fold h2 in R2. rewrite R0 in R2. injection R2 as <-. destruct (D3 Hhw) as [_ D4]. destruct us2; [|discriminate LU2].
    remember (model (w_x w)) as a. remember (model (w_x w0)) as b. cbn [combine] in D4. clear - D4. inversion D4; reflexivity. }
  cbv zeta.
  assert (EU : skipn (length (rules H h2)) (rules H (n1 ++ VStart tb fp :: h2)) = us).
  { rewrite RU. cbn [rules]. rewrite app_nil_r, skipn_app, skipn_all, Nat.sub_diag. reflexivity. }
  rewrite EU. auto.
Qed.

(** ** Losses *)
Lemma eval_step h x w id ids : J S tb h w -> holds 1%R x (set_x S id) ids ->
  exists w', happen H h (VFprop false (length ids) x) w = Some w' /\ model (w_x w') = model (w_x w) /\ length (n_A (w_x w')) = length ids * oo /\ forall r k, nth_error ids r = Some k -> row (length ids) oo r (n_A (w_x w')) = net_fun (w_x w) (sample (set_x S id) k).
Proof.
  intros (J1 & J2 & J3 & J4 & J5) Hx. destruct (set_x_facts S HS Bx id) as (F1 & F2 & F3).
  destruct (elems_x x _ ids Hx F1 F2) as (B & E1 & E2 & E3 & E4). rewrite F3 in E2, E4. cbn [happen]. rewrite E1. cbn [obind].
  destruct (net_rows (length ids) B ii (w_x w) J1 E2) as (x1 & N1 & N2 & N3). rewrite N1. cbn [obind]. eexists. split; [reflexivity|].
  destruct (fprop_model (length ids) B ii (w_x w) x1 J1 E2 N1) as (M1 & M2). cbn [w_x]. rewrite J3 in N2, N3. split; [exact M1|]. split; [exact N2|].
  intros r k Hk. rewrite N3 by (apply nth_error_Some; congruence). rewrite (E4 r k Hk). reflexivity.
Qed.
(** the loss of a sample after a history *)
Definition Lh h (id i : nat) : R := match replay H xx h with Some w => loss_at S (w_x w) id i | None => 0%R end.
Lemma loss_of_net E hist L : learns hist L -> fits hist -> loss_of 1%R 1%R S (with_net H xx E) Lh hist.
Proof.
  intros HL HF h1 v h2 Eq.
  assert (KEY : forall bs x, v = VFprop false bs x -> exists w, replay H xx h2 = Some w /\ J S tb h2 w /\ exists id ids, holds 1%R x (set_x S id) ids /\ bs = length ids).
  { intros bs x ->. rewrite Eq in HL, HF. destruct (learns_at S tb _ _ _ _ _ HL) as (L' & HL'). apply fits_app in HF.
    inversion HL' as [|? ? ? HL2 HQ|]; subst. destruct (replay_ok h2 L' HL2 (proj2 HF)) as (w & R1 & R2). exists w. split; [exact R1|]. split; [exact R2|exact HQ]. }
  split.
  - intros Hv id i. unfold Lh. cbn [replay].
    destruct v as [| | | | | | | | | |[] bs x| | | | | | | |]; try discriminate Hv; try (cbn [happen]; destruct (replay H xx h2); reflexivity).
    destruct (KEY bs x eq_refl) as (w & R1 & R2 & id' & ids & Hx & ->). rewrite R1. cbn [obind].
    destruct (eval_step h2 x w id' ids R2 Hx) as (w' & E1 & E2 & _). rewrite E1. rewrite <- (model_loss S (w_x w')), E2, model_loss. reflexivity.
  - intros bs x y id ids Ev Hid Hx Hy. destruct (KEY bs x Ev) as (w & R1 & R2 & id' & ids' & Hx' & ->). clear KEY.
    assert (LE : length ids' = length ids) by (destruct Hx as (<- & _), Hx' as (<- & _); reflexivity).
    destruct (eval_step h2 x w id ids R2 Hx) as (w' & E1 & E2 & E3 & E4). rewrite <- LE in E1. unfold Lh. rewrite R1. subst v. cbn [with_net e_loss]. unfold net_loss. cbn [replay]. rewrite R1. cbn [obind].
    rewrite E1. cbn [obind]. destruct (set_y_facts S HS By id) as (G1 & G2 & G3). destruct (elems_y y _ ids Hy G1 G2) as (Y & Q1 & Q2 & Q3 & Q4). rewrite G3 in Q2, Q4.
    rewrite Q1. cbn [obind]. f_equal. rewrite E3, loss_rows. apply sum_seq. intros r k Hk. rewrite (E4 r k Hk), (Q4 r k Hk).
    unfold loss_at, sample_loss. destruct R2 as (_ & _ & -> & _). do 2 f_equal. apply (f_equal n_out) in E2. exact E2.
Qed.

Lemma session_losses E O s ec s' : env_ok E -> life 1%R 1%R S fp tb s -> asks S O fp tb -> o_full O && (e_addW E || e_addA E) = false ->
  train 1%R 1%R S (with_net H xx E) O s = Some (ec, s') ->
  forall h1 id (v : fl) h2, id < 2 -> n_h s' = h1 ++ VLoss id v :: h2 -> length (n_h s) <= length h2 ->
  exists w, replay H xx h2 = Some w /\ let f := loss_at S (w_x w) id in let n := cnt S id in
    v = Some (batched f n (Nat.min fp n)) /\ (n <= fp -> v = Some (mean_over f (seq 0 n))) /\ (fp < n -> n mod fp = 0 -> v = Some (INR (n / fp) * mean_over f (seq 0 n))%R).
Proof.
  intros HE HL HO Hno Ht h1 id v h2 Hid Eq Hlen.
  assert (HE' : env_ok (with_net H xx E)) by exact HE.
  assert (HL' : life 1%R 1%R S fp tb s') by (eapply life_train; eassumption).
  pose proof (proj1 (life_K _ _ _ _ _ _ HL')) as HF. destruct (life_learns s' HL') as (L & HLn).
  pose proof (C45_reported_partial _ _ 1%R 1%R S _ O fp tb s ec s' Lh HS HE' HL HO Hno Ht (loss_of_net E _ L HLn HF) h1 id v h2 Hid Eq Hlen) as C.
  (* the evaluation before it *)
  assert (D : exists w, replay H xx h2 = Some w).
  { destruct (replay_ok _ _ HLn HF) as (w & R1 & _). rewrite Eq in R1. clear - R1. revert w R1.
    induction h1 as [|u h1 IH]; cbn [app replay]; intros w R1; destruct (replay H xx _) eqn:Q in R1; try discriminate; [eauto|]. eapply IH, Q. }
  destruct D as (w & R1). exists w. split; [exact R1|]. unfold Lh in C. rewrite R1 in C. exact C.
Qed.
End P.
