(** Walking over a set and reporting it, for any evaluator that counts single batches
    correctly. *)
From Coq Require Import Permutation.
From Verif Require Import Base BaseLemmas Workers_Model Kern_Model Kern_Spec Kern_Proofs IdxMax_Model IdxMax_Spec IdxMax_Proofs
  MKern_Model MKern_Spec Smx_Model Smx_Spec Smx_Proofs Smx_Proofs2 TData_Model TData_Spec TData_Proofs TData_Proofs2 TData_Proofs3 TData_Proofs4 TData_Proofs5
  Util_Proofs Ev_Model Ev_Spec Ev_Proofs.

Section W.
Context {A B : Type} (oneA : A) (oneB : B) (S : sets A B) (fp tb : nat) (HC : coherent oneA S).
Notation tds := (tds A B). Notation imath := (imath A B).
Implicit Types (t : tds).
Notation I := (Inv oneA oneB S fp tb).
Notation N id := (cnt S id).
Notation n id := (Nat.min fp (cnt S id)).

Lemma inv_idle t ph : I t ph -> I t Idle.
Proof. intros (H1 & H2 & H3 & H4 & H5 & H6 & H7 & H8 & _). repeat (split; [assumption|]). exact Logic.I. Qed.

Lemma inv_fp t ph : I t ph -> 0 < fp.
Proof. intros (_ & _ & _ & H4 & H5 & _). lia. Qed.

Lemma walk_begin t ph id ibs flag : I t ph -> id < 2 ->
  exists t', walk_over_set oneA S t id ibs (-1)%Z flag = Some (subsets (N id) (n id), t') /\ I t' (Walking id (n id) flag 0).
Proof.
  intros HI Hid. pose proof (inv_fp t ph HI) as Hfp.
  assert (Has : asked fp ibs (-1)%Z = fp) by reflexivity.
  destruct (step_refines oneA oneB S fp tb t ph (Walk id ibs (-1)%Z flag) HC HI) as (b & t' & ph' & E & Hs & HI').
  - cbn [allowed]. rewrite Has. split; [exact Hid|]. split; [exact Hfp|].
    unfold is_initialized4inference. destruct HI as (F & _). rewrite F, (sets_nonempty oneA S HC).
    destruct (Nat.eqb_spec fp 0); [lia|]. rewrite Nat.ltb_irrefl. reflexivity.
  - cbn [step] in E. destruct (walk_over_set oneA S t id ibs (-1)%Z flag) as [[q t1]|]; [|discriminate E]. cbn [obind] in E.
    injection E as <- <-. cbn [spec_step] in Hs. rewrite Has in Hs. destruct Hs as [Hb ->]. injection Hb as ->. exists t1. auto.
Qed.

Lemma subset_next t id m flag k im : I t (Walking id m flag k) -> im_ok im -> k < subsets (N id) m ->
  exists t', next_subset oneA im S t k = Some t' /\ I t' (Walking id m flag (k + 1)) /\
    (if flag =? 1 then True else exists x, batchX S t' = Some x /\ holds oneA x (set_x S id) (slice (seq 0 (N id)) m k)) /\
    (if flag =? 2 then True else exists y, batchY S t' = Some y /\ holds oneB y (set_y S id) (slice (seq 0 (N id)) m k)).
Proof.
  intros HI Him Hk.
  destruct (step_refines oneA oneB S fp tb t _ (Subset im k) HC HI) as (b & t' & ph' & E & Hs & HI').
  - cbn [allowed]. auto.
  - cbn [step] in E. destruct (next_subset oneA im S t k) as [t1|]; [|discriminate E]. cbn [obind] in E. injection E as <- <-.
    cbn [spec_step] in Hs. destruct Hs as [(ox & oy & Eb & Hx & Hy) ->]. injection Eb as <- <-. exists t1.
    split; [reflexivity|]. split; [exact HI'|]. split.
    + destruct (flag =? 1); [exact Logic.I|exact Hx].
    + destruct (flag =? 2); [exact Logic.I|exact Hy].
Qed.

Lemma cnt_pos id : id < 2 -> 0 < N id.
Proof. intros Hid. destruct (coherent_set oneA S id HC Hid) as (_ & _ & _ & _ & _ & _ & _ & _ & Hp & _). exact Hp. Qed.

(** what batch k has *)
Lemma piece (NN m k : nat) : 0 < m <= NN -> k < subsets NN m ->
  let l := Nat.min m (NN - m * k) in
  0 < l /\ m * k + l <= shown NN m /\ Nat.min (m * (k + 1)) NN = m * k + l /\ m * k < NN.
Proof.
  intros Hm Hk l. unfold subsets in Hk. unfold l, shown.
  pose proof (Nat.div_mod NN m) as Hd. pose proof (Nat.mod_upper_bound NN m) as Hb.
  assert (Hmk : m * (k + 1) = m * k + m) by lia.
  assert (k < NN / m -> m * (k + 1) <= m * (NN / m)) by (intros; apply Nat.mul_le_mono_l; lia).
  assert (k = NN / m \/ k < NN / m) as [->|Hlt] by (destruct (1 <? NN mod m); lia);
  destruct (Nat.ltb_spec 1 (NN mod m)); destruct (Nat.eqb_spec (NN mod m) 1); lia.
Qed.
Lemma last_piece (NN m : nat) : 0 < m <= NN -> Nat.min (m * subsets NN m) NN = shown NN m.
Proof.
  intros Hm. unfold subsets, shown. pose proof (Nat.div_mod NN m) as Hd. pose proof (Nat.mod_upper_bound NN m) as Hb.
  destruct (Nat.ltb_spec 1 (NN mod m)); destruct (Nat.eqb_spec (NN mod m) 1); lia.
Qed.

Lemma slice_piece (NN m k : nat) : slice (seq 0 NN) m k = seq (m * k) (Nat.min m (NN - m * k)).
Proof. apply slice_seq. Qed.

Context (HY : s_bir (y0 S) = false).

Lemma y_shape id : id < 2 -> s_bir (set_y S id) = false /\ s_bias (set_y S id) = false /\ s_rows (set_y S id) = N id /\
  s_cols (set_y S id) = yWidth S /\ sample_size (set_y S id) = yWidth S /\ 0 < yWidth S.
Proof.
  intros Hid. destruct (coherent_set oneA S id HC Hid) as (_ & _ & HD & _ & Hb & _ & Hs & _ & _ & Hp).
  destruct HD as (_ & _ & _ & _ & HB & _ & HN). rewrite HY in Hb. unfold cnt, yWidth. rewrite <- Hs.
  assert (Hss : sample_size (set_y S id) = s_cols (set_y S id)).
  { unfold sample_size, s_cols_nb, s_bias_col. rewrite Hb, HB. cbn. lia. }
  rewrite HN. unfold batch_size. rewrite Hb. repeat split; try assumption; try lia.
Qed.

Lemma w_pos : 0 < yWidth S.
Proof. exact (proj2 (proj2 (proj2 (proj2 (proj2 (y_shape 0 Nat.lt_0_2)))))). Qed.

Lemma held_y id y lo m Yf : id < 2 -> truth (set_y S id) Yf -> lo + m <= N id -> holds oneB y (set_y S id) (seq lo m) ->
  activations y m (yWidth S) (fun i => Yf (lo + i)).
Proof.
  intros Hid HT Hlo (H1 & H2 & H3 & H4 & H5 & _ & H7). destruct (y_shape id Hid) as (Y1 & Y2 & Y3 & Y4 & Y5 & Y6).
  rewrite seq_length in H1. unfold batch_size in H1. rewrite H3, Y1 in H1.
  unfold sample_size at 1 in H2. unfold s_cols_nb, s_bias_col in H2. rewrite H3, H4, Y1, Y2 in H2. cbn in H2.
  split; [exact H1|]. split; [lia|]. split; [congruence|]. split; [exact H5|]. intros i j Hi Hj.
  destruct (H7 i (lo + i) j) as [E _]; [apply nth_error_seq; exact Hi|lia|].
  unfold scell in E. rewrite H3, Y1 in E. rewrite E. apply HT; [unfold batch_size; rewrite Y1, Y3; lia|lia].
Qed.

(** ** Reporting *)
Section R.
Context {Ev : Type} (prepare : Ev -> Ev) (total : smx B -> nat)
        (correct : mth B -> Ev -> nat -> smx B -> smx B -> option (nat * Ev)).
Context (maxBS nsets unit_ : nat) (Yf : nat -> nat -> nat -> B).
Context (EI : Ev -> Prop) (ofs : Ev -> nat) (good : nat -> nat -> nat -> (nat -> nat -> B) -> nat -> Prop).
Context (xgood : nat -> (nat -> nat -> B) -> (nat -> nat -> B) -> nat -> Prop).
Context (HT : forall id, id < 2 -> truth (set_y S id) (Yf id)).
Context (Hbs : forall id, id < 2 -> n id <= maxBS).
Context (Hprep : forall e, EI e -> EI (prepare e) /\ ofs (prepare e) = 0).
Context (Htot : forall y m f, activations y m (yWidth S) f -> total y = m * unit_).
Context (Hcorr : forall k e id lo m P y a, EI e -> ofs e = lo -> mth_ok k -> roomy maxBS k -> id < 2 -> 0 < m <= maxBS ->
  lo + m <= shown (N id) (n id) ->
  activations y m (yWidth S) (fun i => Yf id (lo + i)) -> activations a m (yWidth S) (fun i => P (lo + i)) ->
  exists c e', correct k e id y a = Some (c, e') /\ EI e' /\ ofs e' = lo + m /\ good id lo m P c).
Context (Hextra : forall k e id m P Y y a, EI e -> 2 <= id -> 2 < nsets -> extra_batch S maxBS (k, a, y) m P Y ->
  exists c e', correct k e id y a = Some (c, e') /\ EI e' /\ xgood m P Y c).
Context (Hgood0 : forall id P, good id 0 0 P 0).
Context (HgoodS : forall id lo m P c1 c2, good id 0 lo P c1 -> good id lo m P c2 -> good id 0 (lo + m) P (c1 + c2)).
Notation tobs := (@tobs Ev).
Implicit Types o : tobs.

Lemma only_set {T} id (v : T) (r r' : list T) : bset r id v = Some r' -> only_entry id v r r'.
Proof.
  intros E. destruct (bset_inv r id v r' E) as [Hl ->]. split; [apply upd_length|]. split.
  - rewrite upd_nth, Nat.eqb_refl. apply Nat.ltb_lt in Hl. rewrite Hl. reflexivity.
  - intros j Hj. rewrite upd_nth. apply Nat.eqb_neq in Hj. rewrite Hj. reflexivity.
Qed.

Lemma only_trans {T} id (v w : T) (r r' r'' : list T) : only_entry id v r r' -> only_entry id w r' r'' -> only_entry id w r r''.
Proof.
  intros (L1 & _ & K1) (L2 & E2 & K2). split; [congruence|]. split; [exact E2|]. intros j Hj. rewrite K2, K1 by exact Hj. reflexivity.
Qed.

Lemma begin_ok o id : EI (o_ev o) -> id < length (o_res o) ->
  exists o1, report_results_begin prepare o id = Some o1 /\ o_cur o1 = id /\ EI (o_ev o1) /\ ofs (o_ev o1) = 0 /\
    only_entry id (0, 0) (o_res o) (o_res o1).
Proof.
  intros HE Hid. unfold report_results_begin. destruct (bset_lt (o_res o) id (0, 0) Hid) as (r & E). rewrite E. cbn [obind].
  eexists. split; [reflexivity|]. cbn [o_cur o_ev o_res]. destruct (Hprep _ HE). repeat (split; [reflexivity || assumption|]). apply only_set. exact E.
Qed.

(** one batch: the entry grows by what the evaluator counts *)
Lemma report_ok k o id r0 tot cor y a c e' : o_cur o = id -> only_entry id (tot, cor) r0 (o_res o) ->
  correct k (o_ev o) id y a = Some (c, e') ->
  exists o', report_results total correct k o a y = Some o' /\ o_cur o' = id /\ o_ev o' = e' /\
    only_entry id (tot + total y, cor + c) r0 (o_res o').
Proof.
  intros Hcur Hr Hc. unfold report_results. rewrite Hcur. pose proof Hr as (_ & Hn & _). unfold bget. rewrite Hn. cbn [obind].
  rewrite Hc. cbn [obind]. destruct (bset_lt (o_res o) id (tot + total y, cor + c)) as (r & E).
  { apply nth_error_Some. congruence. }
  rewrite E. cbn [obind]. eexists. split; [reflexivity|]. cbn [o_cur o_ev o_res]. split; [reflexivity|]. split; [reflexivity|].
  apply (only_trans id (tot, cor) _ r0 (o_res o)); [exact Hr|apply only_set; exact E].
Qed.

Lemma report_walk_ok t ph o id ims ks net P ibs : I t ph -> EI (o_ev o) -> id < 2 -> id < length (o_res o) ->
  (forall b, im_ok (ims b)) -> (forall b, mth_ok (ks b) /\ roomy maxBS (ks b)) ->
  predicts oneA net S id (n id) (yWidth S) P ->
  exists t' o' c, report_walk prepare total correct oneA ims ks net ibs S t o id = Some (t', o') /\
    I t' Idle /\ EI (o_ev o') /\ good id 0 (shown (N id) (n id)) P c /\
    only_entry id (shown (N id) (n id) * unit_, c) (o_res o) (o_res o').
Proof.
  intros HI HE Hid Hl Him Hks Hnet. unfold report_walk.
  destruct (walk_begin t ph id ibs 0 HI Hid) as (t1 & E1 & HI1). rewrite E1. cbn [obind].
  destruct (begin_ok o id HE Hl) as (o1 & E2 & Hcur & HE1 & Ho1 & Hr1). rewrite E2. cbn [obind].
  pose proof (cnt_pos id Hid) as Hp. pose proof (inv_fp t ph HI) as Hfp.
  assert (Hn : 0 < n id <= N id) by lia.
  match goal with |- context[for_loop 0 ?q ?body ?s] =>
    destruct (for_loop_inv (fun k '(t, o') => I t (Walking id (n id) 0 k) /\ EI (o_ev o') /\ o_cur o' = id /\
      exists c, let pos := Nat.min (n id * k) (N id) in
        ofs (o_ev o') = pos /\ good id 0 pos P c /\ only_entry id (pos * unit_, c) (o_res o) (o_res o')) 0 q body s) as ([t2 o2] & E3 & H3) end.
  - split; [exact HI1|]. split; [exact HE1|]. split; [exact Hcur|]. exists 0. cbv zeta. rewrite Nat.mul_0_r. cbn [Nat.min Nat.mul]. auto.
  - intros k [t2 o2] Hk (HI2 & HE2 & Hc2 & c & Ho2 & Hg2 & Hr2).
    destruct (subset_next t2 id (n id) 0 k (ims k) HI2 (Him k)) as (t3 & E3 & HI3 & Hx & Hy); [lia|].
    cbn [Nat.eqb] in Hx, Hy. destruct Hx as (x & Ex & Hx), Hy as (y & Ey & Hy). rewrite E3. cbn [obind]. rewrite Ex, Ey. cbn [obind].
    destruct (piece (N id) (n id) k Hn) as (P1 & P2 & P3 & P4); [lia|]. cbv zeta in P1, P2, P3.
    rewrite slice_piece in Hx, Hy. set (m := Nat.min (n id) (N id - n id * k)) in *.
    destruct (Hnet k x m eq_refl P1 Hx) as (a & Ea & Ha). rewrite Ea. cbn [obind].
    assert (Hay : activations y m (yWidth S) (fun i => Yf id (n id * k + i))).
    { apply (held_y id); [exact Hid|apply HT; exact Hid|unfold m; lia|exact Hy]. }
    rewrite Nat.min_l in Ho2, Hg2, Hr2 by lia.
    destruct (Hcorr (ks k) (o_ev o2) id (n id * k) m P y a HE2 Ho2) as (c' & e' & Ec & HE' & Ho' & Hg'); try assumption.
    { apply Hks. } { apply Hks. } { pose proof (Hbs id Hid). unfold m in *. lia. }
    destruct (report_ok (ks k) o2 id (o_res o) (n id * k * unit_) c y a c' e' Hc2 Hr2 Ec) as (o3 & E4 & Hc3 & He3 & Hr3).
    rewrite E4. cbn [obind]. eexists. split; [reflexivity|]. split; [exact HI3|]. rewrite He3. split; [exact HE'|]. split; [exact Hc3|].
    exists (c + c'). cbv zeta. rewrite P3. split; [exact Ho'|]. split; [apply HgoodS; assumption|].
    rewrite (Htot y m _ Hay) in Hr3. rewrite Nat.mul_add_distr_r. exact Hr3.
  - rewrite E3. destruct H3 as (HI3 & HE3 & _ & c & H4). rewrite (Nat.add_0_l (subsets _ _)), (last_piece (N id) (n id) Hn) in H4. cbv zeta in H4.
    destruct H4 as (_ & Hg & Hr). exists t2, o2, c. split; [reflexivity|]. split; [exact (inv_idle _ _ HI3)|]. auto.
Qed.

(** supplementary sets *)
Fixpoint xgoods (l : list (nat * (nat -> nat -> B) * (nat -> nat -> B))) (c : nat) : Prop :=
  match l with [] => c = 0 | (m, P, Y) :: l => exists c1 c2, c = c1 + c2 /\ xgood m P Y c1 /\ xgoods l c2 end.

Lemma report_set_ok o id batches spec : EI (o_ev o) -> 2 <= id -> 2 < nsets -> id < length (o_res o) ->
  Forall2 (fun b '(m, P, Y) => extra_batch S maxBS b m P Y) batches spec ->
  exists o' c, report_set prepare total correct o id batches = Some o' /\ EI (o_ev o') /\ xgoods spec c /\
    only_entry id (list_sum (map (fun '(m, _, _) => m) spec) * unit_, c) (o_res o) (o_res o').
Proof.
  intros HE Hid Hns Hl HF. unfold report_set.
  destruct (begin_ok o id HE Hl) as (o1 & E2 & Hcur & HE1 & _ & Hr1). rewrite E2. cbn [obind]. clear E2.
  assert (G : forall batches spec o1 tot cor, EI (o_ev o1) -> o_cur o1 = id -> only_entry id (tot, cor) (o_res o) (o_res o1) ->
    Forall2 (fun b '(m, P, Y) => extra_batch S maxBS b m P Y) batches spec ->
    exists o' c, fold_left (fun oo '(k, acts, y) => do o <- oo; report_results total correct k o acts y) batches (Some o1) = Some o' /\
      EI (o_ev o') /\ xgoods spec c /\ only_entry id (tot + list_sum (map (fun '(m, _, _) => m) spec) * unit_, cor + c) (o_res o) (o_res o')).
  { clear batches spec HF HE1 o1 Hcur Hr1. intros batches spec o1 tot cor HE1 Hcur Hr HF. revert o1 tot cor HE1 Hcur Hr.
    induction HF as [|[[k a] y] [[m P] Y] bs sp Hb _ IH]; intros o1 tot cor HE1 Hcur Hr.
    - exists o1, 0. cbn [fold_left map list_sum fold_right Nat.mul xgoods]. rewrite !Nat.add_0_r. auto.
    - destruct (Hextra k (o_ev o1) id m P Y y a HE1 Hid Hns Hb) as (c1 & e1 & Ec & HE' & Hx).
      destruct (report_ok k o1 id (o_res o) tot cor y a c1 e1 Hcur Hr Ec) as (o2 & E2 & Hc2 & He2 & Hr2).
      destruct (IH o2 (tot + total y) (cor + c1)) as (o' & c & E3 & HE3 & Hg & Hr3); [rewrite He2; exact HE'|exact Hc2|exact Hr2|].
      exists o', (c1 + c). cbn [fold_left obind]. rewrite E2. split; [exact E3|]. split; [exact HE3|]. split; [exists c1, c; auto|].
      destruct Hb as (_ & _ & _ & _ & Hy). rewrite (Htot y m Y Hy) in Hr3.
      change (list_sum (map (fun '(m, _, _) => m) ((m, P, Y) :: sp))) with (m + list_sum (map (fun '(m, _, _) => m) sp)).
      replace (tot + (m + list_sum (map (fun '(m, _, _) => m) sp)) * unit_) with (tot + m * unit_ + list_sum (map (fun '(m, _, _) => m) sp) * unit_) by lia.
      rewrite Nat.add_assoc. exact Hr3. }
  exact (G batches spec o1 0 0 HE1 Hcur Hr1 HF).
Qed.

Lemma used_ok t0 e0 : I t0 Idle -> EI e0 -> forall t e,
  used oneA prepare total correct oneB S fp tb maxBS nsets t0 e0 t e -> I t Idle /\ EI e.
Proof.
  intros HI0 HE0 t e HU. induction HU as [|t e os bs t' HU [IH1 IH2] Ha E|t o id ims ks net P ibs t' o' HU [IH1 IH2] Hid Him Hks Hnet E|t o id batches o' HU [IH1 IH2] Hid Hns HF E].
  - auto.
  - split; [|exact IH2]. destruct (run_refines oneA oneB S fp tb os HC t Idle IH1 Ha) as (bs' & t'' & ph & E' & _ & HI'). rewrite E in E'. injection E' as _ <-.
    exact (inv_idle _ _ HI').
  - assert (Hl : id < length (o_res o)).
    { unfold report_walk in E. destruct (walk_over_set _ _ _ _ _ _ _) as [[? ?]|]; [|discriminate E]. cbn [obind] in E.
      unfold report_results_begin in E. destruct (bset (o_res o) id (0, 0)) as [r|] eqn:Eb; [|discriminate E].
      exact (proj1 (bset_inv _ _ _ _ Eb)). }
    destruct (report_walk_ok t Idle o id ims ks net P ibs IH1 IH2 Hid Hl Him Hks Hnet) as (t2 & o2 & c & E2 & HI2 & HE2 & _).
    rewrite E in E2. injection E2 as <- <-. auto.
  - split; [exact IH1|].
    assert (Hl : id < length (o_res o)).
    { unfold report_set, report_results_begin in E. destruct (bset (o_res o) id (0, 0)) as [r|] eqn:Eb; [|discriminate E].
      exact (proj1 (bset_inv _ _ _ _ Eb)). }
    assert (HF2 : exists spec, Forall2 (fun b '(m, P, Y) => extra_batch S maxBS b m P Y) batches spec).
    { clear -HF. induction HF as [|b l (m & P & Y & Hb) _ (sp & IH)]; [exists []; constructor|]. exists ((m, P, Y) :: sp). constructor; assumption. }
    destruct HF2 as (spec & HF2). destruct (report_set_ok o id batches spec IH2 Hid Hns Hl HF2) as (o2 & c & E2 & HE2 & _).
    rewrite E in E2. injection E2 as <-. exact HE2.
Qed.
End R.
End W.
