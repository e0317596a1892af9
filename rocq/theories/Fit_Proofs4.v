(** Sessions of train() descend. *)
From Coq Require Import Reals Lra Permutation.
From Coquelicot Require Import Coquelicot.
From Verif Require Import Base BaseLemmas Act_Model Act_Spec Kern_Model Smx_Model Smx_Spec TData_Model TData_Spec Train_Model Train_Spec
  Net_Model Net_Spec Net_Proofs Net_Proofs2 Net_Proofs3 Net_Proofs4 Net_Proofs5 Fit_Model Fit_Spec Fit_Proofs Fit_Proofs2 Fit_Proofs3.
Local Open Scope nat_scope.

Lemma mono_max : (forall l M M', M <= M' -> max_dLdA M l <= max_dLdA M' l) /\ (forall s M M', M <= M' -> smax_dLdA M s <= smax_dLdA M' s) /\
  (forall h M M', M <= M' -> hmax_dLdA M h <= hmax_dLdA M' h).
Proof.
  apply layers_ind; intros; simpl; auto.
  - pose proof (Nat.mul_le_mono_r M M' n H). lia.
  - apply Nat.mul_le_mono_r. assumption.
  - pose proof (Nat.mul_le_mono_l M M' k H0). specialize (H _ _ H1).
    pose proof (Nat.mul_le_mono_r M M' (k * neurons l) H0). pose proof (Nat.mul_le_mono_r (M * k) (M' * k) (incoming l) ltac:(nia)). lia.
  - specialize (H _ _ H1). specialize (H0 _ _ H1). lia.
  - specialize (H _ _ H1). specialize (H0 _ _ H1). lia.
Qed.
Lemma room_mono m M M' x : M <= M' -> room m M x -> room m M' x.
Proof.
  intros H. unfold room. destruct (n_hid x) as [s|]; [|auto]. unfold dLdA_size. pose proof (proj1 (proj2 mono_max) s _ _ H). intros [|]; [auto|right; lia].
Qed.

Section P.
Context (S : sets R R) (H : hooks) (xx : net) (tb : nat).
Context (HS : coherent 1%R S) (Bx : s_bir (x0 S) = false) (By : s_bir (y0 S) = false).
Context (HR : forall h, rule_ok (k_rule H h)).
Notation ii := (sample_size (x0 S)). Notation oo := (sample_size (y0 S)).
Notation shows := (shows 1%R 1%R S).
Implicit Types (v : event) (h n : list event) (w : wst).

Lemma set_x_facts id : s_bir (set_x S id) = false /\ s_bias (set_x S id) = true /\ sample_size (set_x S id) = ii.
Proof.
  destruct HS as ((A1 & A2 & A3 & A4 & A5 & A6 & A7) & (C1 & C2 & C3 & C4 & C5 & C6 & C7) & E1 & E2 & E3 & E4 & _). unfold set_x.
  destruct (id =? 0); [auto|]. rewrite <- E1, <- E3. auto.
Qed.
Lemma set_y_facts id : s_bir (set_y S id) = false /\ s_bias (set_y S id) = false /\ sample_size (set_y S id) = oo.
Proof.
  destruct HS as ((A1 & A2 & A3 & A4 & A5 & A6 & A7) & (C1 & C2 & C3 & C4 & C5 & C6 & C7) & E1 & E2 & E3 & E4 & _). unfold set_y.
  destruct (id =? 0); [auto|]. rewrite <- E2, <- E4. auto.
Qed.

Definition quietly v : Prop :=
  match v with
  | VFprop false bs x => exists id ids, holds 1%R x (set_x S id) ids /\ bs = length ids
  | VFprop true _ _ | VBprop _ _ _ => False
  | _ => True
  end.
(** the batches learned from, in order of time *)
Inductive learns : list event -> list (list nat) -> Prop :=
| ln_nil : learns [] []
| ln_skip v h L : learns h L -> quietly v -> learns (v :: h) L
| ln_step x y ids h L : learns h L -> holds 1%R x (x0 S) ids -> holds 1%R y (y0 S) ids -> length ids = tb ->
    learns (VBprop true (length ids) y :: VFprop true (length ids) x :: h) (L ++ [ids]).
Lemma learns_app h1 L1 h2 L2 : learns h1 L1 -> learns h2 L2 -> learns (h1 ++ h2) (L2 ++ L1).
Proof.
  intros H1 H2. induction H1 as [|v h L _ IH Hq|x y ids h L _ IH Hx Hy Hl]; cbn [app].
  - rewrite app_nil_r. exact H2.
  - apply ln_skip; assumption.
  - rewrite app_assoc. apply ln_step; assumption.
Qed.
Lemma learns_at h1 bs x h2 L : learns (h1 ++ VFprop false bs x :: h2) L -> exists L', learns (VFprop false bs x :: h2) L'.
Proof.
  intros HL. remember (h1 ++ VFprop false bs x :: h2) as h eqn:E. revert h1 E. induction HL as [|v h L HL IH Hq|x' y ids h L HL IH Hx Hy Hl]; intros h1 E.
  - destruct h1; discriminate.
  - destruct h1 as [|u h1]; cbn in E; [exists L; rewrite <- E; apply ln_skip; assumption|]. injection E as _ E. apply (IH h1 E).
  - destruct h1 as [|u h1]; [discriminate|]. injection E as _ E. destruct h1 as [|u' h1]; [discriminate|]. injection E as _ E. apply (IH h1 E).
Qed.

Definition J h w : Prop :=
  net_wf ii (w_x w) /\ NoDup (map fid (nfcs (w_x w))) /\ n_n (w_x w) = oo /\ room tb tb (w_x w) /\
  forall f t, dims h = Some (f, t) -> net_inited t (w_x w) /\ w_has w = true.
(** everything but [dims] depends on the weights only *)
Lemma J_model h h' w w' : J h w -> model (w_x w') = model (w_x w) -> (forall f t, dims h' = Some (f, t) -> net_inited t (w_x w') /\ w_has w' = true) -> J h' w'.
Proof.
  intros (J1 & J2 & J3 & J4 & J5) E HD. unfold J. rewrite <- model_wf, <- model_nfcs, <- model_room, E, model_wf, model_nfcs, model_room.
  do 2 (split; [assumption|]). split; [|auto]. rewrite <- J3. apply (f_equal n_n) in E. exact E.
Qed.
Lemma J_reweight h w f g : J h w -> (forall id W, length (f id W) = length W) -> (forall W, length (g W) = length W) ->
  net_wf ii (reweight f g (w_x w)) /\ NoDup (map fid (nfcs (reweight f g (w_x w)))) /\ n_n (reweight f g (w_x w)) = oo /\ room tb tb (reweight f g (w_x w)).
Proof.
  intros (J1 & J2 & J3 & J4 & J5) Hf Hg. destruct (reweight_keep tb ii f g (w_x w) (fun id _ W _ => Hf id W) (Hg _) J1) as (Q1 & _ & Q2).
  split; [exact Q1|]. rewrite reweight_fids. auto.
Qed.

Lemma quiet_step h v w : J h w -> fits (v :: h) -> quietly v ->
  exists w', happen H h v w = Some w' /\ J (v :: h) w' /\ (w_has w = true -> w_has w' = true /\ model (w_x w') = model (w_x w)).
Proof.
  intros HJ HF HQ. pose proof HJ as (J1 & J2 & J3 & J4 & J5).
  assert (TRIV : happen H h v w = Some w -> dims (v :: h) = dims h \/ dims (v :: h) = None -> exists w', happen H h v w = Some w' /\ J (v :: h) w' /\ (w_has w = true -> w_has w' = true /\ model (w_x w') = model (w_x w))).
  { intros E HD. exists w. split; [exact E|]. split; [|auto]. apply (J_model h _ w w HJ eq_refl). intros f t Q. destruct HD as [HD|HD]; rewrite HD in Q; [apply J5 with f; exact Q|discriminate]. }
  destruct v as [on|f t| |f t| |k| |t f|bs|e n|tr bs x|tr bs y|id n|id b y|id l|e l1 l2|e|e g|]; try contradiction; try (apply TRIV; [reflexivity|left; reflexivity]).
  - (* VNetInit *) eexists. split; [reflexivity|]. clear TRIV. cbn [happen]. unfold net_up.
    set (z := if w_has w then w_x w else _).
    assert (Z : net_wf ii z /\ NoDup (map fid (nfcs z)) /\ n_n z = oo /\ room tb tb z).
    { unfold z. destruct (w_has w); [auto|]. eapply J_reweight; [exact HJ|..]; intros; rewrite map_length, seq_length; reflexivity. }
    assert (Z2 : w_has w = true -> z = w_x w) by (unfold z; intros ->; reflexivity). clearbody z.
    set (w' := mkW _ _ _). assert (M : model (w_x w') = model z).
    { unfold w', model. cbn. f_equal. destruct (n_hid z) as [s|]; [|reflexivity]. cbn. f_equal. apply plain_up. }
    split; [|intros Hh; rewrite M, (Z2 Hh); auto].
    destruct Z as (Z3 & Z4 & Z5 & Z6). apply (J_model [] _ (mkW z [] true)); [|exact M|].
    + split; [exact Z3|]. split; [exact Z4|]. split; [exact Z5|]. split; [exact Z6|]. intros ? ? C; discriminate.
    + intros f' t' Q. injection Q as <- <-. split; [|reflexivity]. unfold w', net_inited. cbn. destruct (n_hid z) as [s|]; [|exact I]. cbn.
      unfold dLdA_size. rewrite !map_length, !seq_length.
      rewrite <- (proj1 (proj2 max_plain) (smem_up _ _ s)), (proj1 (proj2 (plain_up _))), (proj1 (proj2 max_plain)).
      split; [|auto]. apply inited_up. intros k. rewrite map_length, seq_length. reflexivity.
  - (* VNetDeinit *) eexists. split; [reflexivity|]. clear TRIV. cbn [happen].
    assert (M : model (w_x (net_down w)) = model (w_x w)).
    { unfold net_down, model. cbn. f_equal. destruct (n_hid (w_x w)) as [s|]; [|reflexivity]. cbn. f_equal. apply plain_down. }
    split; [|auto]. apply (J_model h _ w); [exact HJ|exact M|]. intros ? ? C; discriminate.
  - (* VFprop *) clear TRIV. destruct tr; [contradiction|]. destruct HQ as (id & ids & Hx & ->). destruct (set_x_facts id) as (F1 & F2 & F3).
    destruct (elems_x x _ ids Hx F1 F2) as (B & E1 & E2 & E3 & E4). rewrite F3 in E2, E4. cbn [happen]. rewrite E1. cbn [obind].
    destruct (net_rows (length ids) B ii (w_x w) J1 E2) as (x1 & N1 & N2 & N3). rewrite N1. cbn [obind]. eexists. split; [reflexivity|].
    destruct (fprop_model (length ids) B ii (w_x w) x1 J1 E2 N1) as (M1 & M2). split; [|auto]. apply (J_model h _ w); [exact HJ|exact M1|].
    intros f t Q. cbn in Q. destruct (J5 f t Q) as [Q1 Q2]. split; [apply M2; exact Q1|exact Q2].
Qed.

Lemma learn_pair h x y ids w : J h w -> fits (VBprop true (length ids) y :: VFprop true (length ids) x :: h) ->
  holds 1%R x (x0 S) ids -> holds 1%R y (y0 S) ids -> length ids = tb ->
  let h1 := VFprop true (length ids) x :: h in
  exists w1 w2, happen H h (VFprop true (length ids) x) w = Some w1 /\ happen H h1 (VBprop true (length ids) y) w1 = Some w2 /\
    J (VBprop true (length ids) y :: h1) w2 /\ w_has w2 = w_has w /\
    gd_step S (mkRule (r_pre (k_rule H h)) (r_preo (k_rule H h)) (r_gw (k_rule H h1)) (r_gwo (k_rule H h1))) ids (model (w_x w)) (model (w_x w2)).
Proof.
  intros HJ HF Hx Hy Hl h1. pose proof HJ as (J1 & J2 & J3 & J4 & J5).
  destruct (set_x_facts 0) as (F1 & F2 & F3). destruct (set_y_facts 0) as (G1 & G2 & G3).
  destruct (elems_x x _ ids Hx F1 F2) as (B & E1 & E2 & E3 & E4). destruct (elems_y y _ ids Hy G1 G2) as (Y & Q1 & Q2 & Q3 & Q4).
  destruct HF as (_ & HF & _). cbn [fits1] in HF. destruct (HF E3) as (f & t & HD & HT). specialize (HT eq_refl). clear HF.
  destruct (J5 f t HD) as [HI HH].
  set (r := mkRule (r_pre (k_rule H h)) (r_preo (k_rule H h)) (r_gw (k_rule H h1)) (r_gwo (k_rule H h1))).
  assert (RO : rule_ok r) by (destruct (HR h) as (A1 & A2 & _), (HR h1) as (_ & _ & A3 & A4); repeat split; try assumption; try apply A3; try apply A4; assumption).
  pose proof (proj1 RO) as R1. pose proof (proj1 (proj2 RO)) as R2.
  destruct (J_reweight h w (r_pre r) (r_preo r) HJ R1 R2) as (W1 & W2 & W3 & W4).
  destruct (net_rows (length ids) B ii _ W1 E2) as (x1 & N1 & _).
  assert (RM : room (length ids) t (w_x w)) by (rewrite Hl; apply (room_mono tb tb); [lia|exact J4]).
  destruct (learn_step S r ii t ids B Y (w_x w) x1 RO J1 HI RM eq_refl J3 J2 E2 ltac:(rewrite J3; exact Q2) E3 HT E4 ltac:(rewrite J3; exact Q4) N1)
    as (x2 & EB & X1 & X2 & X3).
  exists (mkW x1 (biased (length ids) B) (w_has w)), (mkW x2 (biased (length ids) B) (w_has w)).
  split; [cbn [happen]; change (x0 S) with (set_x S 0); rewrite E1; cbn [obind]; change (r_pre (k_rule H h)) with (r_pre r); change (r_preo (k_rule H h)) with (r_preo r); rewrite N1; reflexivity|].
  split; [cbn [happen]; rewrite Q1; cbn [obind w_in w_x w_has]; change (r_gw (k_rule H h1)) with (r_gw r); change (r_gwo (k_rule H h1)) with (r_gwo r); rewrite EB; reflexivity|].
  split; [|split; [reflexivity|exact X3]].
  destruct X3 as (G & Go & _ & LGo & LG & EM).
  assert (MW : model x2 = model (reweight (fun id W => fst (r_gw r id W (G id))) (fun W => fst (r_gwo r W Go)) (reweight (r_pre r) (r_preo r) (w_x w)))) by (rewrite EM, !model_reweight; reflexivity).
  assert (NF : map fid (nfcs x2) = map fid (nfcs (w_x w))) by (rewrite <- (model_nfcs x2), MW, model_nfcs, !reweight_fids; reflexivity).
  assert (NN : n_n x2 = n_n (w_x w)) by (apply (f_equal n_n) in MW; exact MW).
  split; [exact X1|]. cbn [w_x w_has]. split; [rewrite NF; exact J2|]. split; [congruence|]. split.
  - apply model_room. rewrite MW. apply model_room.
    eapply (reweight_keep tb ii); [| |exact W1|exact W4].
    + intros id k W HIn. rewrite <- model_reweight, model_nfcs in LG. specialize (LG id k W HIn).
      destruct RO as (_ & _ & R3 & _). apply (R3 id W (G id)). exact LG.
    + destruct RO as (_ & _ & _ & R4). apply (R4 _ Go). rewrite <- model_reweight in LGo. exact LGo.
  - intros f' t' Q. unfold h1 in Q. cbn [dims] in Q. rewrite HD in Q. injection Q as <- <-. split; [exact X2|exact HH].
Qed.

Lemma go h0 w0 n L : learns n L -> fits (n ++ h0) -> replay H xx h0 = Some w0 -> J h0 w0 ->
  exists w us, replay H xx (n ++ h0) = Some w /\ J (n ++ h0) w /\ rules H (n ++ h0) = rules H h0 ++ us /\ length us = length L /\
    (w_has w0 = true -> w_has w = true /\ descends S (combine us L) (model (w_x w0)) (model (w_x w))).
Proof.
  intros HL HF HW HJ. revert HF. induction HL as [|v h L HL IH HQ|x y ids h L HL IH Hx Hy Hl]; intros HF.
  - exists w0, []. split; [exact HW|]. split; [exact HJ|]. split; [cbn; rewrite app_nil_r; reflexivity|]. split; [reflexivity|]. intros Hh. split; [exact Hh|constructor].
  - destruct (IH (proj2 HF)) as (w & us & I1 & I2 & I3 & I4 & I5).
    destruct (quiet_step (h ++ h0) v w I2 HF HQ) as (w' & K1 & K2 & K3).
    exists w', us. cbn [app replay]. rewrite I1. cbn [obind]. split; [exact K1|]. split; [exact K2|].
    split; [cbn [rules]; rewrite I3; destruct v; try contradiction; apply app_nil_r|]. split; [exact I4|].
    intros Hh. destruct (I5 Hh) as [I6 I7]. destruct (K3 I6) as [K4 K5]. split; [exact K4|]. rewrite K5. exact I7.
  - destruct (IH (proj2 (proj2 HF))) as (w & us & I1 & I2 & I3 & I4 & I5).
    destruct (learn_pair (h ++ h0) x y ids w I2 HF Hx Hy Hl) as (w1 & w2 & K1 & K2 & K3 & K4 & K5).
    eexists w2, (us ++ [_]). cbn [app replay]. rewrite I1. cbn [obind]. rewrite K1. cbn [obind]. split; [exact K2|]. split; [exact K3|].
    split; [cbn [rules app tl]; rewrite I3, app_nil_r, <- app_assoc; reflexivity|]. split; [rewrite !app_length; cbn; lia|].
    intros Hh. destruct (I5 Hh) as [I6 I7]. split; [congruence|].
    assert (C : forall (A B : Type) (a : list A) (b : list B) p q, length a = length b -> combine (a ++ [p]) (b ++ [q]) = combine a b ++ [(p, q)]).
    { clear. intros A B a. induction a as [|z a IHa]; intros [|z' b] p q E; cbn in *; try discriminate; [reflexivity|]. rewrite IHa by lia. reflexivity. }
    rewrite C by exact I4.
    assert (D : forall st x1 x2 x3 p q, descends S st x1 x2 -> gd_step S p q x2 x3 -> descends S (st ++ [(p, q)]) x1 x3).
    { clear. intros st x1 x2 x3 p q D. revert x3. induction D; intros x3 G; cbn; [econstructor; [exact G|constructor]|]. econstructor; [eassumption|]. auto. }
    eapply D; [exact I7|exact K5].
Qed.

(** ** Plans *)
Definition calm (a : act) : Prop := match a with ALearnF _ | ALearnB _ => False | _ => True end.
Inductive wpr : list act -> list (list nat) -> Prop :=
| wpr_nil : wpr [] []
| wpr_skip a p L : wpr p L -> calm a -> wpr (a :: p) L
| wpr_step ids p L : wpr p L -> length ids = tb -> wpr (ALearnB ids :: ALearnF ids :: p) (L ++ [ids]).
Lemma wpr_app q M p L : wpr q M -> wpr p L -> wpr (q ++ p) (L ++ M).
Proof.
  intros Hq Hp. induction Hq as [|a q M Hq IH Ha|ids q M Hq IH Hl]; cbn [app].
  - rewrite app_nil_r. exact Hp.
  - apply wpr_skip; assumption.
  - rewrite app_assoc. apply wpr_step; assumption.
Qed.
Definition Wp (p : list act) L := wpr (rev p) L.
Lemma Wp_app p q L M : Wp p L -> Wp q M -> Wp (p ++ q) (L ++ M).
Proof. intros H1 H2. unfold Wp. rewrite rev_app_distr. apply wpr_app; assumption. Qed.
Lemma Wp_calm p : Forall calm p -> Wp p [].
Proof. intros HF. apply Forall_rev in HF. unfold Wp. induction HF; [constructor|]. apply wpr_skip; assumption. Qed.
Lemma Wp_app0 p q L : Wp p L -> Forall calm q -> Wp (p ++ q) L.
Proof. intros H1 H2. rewrite <- (app_nil_r L). apply Wp_app; [exact H1|apply Wp_calm, H2]. Qed.
Lemma Wp_0app p q L : Forall calm p -> Wp q L -> Wp (p ++ q) L.
Proof. intros H1 H2. change L with ([] ++ L). apply Wp_app; [apply Wp_calm, H1|exact H2]. Qed.
Lemma Wp_flat {X} (f : X -> list act) (g : X -> list (list nat)) l : (forall k, In k l -> Wp (f k) (g k)) -> Wp (flat_map f l) (flat_map g l).
Proof.
  induction l as [|k l IH]; intros Hf; cbn; [constructor|]. apply Wp_app; [apply Hf; left; reflexivity|]. apply IH. intros j Hj. apply Hf. right. exact Hj.
Qed.

Lemma eval_calm fp id : Forall calm (eval_plan S fp id).
Proof.
  unfold eval_plan. constructor; [exact I|]. apply Forall_app. split; [|repeat constructor].
  apply Forall_forall. intros a Ha. apply in_flat_map in Ha. destruct Ha as (k & _ & [<-|[<-|[]]]); exact I.
Qed.
Lemma report_calm fp e : Forall calm (report_plan S fp e).
Proof. unfold report_plan. apply Forall_app. split; [apply eval_calm|]. apply Forall_app. split; [apply eval_calm|repeat constructor]. Qed.
Lemma slice_len p k : Permutation p (seq 0 (cnt S 0)) -> k < cnt S 0 / tb -> length (TData_Spec.slice p tb k) = tb.
Proof.
  intros HP Hk. apply Permutation_length in HP. rewrite seq_length in HP. unfold TData_Spec.slice. rewrite firstn_length_le; [reflexivity|].
  rewrite skipn_length, HP. assert (0 < tb) by (destruct tb; [cbn in Hk; lia|lia]). pose proof (Nat.mul_div_le (cnt S 0) tb ltac:(lia)). nia.
Qed.
Lemma epoch_Wp fp O e p : Permutation p (seq 0 (cnt S 0)) -> Wp (epoch_plan S O fp tb e p) (map (TData_Spec.slice p tb) (seq 0 (cnt S 0 / tb))).
Proof.
  intros HP. unfold epoch_plan. apply (Wp_0app [_]); [repeat constructor|]. apply Wp_app0.
  - replace (map (TData_Spec.slice p tb) (seq 0 (cnt S 0 / tb))) with (flat_map (fun k => [TData_Spec.slice p tb k]) (seq 0 (cnt S 0 / tb))).
    + apply Wp_flat. intros k Hk. apply in_seq in Hk. apply (wpr_step _ [] []); [constructor|]. apply slice_len; [exact HP|lia].
    + generalize (seq 0 (cnt S 0 / tb)). intros l. induction l; cbn; congruence.
  - destruct (checked O e || _); [apply report_calm|]. destruct (o_cond O e); repeat constructor.
Qed.
Lemma epochs_Wp fp O f perms : forall e, Forall (fun p => Permutation p (seq 0 (cnt S 0))) perms -> Wp (epochs_plan S O fp tb e perms f) (batches S tb perms).
Proof.
  induction perms as [|p ps IH]; intros e HF; [constructor|]. inversion HF as [|? ? HP HF']; subst. cbn [epochs_plan batches].
  destruct ps as [|p2 ps].
  - unfold batches. cbn [flat_map]. rewrite app_nil_r. apply Wp_app0; [apply epoch_Wp, HP|]. destruct f; repeat constructor.
  - unfold batches. cbn [flat_map]. apply Wp_app; [apply epoch_Wp, HP|]. apply (Wp_0app [_]); [repeat constructor|]. apply (IH (e + 1)). exact HF'.
Qed.
Definition tail_plan fp O perms f : list act :=
  report_plan S fp (-1) ++ epochs_plan S O fp tb 0 perms f ++ match f with Diverged => [] | _ => if o_time O then [] else [AEnd] end ++ [AObsDeinit].
Lemma tail_Wp fp O perms f : perms_ok S O perms f -> Wp (tail_plan fp O perms f) (batches S tb perms).
Proof.
  intros [HP _]. unfold tail_plan. apply Wp_0app; [apply report_calm|]. apply Wp_app0; [apply epochs_Wp, HP|].
  apply Forall_app. split; [destruct f, (o_time O); repeat constructor|repeat constructor].
Qed.

Lemma plan_learns rp L : wpr rp L -> forall n h0, Forall2 shows (filter planned n) rp -> fits (n ++ h0) -> learns n L.
Proof.
  assert (U : forall v, planned v = false -> quietly v) by (intros [| | | | | | | | | |[]| | | | | | | |]; try discriminate; intros; exact I).
  induction 1 as [|a p L HW IH Ha|ids p L HW IH Hl]; intros n h0.
  - induction n as [|v n IHn]; intros HF HT; [constructor|]. cbn in HF. destruct (planned v) eqn:Q; [inversion HF|].
    apply ln_skip; [apply IHn; [exact HF|apply HT]|apply U, Q].
  - induction n as [|v n IHn]; intros HF HT; [inversion HF|]. cbn in HF. destruct (planned v) eqn:Q.
    + inversion HF as [|? ? ? ? H1 H2]; subst. apply ln_skip; [apply (IH n h0 H2 (proj2 HT))|].
      destruct v as [| | | | | | | | | |[]|[]| | | | | | |], a; try contradiction; try exact I. destruct H1 as [H1 ->]. cbn. eauto.
    + apply ln_skip; [apply IHn; [exact HF|apply HT]|apply U, Q].
  - induction n as [|v n IHn]; intros HF HT; [inversion HF|]. cbn in HF. destruct (planned v) eqn:Q.
    + inversion HF as [|? ? ? ? H1 H2]; subst. destruct v as [| | | | | | | | | |[]|[] bs y| | | | | | |]; try contradiction. destruct H1 as [H1 ->].
      cbn [app fits] in HT. destruct HT as [(x & h' & E) HT]. destruct n as [|v n]; [inversion H2|]. cbn in E. injection E as -> E.
      cbn in H2. inversion H2 as [|? ? ? ? H3 H4]; subst. destruct H3 as [H3 _]. apply ln_step; try assumption.
      apply (IH n h0 H4). apply HT.
    + apply ln_skip; [apply IHn; [exact HF|apply HT]|apply U, Q].
Qed.
End P.
