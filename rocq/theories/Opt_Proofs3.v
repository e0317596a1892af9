(** The stages around the optimizer, and sequences of steps. *)
From Coq Require Import Reals Lra Lia.
From Verif Require Import Base BaseLemmas Workers_Model Workers_Spec Kern_Model Kern_Spec Kern_Proofs
  IdxMax_Model IdxMax_Spec Priv_Model Priv_Proofs Act_Spec Loss_Proofs Sfm_Spec Sfm_Proofs Norm_Model Norm_Spec Norm_Proofs
  Opt_Model Opt_Spec Opt_Ema Opt_Proofs Opt_Proofs2.
Local Open Scope R_scope.

(** the cells change by [Q], nothing else does *)
Definition evolves (Q : nat -> cell -> cell -> Prop) (s s' : st) : Prop :=
  length (s_cells s') = length (s_cells s) /\
  s_b1t s' = s_b1t s /\ s_b2t s' = s_b2t s /\ s_first s' = s_first s /\ s_gamma s' = s_gamma s /\
  forall i c, at_ s i c -> exists c', at_ s' i c' /\ Q i c c'.

Lemma evolves_map (Q : nat -> cell -> cell -> Prop) f s : (forall i c, at_ s i c -> Q i c (f c)) -> evolves Q s (cmap f s).
Proof.
  intros H. split; [apply map_length|]. do 4 (split; [reflexivity|]). intros i c Hc. exists (f c).
  split; [apply at_map with (s := s); [reflexivity|exact Hc]|auto].
Qed.
Lemma zip_at up s v i c : length v = length (s_cells s) -> at_ s i c -> at_ (zip up s v) i (up c (nth i v 0)).
Proof.
  unfold at_, zip, bget. cbn. intros Hl Hc. rewrite nth_error_map.
  assert (Hi : (i < length (s_cells s))%nat) by (apply nth_error_Some; congruence).
  rewrite (nth_error_nth' (combine (s_cells s) v) (c, 0)) by (rewrite combine_length; lia).
  rewrite combine_nth by lia. cbn. rewrite (nth_error_nth _ _ c Hc). reflexivity.
Qed.
Lemma evolves_zip (Q : nat -> cell -> cell -> Prop) up s v : length v = length (s_cells s) ->
  (forall i c, at_ s i c -> Q i c (up c (nth i v 0))) -> evolves Q s (zip up s v).
Proof.
  intros Hl H. split; [apply zip_length; exact Hl|]. do 4 (split; [reflexivity|]). intros i c Hc. eexists.
  split; [apply zip_at; eassumption|auto].
Qed.
Lemma evolves_trans (P Q S : nat -> cell -> cell -> Prop) s1 s2 s3 : evolves P s1 s2 -> evolves Q s2 s3 ->
  (forall i c c1 c2, P i c c1 -> Q i c1 c2 -> S i c c2) -> evolves S s1 s3.
Proof.
  intros (L1 & A1 & B1 & C1 & D1 & H1) (L2 & A2 & B2 & C2 & D2 & H2) H. do 5 (split; [congruence|]).
  intros i c Hc. destruct (H1 i c Hc) as (c1 & Hc1 & HP). destruct (H2 i c1 Hc1) as (c2 & Hc2 & HQ). eauto.
Qed.
Lemma evolves_refl (Q : nat -> cell -> cell -> Prop) s : (forall i c, Q i c c) -> evolves Q s s.
Proof. intros H. repeat (split; [reflexivity|]). intros i c Hc. eauto. Qed.
Lemma evolves_ne Q s s' : evolves Q s s' -> nonempty s -> nonempty s'.
Proof. intros (L & _). unfold nonempty. rewrite L. trivial. Qed.
Lemma evolves_len Q s s' : evolves Q s s' -> length (s_cells s') = length (s_cells s).
Proof. intros (L & _). exact L. Qed.
Lemma evolves_inv Q s s' i c' : evolves Q s s' -> at_ s' i c' -> exists c, at_ s i c /\ Q i c c'.
Proof.
  intros (L & _ & _ & _ & _ & H) Hc'. assert (Hi : (i < length (s_cells s))%nat) by (rewrite <- L; apply nth_error_Some; unfold at_, bget in Hc'; congruence).
  destruct (bget_lt _ _ Hi) as (c & Hc). destruct (H i c Hc) as (c2 & Hc2 & HQ). unfold at_ in *. rewrite Hc' in Hc2. inversion Hc2; subst. eauto.
Qed.

(** ** Individual learning rates *)
Definition ilr_rel (o : cfg) (first : bool) (i : nat) (c c' : cell) : Prop :=
  cW c' = cW c /\ cA c' = cA c /\ cB c' = cB c /\ cV c' = cV c /\
  match o_ilr o with
  | None => cD c' = cD c /\ cG c' = cG c /\ cP c' = cP c
  | Some (k, toMom) =>
      let vel := (o_mom o && toMom)%bool in
      cG c' = (if first then cG c else cG c * ilr_mul k (prev vel c * cD c) (cG c)) /\
      cD c' = (if first then cD c else cD c * cG c') /\
      cP c' = if vel then cP c else cD c'
  end.

Lemma ilr_ok e o first s (post : st -> Prop) : nonempty s -> (forall s', evolves (ilr_rel o first) s s' -> post s') ->
  ilr_stage e o first s post.
Proof.
  intros Hn HP. unfold ilr_stage. destruct (o_ilr o) as [[k toMom]|] eqn:Ei.
  - cbv zeta. set (vel := (o_mom o && toMom)%bool). destruct first.
    + destruct vel eqn:Ev; apply HP.
      * apply evolves_refl. intros i c. unfold ilr_rel. rewrite Ei. fold vel. rewrite Ev. cbn. tauto.
      * apply evolves_map. intros i c _. unfold ilr_rel. rewrite Ei. fold vel. rewrite Ev. cbn. tauto.
    + apply apply_ILR_ok; [exact Hn|]. intros tmp. destruct vel eqn:Ev; apply HP.
      * apply evolves_map. intros i c _. unfold ilr_rel. rewrite Ei. fold vel. rewrite Ev. destruct tmp; cbn; tauto.
      * replace (cmap (fun c => upP c (cD c)) (cmap (F_ilr k false tmp) s)) with (cmap (fun c => (fun c => upP c (cD c)) (F_ilr k false tmp c)) s)
          by (unfold cmap, with_cells; cbn; rewrite map_map; reflexivity).
        apply evolves_map. intros i c _. unfold ilr_rel. rewrite Ei. fold vel. rewrite Ev. destruct tmp; cbn; tauto.
  - apply HP. apply evolves_refl. intros i c. unfold ilr_rel. rewrite Ei. tauto.
Qed.

(** ** Momentum and the change of the weights *)
(** 1, or 0 if the update of weight [i] is dropped *)
Definition kept (o : cfg) (mask : list R) (i : nat) : R := if lrdrop o then bR (gtb (o_lrd o) (nth i mask 0)) else 1.

Definition rest2 (c c' : cell) : Prop := cA c' = cA c /\ cB c' = cB c /\ cG c' = cG c /\ cP c' = cP c.
Definition sub_rel (o : cfg) (mask : list R) (i : nat) (c c' : cell) : Prop :=
  rest2 c c' /\ cV c' = cV c /\ cW c' = cW c - kept o mask i * cD c.
Lemma sub_ok e o mask s (post : st -> Prop) : nonempty s -> length mask = length (s_cells s) ->
  (forall s', evolves (sub_rel o mask) s s' -> post s') -> sub_stage e o mask s post.
Proof.
  intros Hn Hm HP. unfold sub_stage. destruct (lrdrop o) eqn:El.
  - assert (Hn2 : nonempty (zip upX s mask)) by (unfold nonempty; rewrite zip_length by exact Hm; exact Hn).
    apply kcall_run; [exact Hn2|discriminate|]. apply kcall_run; [exact (cmap_ne _ _ Hn2)|discriminate|]. apply HP.
    eapply evolves_trans; [apply evolves_zip with (Q := fun i c c' => c' = upX c (nth i mask 0)); [exact Hm|reflexivity]| |].
    { eapply evolves_trans; [apply evolves_map with (Q := fun _ c c' => c' = run1 (f_mask_D (o_lrd o)) c); reflexivity|
        apply evolves_map with (Q := fun _ c c' => c' = run1 f_sub_WD c); reflexivity|].
      intros i c c1 c2 H1 H2. rewrite H1 in H2. exact H2. }
    intros i c c1 c2 -> ->. unfold sub_rel, rest2, kept. rewrite El. cbn. repeat split. ring.
  - apply kcall_run; [exact Hn|discriminate|]. apply HP. apply evolves_map. intros i c _.
    unfold sub_rel, rest2, kept. rewrite El. cbn. repeat split. ring.
Qed.

Definition mom_rel (o : cfg) (mu : R) (mask : list R) (i : nat) (c c' : cell) : Prop :=
  rest2 c c' /\
  (if o_mom o then
     if o_nest o then cV c' = cV c + cD c /\ cW c' = cW c - kept o mask i * cD c
     else cV c' = mu * cV c + cD c /\ cW c' = cW c - kept o mask i * cV c'
   else cV c' = cV c /\ cW c' = cW c - kept o mask i * cD c).
Lemma mom_ok e o mu mask s (post : st -> Prop) : nonempty s -> length mask = length (s_cells s) ->
  (forall s', evolves (mom_rel o mu mask) s s' -> post s') -> mom_stage e o mu mask s post.
Proof.
  intros Hn Hm HP. unfold mom_stage. destruct (o_mom o) eqn:Em.
  - destruct (o_nest o) eqn:En.
    + apply kcall_run; [exact Hn|discriminate|]. apply sub_ok; [exact (cmap_ne _ _ Hn)|rewrite cmap_length; exact Hm|].
      intros s' Hs'. apply HP. eapply evolves_trans; [apply evolves_map with (Q := fun _ c c' => c' = run1 f_add_VD c); reflexivity|exact Hs'|].
      intros i c c1 c2 -> ((H1 & H2 & H3 & H4) & H5 & H6). unfold mom_rel, rest2. rewrite Em, En. cbn in *. tauto.
    + apply kcall_run; [exact Hn|discriminate|]. destruct (lrdrop o) eqn:El.
      * apply sub_ok; [exact (cmap_ne _ _ (cmap_ne _ _ Hn))|rewrite !cmap_length; exact Hm|].
        intros s' Hs'. apply HP.
        eapply evolves_trans; [apply evolves_map with (Q := fun _ c c' => c' = run1 (f_mom mu) c); reflexivity| |].
        { eapply evolves_trans; [apply evolves_map with (Q := fun _ c c' => c' = upD c (cV c)); reflexivity|exact Hs'|].
          intros i c c1 c2 H1 H2. rewrite H1 in H2. exact H2. }
        intros i c c1 c2 -> ((H1 & H2 & H3 & H4) & H5 & H6). unfold mom_rel, rest2. rewrite Em, En. cbn in *. rewrite H5. tauto.
      * apply kcall_run; [exact (cmap_ne _ _ Hn)|discriminate|]. apply HP.
        eapply evolves_trans; [apply evolves_map with (Q := fun _ c c' => c' = run1 (f_mom mu) c); reflexivity|
          apply evolves_map with (Q := fun _ c c' => c' = run1 f_sub_WV c); reflexivity|].
        intros i c c1 c2 -> ->. unfold mom_rel, rest2, kept. rewrite Em, En, El. cbn. repeat split. ring.
  - apply sub_ok; [exact Hn|exact Hm|]. intros s' Hs'. apply HP.
    eapply evolves_trans; [apply evolves_refl with (Q := fun _ c c' => c' = c); reflexivity|exact Hs'|].
    intros i c c1 c2 -> (H1 & H2 & H3). unfold mom_rel. rewrite Em. tauto.
Qed.

(** ** Max-norm *)
Definition rest3 (c c' : cell) : Prop := rest2 c c' /\ cV c' = cV c /\ cD c' = cD c.
Definition norm_rel (o : cfg) (_ : nat) (c c' : cell) : Prop := rest3 c c' /\ (o_maxn o = None -> cW c' = cW c).
Definition bounded (o : cfg) (s : st) : Prop :=
  forall mx incl, o_maxn o = Some (mx, incl) ->
    forall r, (r < o_rows o)%nat -> row_norm2 (o_rows o) (if incl then o_cols o else o_cols o - 1)%nat (weights s) r <= mx.

Lemma weights_zip s d : length d = length (s_cells s) -> weights (zip upW s d) = d.
Proof.
  intros H. unfold weights, zip. cbn. rewrite map_map. cbn. revert d H.
  generalize (s_cells s). induction l as [|c l IH]; intros [|x d] H; cbn in *; try discriminate; [reflexivity|]. f_equal. apply IH. lia.
Qed.

Lemma norm_ok e o gamma s (post : st -> Prop) : cfg_ok e o gamma -> length (s_cells s) = (o_rows o * o_cols o)%nat ->
  (forall s', evolves (norm_rel o) s s' -> bounded o s' -> post s') -> norm_stage e o s post.
Proof.
  intros (_ & _ & _ & HN) Hl HP. unfold norm_stage. destruct (o_maxn o) as [[mx incl]|] eqn:Em.
  - apply norm_rows_ok; [eapply HN; [reflexivity|unfold weights; rewrite map_length; exact Hl]|discriminate|].
    intros d' Hd'. set (A := mkM (o_rows o) (o_cols o) false false (weights s)) in *. pose proof Hd' as [Hl' He]. cbn in Hl'. unfold weights in Hl' at 1. rewrite map_length in Hl'.
    apply HP.
    + apply evolves_zip; [exact Hl'|]. intros i c _. unfold norm_rel, rest3, rest2. rewrite Em. cbn. repeat split. discriminate.
    + unfold bounded. intros mx' incl' E. rewrite Em in E. inversion E; subst mx' incl'. rewrite weights_zip by exact Hl'.
      intros r Hr. cbn [m_rows m_cols m_data A] in He.
      set (n := row_norm2 (o_rows o) (counted A incl) (weights s) r) in *.
      assert (Hcc : (counted A incl <= o_cols o)%nat) by (unfold counted; destruct incl; cbn; lia).
      assert (Hs := row_norm_scaled (o_rows o) (counted A incl) (weights s) d' r (factor false mx n) ltac:(intros c Hc; apply He; [exact Hr|lia])).
      fold n in Hs. change (if incl then o_cols o else (o_cols o - 1)%nat) with (counted A incl). rewrite Hs.
      specialize (HN mx incl eq_refl (weights s)). destruct HN as (_ & _ & _ & Hmx & _); [unfold weights; rewrite map_length; exact Hl|].
      unfold factor. destruct (Rlt_dec mx n) as [L|L]; [rewrite factor_sq; lra|lra].
  - apply HP; [apply evolves_refl; intros i c; unfold norm_rel, rest3, rest2; tauto|]. intros mx incl E. congruence.
Qed.

(** ** A step *)
Definition apply_rel (o : cfg) (first : bool) (mu : R) (mask : list R) (u : nat -> R) (i : nat) (c c' : cell) : Prop :=
  exists c1 c2 c3, cW c1 = cW c /\ cV c1 = cV c /\ cG c1 = cG c /\ cP c1 = cP c /\ cD c1 = u i /\
    ilr_rel o first i c1 c2 /\ mom_rel o mu mask i c2 c3 /\ norm_rel o i c3 c'.

Lemma tracked_ext o gamma gs Q s s' : tracked o gamma gs s -> evolves Q s s' ->
  (forall i c c', Q i c c' -> cA c' = cA c /\ cB c' = cB c) -> tracked o gamma gs s'.
Proof.
  intros (T1 & T2 & T3 & T4 & T5) HE HQ. pose proof HE as (_ & E1 & E2 & E3 & E4 & _). unfold tracked. rewrite E1, E2, E3, E4.
  do 4 (split; [assumption|]). intros Hg. destruct (T5 Hg) as (P1 & P2 & P3). split; [exact P1|]. split; [exact P2|].
  intros i c' Hc'. destruct (evolves_inv _ _ _ _ _ HE Hc') as (c & Hc & HQc). destruct (HQ _ _ _ HQc) as [-> ->]. exact (P3 i c Hc).
Qed.

Lemma apply_ok e o gamma t gs g s (post : st -> Prop) : cfg_ok e o gamma -> length (s_cells s) = (o_rows o * o_cols o)%nat ->
  length (t_mask2 t) = (o_rows o * o_cols o)%nat -> t_blocked t = false -> tracked o gamma gs s ->
  (forall i c, at_ s i c -> cD c = nth i g 0) ->
  (forall s', length (s_cells s') = length (s_cells s) -> tracked o gamma (gs ++ [g]) s' -> bounded o s' ->
     (forall i c, at_ s i c -> exists c', at_ s' i c' /\
        apply_rel o (s_first s) (t_mu t) (t_mask2 t) (fun i => update (algo_of o gamma) (t_lr t) (hist i (gs ++ [g]))) i c c') ->
     post s') ->
  apply_grad e o t s post.
Proof.
  intros Hcfg Hl Hm Hb HT HD HP. pose proof Hcfg as (Hok & Hpos & _ & _).
  assert (Hn : nonempty s) by (unfold nonempty; lia).
  unfold apply_grad. rewrite Hb. cbv zeta. eapply opt_closed; [exact Hn|exact Hok|exact HT|exact HD|].
  intros s1 (L1 & T1 & R1). apply ilr_ok; [unfold nonempty; lia|]. intros s2 E2.
  apply mom_ok; [exact (evolves_ne _ _ _ E2 ltac:(unfold nonempty; lia))|rewrite (evolves_len _ _ _ E2); lia|]. intros s3 E3.
  apply norm_ok with (gamma := gamma); [exact Hcfg|rewrite (evolves_len _ _ _ E3), (evolves_len _ _ _ E2); lia|].
  intros s4 E4 HB. apply HP.
  - rewrite (evolves_len _ _ _ E4), (evolves_len _ _ _ E3), (evolves_len _ _ _ E2). lia.
  - eapply tracked_ext; [eapply tracked_ext; [eapply tracked_ext; [exact T1|exact E2|]|exact E3|]|exact E4|].
    + intros i c c' (H1 & H2 & H3 & _). tauto.
    + intros i c c' ((H1 & H2 & _) & _). tauto.
    + intros i c c' (((H1 & H2 & _) & _) & _). tauto.
  - exact HB.
  - intros i c Hc. destruct (R1 i c Hc) as (c1 & Hc1 & HD1 & HW & HV & HG & HPp).
    destruct E2 as (_ & _ & _ & _ & _ & E2). destruct (E2 i c1 Hc1) as (c2 & Hc2 & Q2).
    destruct E3 as (_ & _ & _ & _ & _ & E3). destruct (E3 i c2 Hc2) as (c3 & Hc3 & Q3).
    destruct E4 as (_ & _ & _ & _ & _ & E4). destruct (E4 i c3 Hc3) as (c4 & Hc4 & Q4).
    exists c4. split; [exact Hc4|]. exists c1, c2, c3. tauto.
Qed.

(** before the forward pass *)
Definition pre_rel (o : cfg) (t : tstep) (i : nat) (c c' : cell) : Prop :=
  rest2 c c' /\
  if (negb (t_blocked t) && (o_mom o && o_nest o))%bool
  then cV c' = t_mu t * cV c /\
    (o_maxn o = None -> cW c' = cW c - (if o_lrd_nest o then kept o (t_mask1 t) i else 1) * cV c')
  else cV c' = cV c /\ cW c' = cW c.

Lemma pre_ok e o gamma t s (post : st -> Prop) : cfg_ok e o gamma -> length (s_cells s) = (o_rows o * o_cols o)%nat ->
  length (t_mask1 t) = (o_rows o * o_cols o)%nat -> (forall s', evolves (pre_rel o t) s s' -> post s') ->
  pre_training_fprop e o t s post.
Proof.
  intros Hcfg Hl Hm HP. assert (Hn : nonempty s) by (destruct Hcfg as (_ & Hpos & _); unfold nonempty; lia).
  unfold pre_training_fprop. destruct (negb (t_blocked t) && (o_mom o && o_nest o))%bool eqn:Eb.
  - cbv zeta. destruct (lrdrop o && o_lrd_nest o)%bool eqn:El.
    + apply kcall_run; [exact Hn|discriminate|].
      set (s1 := cmap (run1 (f_mulC_V (t_mu t))) s). set (s2 := cmap (fun c => upD c (cV c)) s1).
      assert (Hl2 : length (s_cells s2) = length (s_cells s)) by (unfold s2, s1; rewrite !cmap_length; reflexivity).
      assert (Hn2 : nonempty (zip upX s2 (t_mask1 t))) by (unfold nonempty in *; rewrite zip_length by lia; lia).
      apply kcall_run; [exact Hn2|discriminate|]. apply kcall_run; [exact (cmap_ne _ _ Hn2)|discriminate|].
      apply norm_ok with (gamma := gamma); [exact Hcfg|rewrite !cmap_length, zip_length; lia|].
      intros s' Hs' _. apply HP.
      apply andb_prop in El. destruct El as [El1 El2].
      eapply evolves_trans with (s2 := s1); [apply evolves_map with (Q := fun _ c c' => c' = run1 (f_mulC_V (t_mu t)) c); reflexivity| |].
      { eapply evolves_trans with (s2 := s2); [apply evolves_map with (Q := fun _ c c' => c' = upD c (cV c)); reflexivity| |].
        { eapply evolves_trans; [apply evolves_zip with (v := t_mask1 t) (up := upX) (Q := fun i c c' => c' = upX c (nth i (t_mask1 t) 0)); [lia|reflexivity]| |].
          { eapply evolves_trans; [apply evolves_map with (Q := fun _ c c' => c' = run1 (f_mask_D (o_lrd o)) c); reflexivity| |].
            { eapply evolves_trans; [apply evolves_map with (Q := fun _ c c' => c' = run1 f_sub_WD c); reflexivity|exact Hs'|].
              intros i c c1 c2 H1 H2. rewrite H1 in H2. exact H2. }
            intros i c c1 c2 H1 H2. rewrite H1 in H2. exact H2. }
          intros i c c1 c2 H1 H2. rewrite H1 in H2. exact H2. }
        intros i c c1 c2 H1 H2. rewrite H1 in H2. exact H2. }
      intros i c c1 c2 -> (((H1 & H2 & H3 & H4) & H5 & H6) & H7). cbn in *. unfold pre_rel, rest2. rewrite Eb. split; [tauto|].
      split; [rewrite H5; ring|]. intros E. rewrite (H7 E), H5. unfold kept. rewrite El1, El2. ring.
    + apply kcall_run; [exact Hn|discriminate|].
      apply norm_ok with (gamma := gamma); [exact Hcfg|rewrite cmap_length; exact Hl|].
      intros s' Hs' _. apply HP.
      eapply evolves_trans; [apply evolves_map with (Q := fun _ c c' => c' = run1 (f_mulsub (t_mu t)) c); reflexivity|exact Hs'|].
      intros i c c1 c2 -> (((H1 & H2 & H3 & H4) & H5 & H6) & H7). cbn in *. unfold pre_rel, rest2. rewrite Eb. split; [tauto|].
      split; [rewrite H5; ring|]. intros E. rewrite (H7 E), H5. unfold kept. destruct (lrdrop o), (o_lrd_nest o); try discriminate; ring.
  - apply HP. apply evolves_refl. intros i c. unfold pre_rel, rest2. rewrite Eb. tauto.
Qed.

Lemma weights_len s : length (weights s) = length (s_cells s).
Proof. apply map_length. Qed.

(** one step: [s1] is the state the forward pass sees *)
Theorem step_ok_ e o gamma t gs s (post : st -> Prop) : cfg_ok e o gamma -> step_ok o t ->
  length (s_cells s) = (o_rows o * o_cols o)%nat -> t_blocked t = false -> tracked o gamma gs s ->
  (forall s1 s', let g := t_grad t (weights s1) in
     evolves (pre_rel o t) s s1 ->
     length (s_cells s') = length (s_cells s) -> tracked o gamma (gs ++ [g]) s' -> bounded o s' ->
     (forall i c, at_ s1 i c -> exists c', at_ s' i c' /\
        apply_rel o (s_first s) (t_mu t) (t_mask2 t) (fun i => update (algo_of o gamma) (t_lr t) (hist i (gs ++ [g]))) i c c') ->
     post s') ->
  step e o t s post.
Proof.
  intros Hcfg (Hm1 & Hm2 & Hg) Hl Hb HT HP. unfold step. eapply pre_ok; [exact Hcfg|exact Hl|exact Hm1|]. intros s1 E1.
  pose proof (evolves_len _ _ _ E1) as L1. set (g := t_grad t (weights s1)).
  assert (Hlg : length g = length (s_cells s1)) by (unfold g; rewrite Hg; rewrite ?weights_len; lia).
  eapply apply_ok with (gs := gs) (g := g).
  - exact Hcfg.
  - rewrite zip_length; lia.
  - exact Hm2.
  - exact Hb.
  - eapply tracked_ext; [exact HT| |].
    + eapply evolves_trans with (Q := fun i c c' => c' = upD c (nth i g 0)); [exact E1|apply evolves_zip; [exact Hlg|reflexivity]|].
      intros i c c1 c2 H1 H2. exact (ex_intro (fun c1 => pre_rel o t i c c1 /\ c2 = upD c1 (nth i g 0)) c1 (conj H1 H2)).
    + intros i c c' (c1 & ((H1 & H2 & _) & _) & ->). cbn. tauto.
  - intros i c Hc. assert (Hz : evolves (fun i c c' => c' = upD c (nth i g 0)) s1 (zip upD s1 g)) by (apply evolves_zip; [exact Hlg|reflexivity]).
    destruct (evolves_inv _ _ _ _ _ Hz Hc) as (c0 & _ & ->). reflexivity.
  - intros s' L' T' B' R'. apply HP with (s1 := s1); try assumption.
    + rewrite zip_length in L' by exact Hlg. lia.
    + intros i c Hc. destruct (R' i (upD c (nth i g 0))) as (c' & Hc' & c1 & c2 & c3 & Q); [apply zip_at; assumption|].
      exists c'. split; [exact Hc'|]. exists c1, c2, c3. assert (s_first (zip upD s1 g) = s_first s) as <- by (destruct E1 as (_ & _ & _ & E & _); exact E). exact Q.
Qed.

(** with learning blocked nothing changes but dL/dW *)
Theorem step_blocked e o t s (post : st -> Prop) : t_blocked t = true ->
  post (zip upD s (t_grad t (weights s))) -> step e o t s post.
Proof. intros Hb HP. unfold step, pre_training_fprop, apply_grad. rewrite Hb. exact HP. Qed.
