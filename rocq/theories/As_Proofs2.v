(** The whole object. *)
From Coq Require Import Reals ZArith Lia Lra.
From Verif Require Import Base BaseLemmas Workers_Model Workers_Spec Kern_Model Kern_Spec Kern_Proofs DataBuf_Model DataBuf_Spec DataBuf_Proofs
  Rng_Model Rng_Spec Rng_Proofs As_Model As_Spec As_Proofs.
Local Open Scope nat_scope.

Section A.
Context {E D : Type} (uni : E -> R * E) (nrm : E * D -> R * (E * D)) (initA : Z -> nat -> E) (cnt : task -> nat).
Context (T : nat).
Local Notation ctx := (@ctx E D).
Local Notation astate := (@astate E D).
Local Notation drawn := (drawn uni nrm).
Local Notation bg_step := (bg_step uni nrm cnt).
Local Notation bg_run := (bg_run uni nrm cnt).
Local Notation quiesce := (quiesce uni nrm cnt).

Lemma pick_put {A} j k (x : A) p : pick k (put j x p) = match j, k with TNormal, TNormal | TUni, TUni => x | _, _ => pick k p end.
Proof. destruct j, k, p; reflexivity. Qed.

Record ainv (s : astate) : Prop := {
  ai_len : length (a_thr s) = T;
  ai_pend : forall t c j n, nth_error (a_thr s) t = Some c -> c_pend c = Some (j, n) -> 0 < n <= cnt j /\ a_bufs s <> None;
  ai_task : forall j, a_task s j = true -> a_bufs s <> None;
  ai_buf : forall p j, a_bufs s = Some p -> binv (drawn j) (pick j p) }.
Definition held (s : astate) (j : task) (r : range) (n : nat) : Prop :=
  match a_bufs s with Some p => hinv (drawn j) (pick j p) r n | None => False end.
(** what a step of a background thread leaves alone *)
Definition bsame (s s' : astate) : Prop :=
  a_size s' = a_size s /\ a_task s' = a_task s /\ (a_bufs s = None <-> a_bufs s' = None) /\ forall j r n, held s j r n -> held s' j r n.
Lemma bsame_refl s : bsame s s. Proof. repeat split; auto. Qed.
Lemma bsame_trans s1 s2 s3 : bsame s1 s2 -> bsame s2 s3 -> bsame s1 s3.
Proof. intros (A1 & A2 & A3 & A4) (B1 & B2 & B3 & B4). split; [congruence|]. split; [congruence|]. split; [tauto|]. intros; apply B4, A4; assumption. Qed.

Lemma generate_ok j n : forall e d, let '(l, _, _) := generate uni nrm j n e d in length l = n /\ Forall (drawn j) l.
Proof.
  induction n as [|n IH]; intros e d; cbn [generate]; [split; [reflexivity|constructor]|].
  destruct j.
  - destruct (nrm (e, d)) as [v [e' d']] eqn:Ev. specialize (IH e' d'). destruct (generate uni nrm TNormal n e' d') as [[l ?] ?]. destruct IH as [L F].
    cbn [length]. split; [lia|]. constructor; [exists (e, d); rewrite Ev; reflexivity|exact F].
  - destruct (uni e) as [v e'] eqn:Ev. specialize (IH e' d). destruct (generate uni nrm TUni n e' d) as [[l ?] ?]. destruct IH as [L F].
    cbn [length]. split; [lia|]. constructor; [exists e; rewrite Ev; reflexivity|exact F].
Qed.

Lemma set_ok s j b t c thr p :
  ainv s -> a_bufs s = Some p -> binv (drawn j) b -> (forall r n, hinv (drawn j) (pick j p) r n -> hinv (drawn j) b r n) ->
  bset (a_thr s) t c = Some thr -> (forall j n, c_pend c = Some (j, n) -> 0 < n <= cnt j) ->
  let s' := set_thr (set_buf s j b) thr in ainv s' /\ bsame s s'.
Proof.
  intros [I1 I2 I3 I4] Ep Hb Hh Et Hc s'. apply bset_some in Et. destruct Et as (Lt & L & G).
  assert (Eb : a_bufs s' = Some (put j b p)) by (unfold s', set_thr, set_buf; cbn; rewrite Ep; reflexivity).
  split.
  - constructor.
    + cbn. congruence.
    + intros t' c' j' n' H1 H2. split; [|rewrite Eb; discriminate]. cbn in H1. change (bget thr t' = Some c') in H1. rewrite G in H1.
      destruct (t' =? t); [injection H1 as <-; apply (Hc j' n'), H2|]. apply (I2 t' c' j' n' H1 H2).
    + intros j' _. rewrite Eb. discriminate.
    + intros p' j' H. rewrite Eb in H. injection H as <-. rewrite pick_put. destruct j, j'; try assumption; apply I4, Ep.
  - split; [reflexivity|]. split; [reflexivity|]. split; [rewrite Eb, Ep; split; discriminate|].
    intros j' r n H. unfold held in *. rewrite Eb. rewrite Ep in H. rewrite pick_put. destruct j, j'; try assumption; apply Hh, H.
Qed.

Lemma bg_step_ok t j s : t < T -> ainv s -> exists s', bg_step t j s = Some s' /\ ainv s' /\ bsame s s'.
Proof.
  intros Ht I. pose proof I as [I1 I2 I3 I4]. unfold As_Model.bg_step. destruct (bget_lt (a_thr s) t) as [c Ec]; [lia|]. rewrite Ec. cbn [obind].
  destruct (c_pend c) as [[j' n]|] eqn:Epd.
  - destruct (I2 t c j' n Ec Epd) as [Hn Hb]. destruct (a_bufs s) as [p|] eqn:Ep; [|congruence].
    replace (n <=? Nat.max (cnt TNormal) (cnt TUni)) with true by (symmetry; apply Nat.leb_le; destruct j'; lia). cbn [guard obind].
    pose proof (generate_ok j' n (c_rng c) (c_nd c)) as G. destruct (generate uni nrm j' n (c_rng c) (c_nd c)) as [[l e] d]. destruct G as [L F].
    destruct (fill_inv (drawn j') (pick j' p) l (I4 p j' eq_refl) F ltac:(lia)) as (b & -> & B1 & B2 & B3). cbn [obind].
    destruct (bset_lt (a_thr s) t (mkC e d None)) as [thr Et]; [lia|]. rewrite Et. cbn [obind]. eexists. split; [reflexivity|].
    apply (set_ok s j' b t _ thr p I Ep B1 B3 Et). cbn. discriminate.
  - destruct (a_task s j) eqn:Ej.
    + specialize (I3 j Ej). destruct (a_bufs s) as [p|] eqn:Ep; [|congruence]. cbn [obind].
      destruct (should_work (pick j p) (cnt j)) as [r b] eqn:Ew. destruct (claim_inv (drawn j) (pick j p) (cnt j) r b (I4 p j eq_refl) Ew) as (B1 & B2 & _ & B3).
      set (c' := mkC (c_rng c) (c_nd c) (if r =? 0 then None else Some (j, r))). destruct (bset_lt (a_thr s) t c') as [thr Et]; [lia|]. rewrite Et. cbn [obind]. eexists. split; [reflexivity|].
      apply (set_ok s j b t _ thr p I Ep B1 B3 Et). cbn. destruct (Nat.eqb_spec r 0); [discriminate|]. intros j' n' [= <- <-]. lia.
    + exists s. split; [reflexivity|]. split; [exact I|apply bsame_refl].
Qed.

Lemma bg_run_ok l : forall s, good_bg T l -> ainv s -> exists s', bg_run l s = Some s' /\ ainv s' /\ bsame s s'.
Proof.
  induction l as [|[t j] l IH]; intros s H I; cbn [As_Model.bg_run]; [exists s; split; [reflexivity|]; split; [exact I|apply bsame_refl]|].
  inversion H as [|? ? H1 H2]; subst. destruct (bg_step_ok t j s H1 I) as (s1 & -> & I1 & B1). cbn [obind].
  destruct (IH s1 H2 I1) as (s2 & -> & I2 & B2). exists s2. split; [reflexivity|]. split; [exact I2|]. eapply bsame_trans; eassumption.
Qed.

Lemma step_thr t j s s' : bg_step t j s = Some s' -> forall c, bget (a_thr s) t = Some c -> c_pend c <> None ->
  (forall t', t' <> t -> nth_error (a_thr s') t' = nth_error (a_thr s) t') /\ exists c', nth_error (a_thr s') t = Some c' /\ c_pend c' = None.
Proof.
  unfold As_Model.bg_step. intros H c Ec Hp. rewrite Ec in H. cbn [obind] in H. destruct (c_pend c) as [[j' n]|] eqn:Ep; [|congruence].
  destruct (guard _); cbn [obind] in H; [|discriminate]. destruct (generate uni nrm j' n (c_rng c) (c_nd c)) as [[l e] d].
  destruct (a_bufs s) as [p|]; cbn [obind] in H; [|discriminate]. destruct (as_done (pick j' p) l) as [b|]; cbn [obind] in H; [|discriminate].
  destruct (bset (a_thr s) t (mkC e d None)) as [thr|] eqn:Et; cbn [obind] in H; [|discriminate]. injection H as <-.
  apply bset_some in Et. destruct Et as (L1 & L2 & G). cbn. unfold bget in G. split.
  - intros t' Ht. rewrite G. apply Nat.eqb_neq in Ht. rewrite Ht. reflexivity.
  - exists (mkC e d None). rewrite G, Nat.eqb_refl. split; reflexivity.
Qed.
Definition quiet (s : astate) : Prop := forall t c, nth_error (a_thr s) t = Some c -> c_pend c = None.
Lemma quiesce_ok s : ainv s -> exists s', quiesce s = Some s' /\ ainv s' /\ bsame s s' /\ quiet s'.
Proof.
  intros I. unfold As_Model.quiesce. rewrite (ai_len s I).
  destruct (for_loop_inv (fun t st => ainv st /\ bsame s st /\ forall t' c, t' < t -> nth_error (a_thr st) t' = Some c -> c_pend c = None) 0 T
    (fun t s => do c <- bget (a_thr s) t; match c_pend c with Some (j, _) => bg_step t j s | None => Some s end) s) as (s' & E1 & I' & B & Q).
  - split; [exact I|]. split; [apply bsame_refl|]. intros; lia.
  - intros t st Ht (I1 & B1 & Q1). destruct (bget_lt (a_thr st) t) as [c Ec]; [rewrite (ai_len st I1); lia|]. rewrite Ec. cbn [obind].
    destruct (c_pend c) as [[j n]|] eqn:Ep.
    + destruct (bg_step_ok t j st ltac:(lia) I1) as (s2 & E2 & I2 & B2). exists s2. split; [exact E2|]. split; [exact I2|]. split; [eapply bsame_trans; eassumption|].
      destruct (step_thr t j st s2 E2 c Ec ltac:(congruence)) as [N1 (c' & N2 & N3)]. intros t' c0 Hl Hc. destruct (Nat.eq_dec t' t) as [->|Hne]; [congruence|].
      rewrite N1 in Hc by exact Hne. apply (Q1 t' c0); [lia|exact Hc].
    + exists st. split; [reflexivity|]. split; [exact I1|]. split; [exact B1|]. intros t' c0 Hl Hc. destruct (Nat.eq_dec t' t) as [->|Hne]; [unfold bget in Ec; congruence|]. apply (Q1 t' c0); [lia|exact Hc].
  - exists s'. split; [exact E1|]. split; [exact I'|]. split; [exact B|]. intros t c Hc. apply (Q t c); [|exact Hc]. cbn. rewrite <- (ai_len s' I'). apply nth_error_Some. congruence.
Qed.

Lemma read_ok bg j r m : (forall k, good_bg T (bg k)) -> forall n k s, ainv s -> held s j r m -> k + n <= m ->
  exists l s', read_range uni nrm cnt bg j r k n s = Some (l, s') /\ ainv s' /\ bsame s s' /\ length l = n /\ Forall (drawn j) l.
Proof.
  intros Hbg. induction n as [|n IH]; intros k s I H Hk; cbn [read_range].
  - exists [], s. split; [reflexivity|]. split; [exact I|]. split; [apply bsame_refl|]. split; [reflexivity|constructor].
  - destruct (bg_run_ok (bg k) s (Hbg k) I) as (s1 & -> & I1 & B1). cbn [obind].
    pose proof (proj2 (proj2 (proj2 B1)) j r m H) as H1. pose proof H1 as H1'. unfold held in H1. destruct (a_bufs s1) as [p|] eqn:Ep; [|contradiction]. cbn [obind].
    destruct (held_get (drawn j) (pick j p) r m k (ai_buf s1 I1 p j Ep) H1 ltac:(lia)) as (v & -> & Hv). cbn [obind].
    destruct (IH (S k) s1 I1 H1' ltac:(lia)) as (l & s2 & -> & I2 & B2 & L & F). cbn [obind].
    exists (v :: l), s2. split; [reflexivity|]. split; [exact I2|]. split; [eapply bsame_trans; eassumption|]. split; [cbn; lia|constructor; assumption].
Qed.

Lemma move_ok bg0 bg bg1 j n s : good_bg T bg0 -> (forall k, good_bg T (bg k)) -> good_bg T bg1 -> ainv s ->
  exists o s', move_data uni nrm cnt bg0 bg bg1 j n s = Some (o, s') /\ ainv s' /\ (a_bufs s = None <-> a_bufs s' = None) /\
    match o with Some l => length l = n /\ Forall (drawn j) l | None => True end.
Proof.
  intros H0 H H1 I. unfold move_data. destruct (bg_run_ok bg0 s H0 I) as (s1 & -> & I1 & B1). cbn [obind].
  pose proof (proj1 (proj2 (proj2 B1))) as N1.
  destruct (a_bufs s1) as [p|] eqn:Ep; [|exists None, s1; split; [reflexivity|]; split; [exact I1|]; split; [rewrite Ep; tauto|exact Logic.I]].
  destruct (pick j (a_size s1) =? 0); [exists None, s1; split; [reflexivity|]; split; [exact I1|]; split; [rewrite Ep; tauto|exact Logic.I]|].
  destruct (acquire (pick j p) n) as [r|] eqn:Ea; [|exists None, s1; split; [reflexivity|]; split; [exact I1|]; split; [rewrite Ep; tauto|exact Logic.I]].
  destruct (acquire_inv (drawn j) (pick j p) n r (ai_buf s1 I1 p j Ep) Ea) as [Hh _].
  destruct (read_ok bg j r n H n 0 s1 I1) as (l & s2 & -> & I2 & B2 & L & F); [unfold held; rewrite Ep; exact Hh|lia|]. cbn [obind].
  destruct (bg_run_ok bg1 s2 H1 I2) as (s3 & -> & I3 & B3). cbn [obind].
  assert (Hh3 : held s3 j r n). { apply B3, B2. unfold held. rewrite Ep. exact Hh. }
  unfold held in Hh3. destruct (a_bufs s3) as [p3|] eqn:Ep3; [|contradiction]. cbn [obind].
  exists (Some l), (set_buf s3 j (release (pick j p3) r)). split; [reflexivity|].
  assert (Eb : a_bufs (set_buf s3 j (release (pick j p3) r)) = Some (put j (release (pick j p3) r) p3)) by (unfold set_buf; rewrite Ep3; reflexivity).
  split; [|split; [rewrite Eb; split; [intros X; apply N1 in X; congruence|discriminate]|split; assumption]].
  destruct I3 as [J1 J2 J3 J4]. constructor.
  - exact J1.
  - intros t c j' n' Q1 Q2. destruct (J2 t c j' n' Q1 Q2) as [X _]. split; [exact X|rewrite Eb; discriminate].
  - intros j' _. rewrite Eb. discriminate.
  - intros p' j' X. rewrite Eb in X. injection X as <-. rewrite pick_put.
    pose proof (release_inv (drawn j) (pick j p3) r n (J4 p3 j Ep3) Hh3) as RI. destruct j, j'; try exact RI; apply J4; exact Ep3.
Qed.

Lemma scaling_ok l span ofs : apply_scaling l span ofs 1 0 = map (fun z => (ofs + span * z)%R) l.
Proof.
  unfold apply_scaling. destruct (Req_EM_T span 1) as [->|]; destruct (Req_EM_T ofs 0) as [->|]; cbn [orb andb].
  - rewrite <- (map_id l) at 1. apply map_ext. intros. lra.
  - apply map_ext. intros. lra.
  - apply map_ext. intros. lra.
  - apply map_ext. intros. lra.
Qed.
Lemma req_scale_ok q l : req_scale q l = map (wanted q) l.
Proof.
  destruct q as [a|neg pos| |m st]; cbn [req_scale wanted].
  - rewrite scaling_ok. apply map_ext. intros z. cbn [wanted]. ring.
  - apply scaling_ok.
  - symmetry. apply map_id.
  - apply scaling_ok.
Qed.
Lemma req_base_ok q z : req_base q z = wanted q z.
Proof. destruct q; cbn; unfold el_sym, el_between, el_span, el_norm, el_normal; ring. Qed.

Context (rs : list prange) (bnd : request -> nat) (dn0 : D) (HP : pool rs).
Local Notation ev_step := (ev_step uni nrm initA cnt rs bnd dn0).
Local Notation ev_run := (ev_run uni nrm initA cnt rs bnd dn0).
Local Notation served := (served uni nrm rs bnd dn0).

Record ginv (up : bool) (g : rng_as (E := E) (D := D)) : Prop := {
  gi_a : ainv (g_as g); gi_l : length (g_rngs g) = length rs + 1; gi_up : up = false -> a_bufs (g_as g) = None }.

Lemma step_ok up g e l : ginv up g -> alternates T up (e :: l) ->
  exists o g' up', ev_step g e = Some (o, g') /\ served e o /\ ginv up' g' /\ alternates T up' l.
Proof.
  intros [I L U] H. destruct e as [t j|j ne|mem| |sd|bg0 bg bg1 q n]; cbn [As_Model.ev_step alternates] in *.
  - destruct H as [Ht H]. destruct (bg_step_ok t j (g_as g) Ht I) as (s & -> & I' & B). cbn [obind]. eexists _, _, up. split; [reflexivity|].
    split; [exact Logic.I|]. split; [|exact H]. constructor; [exact I'|exact L|intros Hu; apply (proj1 (proj2 (proj2 B))), U, Hu].
  - eexists _, _, up. split; [reflexivity|]. split; [exact Logic.I|]. split; [|exact H]. destruct I as [I1 I2 I3 I4].
    constructor; [constructor; assumption|exact L|exact U].
  - destruct H as (-> & Hm & H). specialize (U eq_refl). unfold init_rng, as_init. rewrite U.
    destruct (_ + _ =? 0) eqn:E0.
    + cbn [obind]. eexists _, _, true. split; [reflexivity|]. split; [exact Logic.I|]. split; [|exact H]. destruct I as [I1 I2 I3 I4].
      constructor; [|exact L|discriminate]. constructor; cbn; [exact I1| | |discriminate].
      * intros t c j n Q1 Q2. destruct (I2 t c j n Q1 Q2) as [X Y]. split; [exact X|]. rewrite U in Y. exact Y.
      * intros j Q. specialize (I3 j Q). rewrite U in I3. exact I3.
    + destruct (mem _) as [m|] eqn:Em.
      * destruct (quiesce_ok (g_as g) I) as (s & -> & I' & B & Q). cbn [obind]. eexists _, _, true. split; [reflexivity|]. split; [exact Logic.I|]. split; [|exact H].
        constructor; [|exact L|discriminate]. destruct I' as [I1 I2 I3 I4]. constructor; cbn; [exact I1| | |].
        -- intros t c j n Q1 Q2. rewrite (Q t c Q1) in Q2. discriminate.
        -- intros j _. discriminate.
        -- intros p j [= <-]. destruct j; apply new_inv.
      * cbn [obind]. eexists _, _, true. split; [reflexivity|]. split; [exact Logic.I|]. split; [|exact H]. destruct I as [I1 I2 I3 I4].
        constructor; [|exact L|discriminate]. constructor; cbn; [exact I1| | |discriminate].
        -- intros t c j n Q1 Q2. destruct (I2 t c j n Q1 Q2) as [X Y]. split; [exact X|]. rewrite U in Y. exact Y.
        -- intros j Q. specialize (I3 j Q). rewrite U in I3. exact I3.
  - unfold deinit_rng, as_deinit. destruct (quiesce_ok (g_as g) I) as (s & -> & I' & B & Q). cbn [obind]. eexists _, _, false. split; [reflexivity|].
    split; [exact Logic.I|]. split; [|exact H]. constructor; [|exact L|reflexivity]. destruct I' as [I1 I2 I3 I4]. constructor; cbn; try discriminate; [exact I1|].
    intros t c j n Q1 Q2. rewrite (Q t c Q1) in Q2. discriminate.
  - unfold seed. rewrite (seed_mt_ok initA sd rs (g_rngs g) HP L). cbn [obind]. unfold as_seed. destruct (quiesce_ok (g_as g) I) as (s & -> & I' & B & Q). cbn [obind].
    eexists _, _, up. split; [reflexivity|]. split; [exact Logic.I|]. split; [|exact H]. constructor; cbn; [|rewrite map_length, seq_length; reflexivity|intros Hu; apply (proj1 (proj2 (proj2 B))), U, Hu].
    destruct I' as [I1 I2 I3 I4]. constructor; cbn; [rewrite map_length, combine_length, seq_length; lia| |exact I3|exact I4].
    intros t c j n Q1 Q2. rewrite nth_error_map in Q1. destruct (nth_error (combine _ _) t) as [[t' c']|] eqn:Ec; [|discriminate]. injection Q1 as <-. cbn in Q2.
    apply nth_error_In, in_combine_r in Ec. apply In_nth_error in Ec. destruct Ec as [t'' Ec]. apply (I2 t'' c' j n Ec Q2).
  - destruct H as (H0 & H1 & H2 & H). unfold generate_vector. destruct (move_ok bg0 bg bg1 (req_task q) n (g_as g) H0 H1 H2 I) as (o & s & -> & I' & B & R). cbn [obind].
    destruct o as [v|].
    + destruct R as [Lv Fv]. cbn [obind]. eexists _, _, up. split; [reflexivity|]. split; [|split; [constructor; [exact I'|exact L|intros Hu; apply B, U, Hu]|exact H]].
      cbn. rewrite req_scale_ok, map_length. split; [exact Lv|]. apply Forall_forall. intros x Hx. apply in_map_iff in Hx. destruct Hx as (z & <- & Hz).
      rewrite Forall_forall in Fv. exists z. split; [apply Fv, Hz|reflexivity].
    + destruct (mt_ok dn0 (base_draw uni nrm q) (req_base q) 0 n rs (bnd q) (g_rngs g) HP L) as (use & _ & _ & rngs' & -> & Adv). cbn [obind].
      eexists _, _, up. split; [reflexivity|]. split; [|split; [constructor; [exact I'|cbn; rewrite (proj1 Adv); exact L|intros Hu; apply B, U, Hu]|exact H]].
      cbn. intros ptr d Hd. apply mt_range; [exact HP|exact L|exact Hd|]. intros e k. rewrite req_base_ok. eexists. split; [|reflexivity].
      unfold number. set (sd := after _ k _). unfold base_draw. destruct q; cbn; try (exists (fst sd); destruct (uni (fst sd)); reflexivity). exists sd; reflexivity.
Qed.
Lemma run_ok : forall l up g, ginv up g -> alternates T up l -> exists os g' up', ev_run g l = Some (os, g') /\ Forall2 served l os /\ ginv up' g'.
Proof.
  induction l as [|e l IH]; intros up g I H; cbn [As_Model.ev_run].
  - exists [], g, up. split; [reflexivity|]. split; [constructor|exact I].
  - destruct (step_ok up g e l I H) as (o & g1 & up1 & -> & S1 & I1 & H1). cbn [obind].
    destruct (IH up1 g1 I1 H1) as (os & g2 & up2 & -> & S2 & I2). cbn [obind].
    exists (o :: os), g2, up2. split; [reflexivity|]. split; [constructor; assumption|exact I2].
Qed.
Theorem serves_main mk sd l : alternates T false l ->
  exists os g', ev_run (rng_new rs dn0 mk T sd) l = Some (os, g') /\ Forall2 served l os.
Proof.
  intros H. destruct (run_ok l false (rng_new rs dn0 mk T sd)) as (os & g' & _ & E1 & E2 & _); [|exact H|eauto].
  constructor; cbn; [|unfold construct_rngs; rewrite map_length, seq_length; reflexivity|reflexivity].
  constructor; cbn; try discriminate; [rewrite map_length; apply seq_length|].
  intros t c j n Q1 Q2. rewrite nth_error_map in Q1. destruct (nth_error _ t); [|discriminate]. injection Q1 as <-. discriminate.
Qed.
End A.
