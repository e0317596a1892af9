(** Gradient check: the whole run. *)
From Coq Require Import Reals Permutation Lra.
From Verif Require Import Base BaseLemmas TData_Model TData_Spec TData_Proofs2 Gc_Model Gc_Spec Gc_Proofs Gc_Proofs2 Gc_Proofs3 Gc_Proofs4.
Local Open Scope nat_scope.

Section P.
Context {G : Type} (E : genv G) (N : gnet) (T : setts).
Context (HN : net_ok N) (HE : rng_good E) (HF : finite_thresholds T).
Context (W : list (list xf)) (HW : weights_ok N W) (rows bs : nat).
Notation st := (st G). Notation net := (net G). Notation fst_ := (fst_ G).
Notation good := (good rows). Notation mg := (mg T bs).
Notation ran := (ran E N T W rows bs).
Notation ext := (ext E N T W rows bs).

(** [P]: the layers that were to be checked *)
Definition clean (P : glayer -> Prop) (g : group) (cs : list check) : Prop :=
  (forall l g1 r c an num, In (l, g1, r, c, an, num) cs -> ~ wrong T g1 an num) /\
  (forall l, P l -> ~ exempt T l g -> zeros cs (gidx l) g <= zeros_allowed T l g).
Definition outcome (n0 : net) (g : group) (P : glayer -> Prop) (f f' : fst_) (cs : list check) : Prop :=
  ext n0 g f f' cs /\ (forall l g1 r c an num, In (l, g1, r, c, an, num) cs -> P l /\ g1 = g) /\
  (f_fail f' = 0 <-> clean P g cs) /\
  (f_fail f' = 0 -> forall l, P l -> ~ In (gidx l) (st_ignore T) -> covered N T cs g l).

Lemma covered_mono cs cs1 cs2 g l : covered N T cs g l -> covered N T (cs1 ++ cs ++ cs2) g l.
Proof.
  assert (D : forall r c, done cs l g r c -> done (cs1 ++ cs ++ cs2) l g r c).
  { intros r c (an & num & H). exists an, num. apply in_or_app. right. apply in_or_app. left. exact H. }
  assert (K : forall n k (P Q : nat -> Prop), (forall x, P x -> Q x) -> picks n k P -> picks n k Q).
  { intros n k P Q HPQ (xs & K1 & K2 & K3 & K4). exists xs. split; [exact K1|]. split; [exact K2|]. split; [exact K3|]. eapply Forall_impl; eauto. }
  destruct g; cbn [covered].
  - intros H Ho. eapply K; [|exact (H Ho)]. intros x. apply D.
  - intros H idx n inc u El. destruct (H idx n inc u El) as [H1 H2]. split.
    + eapply K; [|exact H1]. intros x Hx. cbv beta in *. eapply K; [|exact Hx]. intros y. apply D.
    + eapply K; [|exact H2]. intros x. apply D.
Qed.
Lemma covered_app_l cs cs2 g l : covered N T cs g l -> covered N T (cs ++ cs2) g l.
Proof. exact (covered_mono cs [] cs2 g l). Qed.
Lemma covered_app_r cs cs1 g l : covered N T cs g l -> covered N T (cs1 ++ cs) g l.
Proof. intros H. rewrite <- (app_nil_r cs). apply covered_mono, H. Qed.

Lemma outcome_iff n0 g (P Q : glayer -> Prop) f f' cs : (forall l, P l <-> Q l) -> outcome n0 g P f f' cs -> outcome n0 g Q f f' cs.
Proof.
  intros H (O1 & O2 & O3 & O4). split; [exact O1|]. split; [|split].
  - intros l g1 r c an num Hin. destruct (O2 _ _ _ _ _ _ Hin) as [X Y]. split; [apply H, X|exact Y].
  - rewrite O3. unfold clean. split; intros [X Y]; (split; [exact X|]); intros l Hl; apply Y, H, Hl.
  - intros Hz l Hl. apply O4; [exact Hz|apply H, Hl].
Qed.
Lemma outcome_fail n0 g (P Q : glayer -> Prop) f f' cs : outcome n0 g P f f' cs -> f_fail f' <> 0 -> outcome n0 g (fun l => P l \/ Q l) f f' cs.
Proof.
  intros (O1 & O2 & O3 & O4) Hf. split; [exact O1|]. split; [|split].
  - intros l g1 r c an num Hin. destruct (O2 _ _ _ _ _ _ Hin) as [X Y]. auto.
  - split; [intros X; contradiction|]. intros [X Y]. apply O3. split; [exact X|]. intros l Hl. apply Y. left. exact Hl.
  - intros X; contradiction.
Qed.
Lemma outcome_seq n0 g (P Q : glayer -> Prop) f f1 f2 cs1 cs2 : (forall l l', P l -> Q l' -> gidx l <> gidx l') ->
  outcome n0 g P f f1 cs1 -> f_fail f1 = 0 -> outcome n0 g Q f1 f2 cs2 -> outcome n0 g (fun l => P l \/ Q l) f f2 (cs1 ++ cs2).
Proof.
  intros Hd (O1 & O2 & O3 & O4) Hf (R1 & R2 & R3 & R4). split; [eapply ext_trans; eassumption|]. split; [|split].
  - intros l g1 r c an num Hin. apply in_app_or in Hin as [Hin|Hin]; [destruct (O2 _ _ _ _ _ _ Hin)|destruct (R2 _ _ _ _ _ _ Hin)]; auto.
  - rewrite R3. pose proof (proj1 O3 Hf) as [C1 C2]. unfold clean.
    assert (ZQ : forall l, P l -> zeros cs2 (gidx l) g = 0).
    { intros l Hl. apply zeros_other. intros l' g' r c an num Hin Hi. destruct (R2 _ _ _ _ _ _ Hin) as [X _]. elim (Hd l l' Hl X). auto. }
    assert (ZP : forall l, Q l -> zeros cs1 (gidx l) g = 0).
    { intros l Hl. apply zeros_other. intros l' g' r c an num Hin Hi. destruct (O2 _ _ _ _ _ _ Hin) as [X _]. elim (Hd l' l X Hl). auto. }
    split; intros [X Y].
    + split.
      * intros l g1 r c an num Hin. apply in_app_or in Hin as [Hin|Hin]; [eapply C1, Hin|eapply X, Hin].
      * intros l [Hl|Hl] Hx; rewrite zeros_app.
        -- rewrite (ZQ l Hl), Nat.add_0_r. apply C2; assumption.
        -- rewrite (ZP l Hl). apply Y; assumption.
    + split.
      * intros l g1 r c an num Hin. eapply X. apply in_or_app. right. exact Hin.
      * intros l Hl Hx. specialize (Y l (or_intror Hl) Hx). rewrite zeros_app, (ZP l Hl) in Y. exact Y.
  - intros Hz l [Hl|Hl] Hi; [apply covered_app_l, O4|apply covered_app_r, R4]; assumption.
Qed.
Lemma outcome_none n0 g (P : glayer -> Prop) f : good n0 (mg g) f -> f_fail f = 0 ->
  (forall l, P l -> ~ In (gidx l) (st_ignore T) -> covered N T [] g l) -> outcome n0 g P f f [].
Proof.
  intros Hg Hf Hc. split; [apply ext_refl, Hg|]. split; [intros ? ? ? ? ? ? []|]. split.
  - split; [intros _|auto]. split; [intros ? ? ? ? ? ? []|]. intros l _ _. cbn. lia.
  - intros _. exact Hc.
Qed.

Definition md_of (g : group) : mode := match g with GA => MOnline | GW => MBatch end.
Definition learn_of (l : glayer) : option nat := match l with GFC _ _ inc _ => Some inc | _ => None end.

Lemma check_self_ok n0 g l m' f : n_block n0 = true -> n_W n0 = W -> 0 < mg g <= rows -> layer_of N (mg g) m' l ->
  good n0 (mg g) f -> f_fail f = 0 ->
  exists f' cs, check_self E N T (md_of g) (gidx l) (neurons_of l) (learn_of l) f = Some f' /\ outcome n0 g (fun x => x = l) f f' cs.
Proof.
  intros Hb HWn Hm Hl Hg Hf. unfold check_self. rewrite Hf. cbn [Nat.eqb negb orb].
  assert (Hi : in_list (st_ignore T) (gidx l) = true <-> In (gidx l) (st_ignore T)).
  { unfold in_list. rewrite existsb_exists. split.
    - intros (x & X1 & X2). apply Nat.eqb_eq in X2. rewrite X2. exact X1.
    - intros X. exists (gidx l). split; [exact X|apply Nat.eqb_refl]. }
  destruct (in_list (st_ignore T) (gidx l)).
  { exists f, []. split; [reflexivity|]. apply outcome_none; auto. intros l1 -> X. elim X. apply Hi. reflexivity. }
  assert (Lift : forall f' cs, outcome1 E N T W rows bs n0 l g f f' cs -> outcome n0 g (fun x => x = l) f f' cs).
  { intros f' cs (O1 & O2 & O3 & O4). split; [exact O1|]. split; [exact O2|]. split.
    - rewrite O3. unfold clean, clean1. split; intros [X Y]; (split; [exact X|]); [intros l1 ->; exact Y|exact (Y l eq_refl)].
    - intros Hz l1 -> _. exact (O4 Hz). }
  destruct g; cbn [md_of].
  - destruct (Nat.eqb_spec (gidx l) (g_oidx N)) as [Ho|Ho].
    + exists f, []. split; [reflexivity|]. apply outcome_none; auto. intros l1 -> _ X. contradiction.
    + destruct (checkdLdA_ok E N T HN HE HF W HW rows bs n0 l m' f Hb HWn Hm Hl Ho Hg Hf) as (f' & cs & E1 & O).
      exists f', cs. split; [exact E1|]. apply Lift, O.
  - destruct l as [idx n inc u|idx n|idx n k ls]; cbn [learn_of gidx neurons_of].
    + destruct (checkdLdW_ok E N T HN HE HF W HW rows bs n0 idx n inc u m' f Hb HWn Hm Hl Hg Hf) as (f' & cs & E1 & O).
      exists f', cs. split; [exact E1|]. apply Lift, O.
    + exists f, []. split; [reflexivity|]. apply outcome_none; auto. intros l1 -> _ ? ? ? ? X. discriminate X.
    + exists f, []. split; [reflexivity|]. apply outcome_none; auto. intros l1 -> _ ? ? ? ? X. discriminate X.
Qed.

Lemma check_ok n0 g : n_block n0 = true -> n_W n0 = W -> 0 < mg g <= rows ->
  (forall t m f, NoDup (ids_l t) -> (forall m' l, inside m t m' l -> exists m'', layer_of N (mg g) m'' l) -> good n0 (mg g) f -> f_fail f = 0 ->
    exists f' cs, check_l E N T (md_of g) t f = Some f' /\ outcome n0 g (fun l => exists m', inside m t m' l) f f' cs) /\
  (forall ls m f, NoDup (ids_ls ls) -> (forall m' l, at_ls m ls m' l -> exists m'', layer_of N (mg g) m'' l) -> good n0 (mg g) f -> f_fail f = 0 ->
    exists f' cs, check_ls E N T (md_of g) ls f = Some f' /\ outcome n0 g (fun l => exists m', at_ls m ls m' l) f f' cs).
Proof.
  intros Hb HWn Hm. apply glayer_mutind.
  - intros idx n inc u m f Hd Hin Hg Hf. cbn [check_l]. rewrite Hf. cbn [Nat.eqb].
    destruct (Hin m _ (in_self _ _)) as (m'' & Hl).
    destruct (check_self_ok n0 g _ m'' f Hb HWn Hm Hl Hg Hf) as (f' & cs & E1 & O).
    exists f', cs. split; [exact E1|]. eapply outcome_iff; [|exact O]. intros l. split.
    + intros ->. exists m. constructor.
    + intros (m' & X). apply inside_fc in X as [_ ->]. reflexivity.
  - intros idx n m f Hd Hin Hg Hf. cbn [check_l]. rewrite Hf. cbn [Nat.eqb].
    destruct (Hin m _ (in_self _ _)) as (m'' & Hl).
    destruct (check_self_ok n0 g _ m'' f Hb HWn Hm Hl Hg Hf) as (f' & cs & E1 & O).
    exists f', cs. split; [exact E1|]. eapply outcome_iff; [|exact O]. intros l. split.
    + intros ->. exists m. constructor.
    + intros (m' & X). apply inside_id in X as [_ ->]. reflexivity.
  - intros idx n k ls IH m f Hd Hin Hg Hf. cbn [ids_l] in Hd. apply NoDup_cons_iff in Hd as [Hd1 Hd2].
    change (check_l E N T (md_of g) (GPack idx n k ls) f) with
      (if f_fail f =? 0 then do f <- check_ls E N T (md_of g) ls f; check_self E N T (md_of g) idx n None f else Some f).
    rewrite Hf. cbn [Nat.eqb].
    destruct (IH (k * m) f Hd2) as (f1 & cs1 & E1 & O1); auto.
    { intros m' l X. apply (Hin m' l). apply inside_pack. right. exact X. }
    rewrite E1. cbn [obind].
    assert (Hiff : forall l, ((exists m', at_ls (k * m) ls m' l) \/ l = GPack idx n k ls) <-> exists m', inside m (GPack idx n k ls) m' l).
    { intros l. split.
      - intros [(m' & X)|X]; [exists m'; apply inside_pack; right; exact X|exists m; apply inside_pack; left; auto].
      - intros (m' & X). apply inside_pack in X as [[_ X]|X]; [right; exact X|left; exists m'; exact X]. }
    destruct (Nat.eq_dec (f_fail f1) 0) as [Hz|Hz].
    + destruct (Hin m _ (in_self _ _)) as (m'' & Hl).
      destruct (check_self_ok n0 g (GPack idx n k ls) m'' f1 Hb HWn Hm Hl (ext_good _ _ _ _ _ _ _ _ _ _ _ (proj1 O1)) Hz) as (f2 & cs2 & E2 & O2).
      exists f2, (cs1 ++ cs2). split; [exact E2|]. eapply outcome_iff; [exact Hiff|]. eapply outcome_seq; eauto.
      intros l l' (m' & X) ->. cbn. intros Q. apply Hd1. rewrite <- Q. eapply (proj2 inside_ids), X.
    + exists f1, cs1. split; [unfold check_self; destruct (f_fail f1); [contradiction|reflexivity]|].
      eapply outcome_iff; [exact Hiff|]. apply outcome_fail; assumption.
  - intros m f _ _ Hg Hf. exists f, []. split; [reflexivity|]. apply outcome_none; auto. intros l (m' & X). elim (at_nil _ _ _ X).
  - intros x IHx ls IHls m f Hd Hin Hg Hf. cbn [ids_ls] in Hd.
    change (check_ls E N T (md_of g) (GCons x ls) f) with (do f <- check_ls E N T (md_of g) ls f; check_l E N T (md_of g) x f).
    destruct (IHls m f (nodup_app_r _ _ Hd)) as (f1 & cs1 & E1 & O1); auto.
    { intros m' l X. apply (Hin m' l). apply at_cons. right. exact X. }
    rewrite E1. cbn [obind].
    assert (Hiff : forall l, ((exists m', at_ls m ls m' l) \/ (exists m', inside m x m' l)) <-> exists m', at_ls m (GCons x ls) m' l).
    { intros l. split.
      - intros [(m' & X)|(m' & X)]; exists m'; apply at_cons; auto.
      - intros (m' & X). apply at_cons in X as [X|X]; eauto. }
    destruct (Nat.eq_dec (f_fail f1) 0) as [Hz|Hz].
    + destruct (IHx m f1 (nodup_app_l _ _ Hd)) as (f2 & cs2 & E2 & O2); auto.
      { intros m' l X. apply (Hin m' l). apply at_cons. left. exact X. }
      { exact (ext_good _ _ _ _ _ _ _ _ _ _ _ (proj1 O1)). }
      exists f2, (cs1 ++ cs2). split; [exact E2|]. eapply outcome_iff; [exact Hiff|]. eapply outcome_seq; eauto.
      intros l l' (m1 & X) (m2 & Y) Q. eapply nodup_disj; [exact Hd|eapply (proj1 inside_ids), Y|rewrite <- Q; eapply (proj2 inside_ids), X].
    + exists f1, cs1. split.
      * destruct x; cbn [check_l]; (destruct (f_fail f1); [contradiction|reflexivity]).
      * eapply outcome_iff; [exact Hiff|]. apply outcome_fail; assumption.
Qed.

(** ** Launching *)
(** what the run does not change *)
Definition same_net (a b : net) : Prop :=
  n_W a = n_W b /\ n_opt a = n_opt b /\ n_made a = n_made b /\ n_fp a = n_fp b /\ n_tb a = n_tb b /\ n_reinit a = n_reinit b /\
  n_full a = n_full b /\ n_block a = n_block b.
Definition ready (n0 : net) (f : fst_) : Prop := idle n0 (f_s f) /\ f_rows f = rows /\ Permutation (f_idx f) (seq 0 rows).
(** the batch buffers are big enough *)
Definition fits_own (own m : nat) : Prop := rows = m \/ m <= own.

Lemma launch_ok n0 g f : n_block n0 = true -> n_W n0 = W -> 0 < mg g <= rows -> mg g <= n_tb n0 -> fits_own (f_own f) (mg g) ->
  ready n0 f ->
  exists n1 f' cs evs, launchCheck E N T (md_of g) (mg g) f = Some f' /\ same_net n1 n0 /\ ready n1 f' /\ f_own f' = f_own f /\
    hist_of f' = rev evs ++ hist_of f /\ ran (hist_of f) evs cs /\
    (forall l g1 r c an num, In (l, g1, r, c, an, num) cs -> in_net N l /\ g1 = g) /\
    (f_fail f' = 0 <-> clean (in_net N) g cs) /\
    (f_fail f' = 0 -> forall l, in_net N l -> ~ In (gidx l) (st_ignore T) -> covered N T cs g l).
Proof.
  intros Hb HWn Hm Htb Hown ((I1 & I2 & I3) & Hr & Hp).
  unfold launchCheck.
  set (f1 := on_i gc_reset (with_fail 0 f)).
  assert (E1 : prepareToBatchSize (mg g) f1 = Some (mkF (f_s f1) 0 rows (f_own f) (f_idx f) (f_next f) (mg g))).
  { unfold prepareToBatchSize. change (f_rows f1) with (f_rows f). rewrite Hr. destruct (Nat.leb_spec rows (mg g)).
    - replace (mg g) with rows by lia. reflexivity.
    - change (f_own f1) with (f_own f). destruct Hown as [Q|Q]; [lia|].
      rewrite (proj2 (Nat.ltb_lt _ _) (proj1 Hm)), (proj2 (Nat.leb_le _ _) Q). reflexivity. }
  rewrite E1. cbn [obind]. clear E1. unfold run. cbn [f_s].
  set (f2 := mkF (f_s f1) 0 rows (f_own f) (f_idx f) (f_next f) (mg g)).
  set (n1 := mkN (n_W n0) (n_opt n0) (n_made n0) (n_fp n0) (n_tb n0) (mg g) true (n_reinit n0) (n_full n0) (n_block n0)).
  assert (E2 : exists s2 pre, set_mode true (mg g) (f_s f1) = Some s2 /\ s_h s2 = pre ++ hist_of f /\ (pre = [] \/ pre = [VBatchSize true (mg g)]) /\
    s_n s2 = n1 /\ s_i s2 = gc_reset (s_i (f_s f))).
  { unfold set_mode. change (s_n (f_s f1)) with (s_n (f_s f)). rewrite I1. rewrite (proj2 (Nat.leb_le _ _) Htb). cbn [guard obind].
    destruct (Bool.eqb true (n_train n0) && (mg g =? n_cur n0)) eqn:Q.
    - eexists _, []. split; [reflexivity|]. split; [reflexivity|]. split; [left; reflexivity|]. split; [|reflexivity].
      apply andb_prop in Q as [Q1 Q2]. apply Nat.eqb_eq in Q2. change (s_n (f_s f1)) with (s_n (f_s f)). rewrite I1. unfold n1. rewrite Q2.
      destruct (n_train n0) eqn:Q3; [|discriminate Q1]. destruct n0; cbn in *; subst; reflexivity.
    - eexists _, [_]. split; [reflexivity|]. split; [reflexivity|]. split; [right; reflexivity|]. split; reflexivity. }
  destruct E2 as (s2 & pre & E2 & Hh2 & Hpre & Hn2 & Hi2). rewrite E2. cbn [obind]. clear E2.
  set (f3 := with_s s2 f2).
  assert (G3 : good n1 (mg g) f3).
  { split; [split; [exact Hn2|cbn [f3 with_s f_s]; rewrite Hi2; split; [exact I2|reflexivity]]|]. split; [reflexivity|]. split; [exact Hp|reflexivity]. }
  pose proof (net_nodup N HN) as Hd. apply NoDup_cons_iff in Hd as [Hd1 Hd2].
  destruct (check_ok n1 g Hb HWn Hm) as [CL CLS].
  destruct (CL (out_layer N) (mg g) f3) as (f4 & cs4 & E4 & O4).
  { repeat constructor. intros []. } { intros m' l X. apply inside_fc in X as [-> ->]. exists (mg g). right. auto. } { exact G3. } { reflexivity. }
  fold (out_layer N). rewrite E4. cbn [obind].
  assert (Hiff : forall l, ((exists m', inside (mg g) (out_layer N) m' l) \/ (exists m', at_ls (mg g) (g_hid N) m' l)) <-> in_net N l).
  { intros l. split.
    - intros [(m' & X)|(m' & X)]; exists (mg g), m'; [right; apply inside_fc in X; exact X|left; exact X].
    - intros (m0 & m1 & [X|[-> ->]]); [|left; exists (mg g); constructor].
      right. apply (proj2 inside_scale _ m0 (mg g) m1). exact X. }
  assert (Hfin : forall f' cs, check_ls E N T (md_of g) (g_hid N) f4 = Some f' ->
     outcome n1 g (fun l => (exists m', inside (mg g) (out_layer N) m' l) \/ (exists m', at_ls (mg g) (g_hid N) m' l)) f3 f' cs ->
     f_own f' = f_own f ->
     exists n2 f'' cs evs, check_ls E N T (md_of g) (g_hid N) f4 = Some f'' /\ same_net n2 n0 /\ ready n2 f'' /\ f_own f'' = f_own f /\
    hist_of f'' = rev evs ++ hist_of f /\ ran (hist_of f) evs cs /\
    (forall l g1 r c an num, In (l, g1, r, c, an, num) cs -> in_net N l /\ g1 = g) /\
    (f_fail f'' = 0 <-> clean (in_net N) g cs) /\
    (f_fail f'' = 0 -> forall l, in_net N l -> ~ In (gidx l) (st_ignore T) -> covered N T cs g l)).
  { intros f' cs Ef O Hfo. apply (outcome_iff _ _ _ _ _ _ _ Hiff) in O. destruct O as ((evs & H1 & H2 & H3) & H4 & H5 & H6).
    exists n1, f', cs, (pre ++ evs). split; [exact Ef|]. split; [repeat split|]. split.
    { destruct H3 as (X1 & X2 & X3 & _). split; [exact X1|]. auto. }
    split; [exact Hfo|].
    assert (Hrp : rev pre = pre) by (destruct Hpre as [->| ->]; reflexivity).
    change (hist_of f3) with (s_h s2) in H1, H2. rewrite Hh2 in H1, H2.
    split; [rewrite H1, rev_app_distr, Hrp, app_assoc; reflexivity|]. split.
    { destruct Hpre as [->| ->]; [exact H2|constructor; exact H2]. }
    auto. }
  (* the buffers *)
  assert (Hnb : forall f f' : fst_, nextBatch E f = Some f' -> f_own f' = f_own f).
  { intros a b. unfold nextBatch. destruct (f_cur a =? f_rows a); [intros X; injection X as <-; reflexivity|].
    destruct (f_rows a - f_cur a <=? f_next a); [destruct (random_shuffle _ _); cbn [obind]; [|discriminate]|cbn [obind]].
    all: destruct (guard _); cbn [obind]; [|discriminate]; intros X; injection X as <-; reflexivity. }
  assert (Hrun : forall k (f f' : fst_), run k f = Some f' -> f_own f' = f_own f).
  { intros k a b. unfold run. destruct (k (f_s a)); cbn [obind]; [|discriminate]. intros X; injection X as <-; reflexivity. }
  assert (Hck : forall g idx r c mz fz fz', check_one E N T g idx r c mz fz = Some fz' -> f_own (fst fz') = f_own (fst fz)).
  { intros g0 idx r c mz [a z] b. unfold check_one, calcLossF. cbn [fst].
    destruct (nextBatch E a) as [a1|] eqn:Q1; cbn [obind]; [|discriminate]. apply Hnb in Q1.
    match goal with |- context [run ?k ?x] => destruct (run k x) as [a2|] eqn:Q2; cbn [obind]; [|discriminate]; apply Hrun in Q2 end.
    match goal with |- context [run ?k ?x] => destruct (run k x) as [a3|] eqn:Q3; cbn [obind]; [|discriminate]; apply Hrun in Q3 end.
    match goal with |- context [run ?k ?x] => destruct (run k x) as [a4|] eqn:Q4; cbn [obind]; [|discriminate]; apply Hrun in Q4 end.
    match goal with |- context [run ?k ?x] => destruct (run k x) as [a5|] eqn:Q5; cbn [obind]; [|discriminate]; apply Hrun in Q5 end.
    destruct (checkErr _ _ _ _ _ _ _) as [[|] z']; intros X; injection X as <-; cbn in *; congruence. }
  assert (Hfl : forall A cnt lo (body : nat -> fst_ * A -> option (fst_ * A)) a b, (forall i x y, body i x = Some y -> f_own (fst y) = f_own (fst x)) ->
     for_loop lo cnt body a = Some b -> f_own (fst b) = f_own (fst a)).
  { intros A cnt. induction cnt as [|cnt IH]; cbn; intros lo body a b HB X; [injection X as <-; reflexivity|].
    destruct (body lo a) as [c|] eqn:Q; cbn [obind] in X; [|discriminate X]. rewrite (IH _ _ _ _ HB X). eapply HB, Q. }
  assert (Hun : forall A (bd : fst_ * A -> option (fst_ * A)) x y, (forall x y, bd x = Some y -> f_own (fst y) = f_own (fst x)) -> unless_failed bd x = Some y -> f_own (fst y) = f_own (fst x)).
  { intros A bd x y HB. unfold unless_failed. destruct (_ =? 0); [apply HB|intros X; injection X as <-; reflexivity]. }
  assert (Hsh : forall l a l' b, shuffled E l a = Some (l', b) -> f_own b = f_own a).
  { intros l a l' b. unfold shuffled. destruct (random_shuffle _ _); cbn [obind]; [|discriminate]. intros X; injection X as <- <-; reflexivity. }
  assert (HA : forall idx n a b, checkdLdA E N T idx n a = Some b -> f_own b = f_own a).
  { intros idx n a b. unfold checkdLdA. destruct (shuffled E _ a) as [[grp a1]|] eqn:Q1; cbn [obind]; [|discriminate]. apply Hsh in Q1.
    match goal with |- context [for_loop ?lo ?k ?bd ?x] => destruct (for_loop lo k bd x) as [[a2 z]|] eqn:Q2 end; cbn [obind]; [|discriminate].
    intros X; injection X as <-. apply Hfl in Q2; [cbn in Q2; congruence|].
    intros i x y. apply Hun. intros x' y'. destruct (bget grp i); cbn [obind]; [|discriminate]. apply Hck. }
  assert (HWW : forall idx n inc a b, checkdLdW E N T idx n inc a = Some b -> f_own b = f_own a).
  { intros idx n inc a b. unfold checkdLdW. destruct (shuffled E _ a) as [[grp a1]|] eqn:Q1; cbn [obind]; [|discriminate]. apply Hsh in Q1.
    match goal with |- context [for_loop ?lo ?k ?bd ?x] => destruct (for_loop lo k bd x) as [[a2 [z sub]]|] eqn:Q2 end; cbn [obind]; [|discriminate].
    apply Hfl in Q2.
    2:{ intros i x y. apply Hun. intros [x1 [x2 x3]] y'. destruct (bget grp i); cbn [obind]; [|discriminate].
        destruct (shuffled E x3 x1) as [[sub' a3]|] eqn:Q3; cbn [obind]; [|discriminate]. apply Hsh in Q3.
        match goal with |- context [for_loop ?lo ?k ?bd ?x] => destruct (for_loop lo k bd x) as [[a4 z4]|] eqn:Q4 end; cbn [obind]; [|discriminate].
        intros X; injection X as <-. apply Hfl in Q4; [cbn in *; congruence|].
        intros j u v. apply Hun. intros u' v'. destruct (bget sub' j); cbn [obind]; [|discriminate]. apply Hck. }
    cbn [fst] in Q2. destruct (f_fail a2 =? 0); [|intros X; injection X as <-; congruence].
    destruct (shuffled E _ a2) as [[grp' a3]|] eqn:Q3; cbn [obind]; [|discriminate]. apply Hsh in Q3.
    match goal with |- context [for_loop ?lo ?k ?bd ?x] => destruct (for_loop lo k bd x) as [[a4 z4]|] eqn:Q4 end; cbn [obind]; [|discriminate].
    intros X; injection X as <-. apply Hfl in Q4; [cbn in *; congruence|].
    intros i x y. apply Hun. intros x' y'. destruct (bget grp' i); cbn [obind]; [|discriminate]. apply Hck. }
  assert (HS : forall md idx n lr a b, check_self E N T md idx n lr a = Some b -> f_own b = f_own a).
  { intros md idx n lr a b. unfold check_self. destruct (_ || _); [intros X; injection X as <-; reflexivity|].
    destruct md; [destruct lr; [apply HWW|intros X; injection X as <-; reflexivity]|].
    destruct (_ =? _); [intros X; injection X as <-; reflexivity|apply HA]. }
  assert (HL : (forall t md a b, check_l E N T md t a = Some b -> f_own b = f_own a) /\ (forall ls md a b, check_ls E N T md ls a = Some b -> f_own b = f_own a)).
  { apply glayer_mutind.
    - intros idx n inc u md a b. cbn [check_l]. destruct (_ =? 0); [apply HS|intros X; injection X as <-; reflexivity].
    - intros idx n md a b. cbn [check_l]. destruct (_ =? 0); [apply HS|intros X; injection X as <-; reflexivity].
    - intros idx n k ls IH md a b.
      change (check_l E N T md (GPack idx n k ls) a) with
        (if f_fail a =? 0 then do f <- check_ls E N T md ls a; check_self E N T md idx n None f else Some a).
      destruct (_ =? 0); [|intros X; injection X as <-; reflexivity].
      destruct (check_ls E N T md ls a) as [a1|] eqn:Q; cbn [obind]; [|discriminate]. intros X. apply HS in X. apply IH in Q. congruence.
    - intros md a b X. injection X as <-. reflexivity.
    - intros x IHx ls IHls md a b.
      change (check_ls E N T md (GCons x ls) a) with (do f <- check_ls E N T md ls a; check_l E N T md x f).
      destruct (check_ls E N T md ls a) as [a1|] eqn:Q; cbn [obind]; [|discriminate]. intros X. apply IHx in X. apply IHls in Q. congruence. }
  assert (Hown4 : f_own f4 = f_own f) by (apply (proj1 HL) in E4; exact E4).
  destruct (Nat.eq_dec (f_fail f4) 0) as [Hz|Hz].
  - destruct (CLS (g_hid N) (mg g) f4 Hd2) as (f5 & cs5 & E5 & O5).
    { intros m' l X. exists m'. left. exact X. } { exact (ext_good _ _ _ _ _ _ _ _ _ _ _ (proj1 O4)). } { exact Hz. }
    apply (Hfin f5 (cs4 ++ cs5)); [exact E5| |apply (proj2 HL) in E5; congruence].
    eapply outcome_seq; [|exact O4|exact Hz|exact O5].
    intros l l' (m1 & X) (m2 & Y) Q. apply inside_fc in X as [_ ->]. apply Hd1. cbn in Q. rewrite Q. eapply (proj2 inside_ids), Y.
  - assert (E5 : check_ls E N T (md_of g) (g_hid N) f4 = Some f4).
    { clear - Hz. set (ls := g_hid N). clearbody ls. induction ls as [|x ls IH]; [reflexivity|].
      change (check_ls E N T (md_of g) (GCons x ls) f4) with (do f <- check_ls E N T (md_of g) ls f4; check_l E N T (md_of g) x f).
      rewrite IH. cbn [obind]. destruct x; cbn [check_l]; (destruct (f_fail f4); [contradiction|reflexivity]). }
    apply (Hfin f4 cs4); [exact E5|apply outcome_fail; assumption|exact Hown4].
Qed.

Lemma perform_ok n0 s : n_block n0 = true -> n_W n0 = W -> 0 < bs -> 0 < st_online T -> Nat.max bs (st_online T) <= rows ->
  Nat.max bs (st_online T) <= n_tb n0 -> (Nat.max bs (st_online T) < rows \/ bs = st_online T) -> idle n0 s ->
  exists n1 s' cs evs r, performCheck E N T bs rows s = Some (r, s') /\ same_net n1 n0 /\ idle n1 s' /\
    s_h s' = rev evs ++ s_h s /\ ran (s_h s) evs cs /\ (r = true <-> passes N T cs) /\ (r = true -> covers N T cs).
Proof.
  intros Hb HWn Hbs Hon Hrows Htb Hown Hid. unfold performCheck. set (big := Nat.max bs (st_online T)) in *.
  set (own := if big =? rows then 0 else big).
  assert (E1 : exists cur, data_init own rows s = Some (mkF s 0 rows own (seq 0 rows) rows cur)).
  { unfold data_init, prepareToBatchSize, own. cbn [f_rows f_s f_fail f_own f_idx f_next].
    destruct (Nat.eqb_spec big rows) as [Q|Q].
    - cbn [Nat.eqb]. rewrite Nat.leb_refl. cbn [obind]. eexists. reflexivity.
    - assert (Hbig : 0 < big) by (unfold big; lia). destruct (Nat.eqb_spec big 0); [lia|]. destruct (Nat.leb_spec rows big); [lia|].
      rewrite (proj2 (Nat.ltb_lt _ _) Hbig), Nat.leb_refl. cbn [andb guard obind]. eexists. reflexivity. }
  destruct E1 as (cur & E1). rewrite E1. cbn [obind]. clear E1.
  set (f0 := mkF s 0 rows own (seq 0 rows) rows cur).
  assert (Hfit : forall g, fits_own own (mg g)).
  { intros g. unfold fits_own, own. destruct (Nat.eqb_spec big rows) as [Q|Q].
    - left. unfold big in *. destruct g; cbn [mg]; lia.
    - right. unfold big. destruct g; cbn [mg]; lia. }
  assert (Hmg : forall g, 0 < mg g <= rows) by (intros []; unfold big in *; cbn [mg]; lia).
  assert (Hmt : forall g, mg g <= n_tb n0) by (intros []; unfold big in *; cbn [mg]; lia).
  destruct (launch_ok n0 GA f0 Hb HWn (Hmg GA) (Hmt GA) (Hfit GA)) as (n1 & f1 & cs1 & ev1 & E1 & S1 & R1 & Ow1 & H1 & Q1 & A1 & C1 & V1).
  { split; [exact Hid|]. split; [reflexivity|apply Permutation_refl]. }
  change (launchCheck E N T MOnline (st_online T) f0) with (launchCheck E N T (md_of GA) (mg GA) f0). rewrite E1. cbn [obind].
  destruct (Nat.eqb_spec (f_fail f1) 0) as [Hz|Hz].
  - destruct S1 as (S11 & S12 & S13 & S14 & S15 & S16 & S17 & S18).
    destruct (launch_ok n1 GW f1) as (n2 & f2 & cs2 & ev2 & E2 & S2 & R2 & Ow2 & H2 & Q2 & A2 & C2 & V2).
    { rewrite S18; exact Hb. } { rewrite S11; exact HWn. } { apply Hmg. } { rewrite S15. apply Hmt. } { rewrite Ow1. apply Hfit. } { exact R1. }
    change (launchCheck E N T MBatch bs f1) with (launchCheck E N T (md_of GW) (mg GW) f1). rewrite E2. cbn [obind].
    exists n2, (f_s f2), (cs1 ++ cs2), (ev1 ++ ev2), (f_fail f2 =? 0). split; [reflexivity|]. split.
    { destruct S2 as (S21 & S22 & S23 & S24 & S25 & S26 & S27 & S28). unfold same_net. repeat split; congruence. }
    split; [exact (proj1 R2)|]. split; [unfold hist_of in *; rewrite H2, H1, rev_app_distr, app_assoc; reflexivity|].
    split; [apply ran_app; [exact Q1|]; change (s_h s) with (hist_of f0); rewrite <- H1; exact Q2|].
    assert (Z1 : forall l, zeros cs1 (gidx l) GW = 0).
    { intros l. apply zeros_other. intros l' g' r c an num Hin _. destruct (A1 _ _ _ _ _ _ Hin) as [_ ->]. discriminate. }
    assert (Z2 : forall l, zeros cs2 (gidx l) GA = 0).
    { intros l. apply zeros_other. intros l' g' r c an num Hin _. destruct (A2 _ _ _ _ _ _ Hin) as [_ ->]. discriminate. }
    split.
    + rewrite Nat.eqb_eq, C2. pose proof (proj1 C1 Hz) as [D1 D2]. unfold clean, passes. split; intros [X Y].
      * split.
        -- intros l g r c an num Hin. apply in_app_or in Hin as [Hin|Hin]; [eapply D1, Hin|eapply X, Hin].
        -- intros l [|] Hl Hx; rewrite zeros_app; [rewrite Z2, Nat.add_0_r; apply D2; assumption|rewrite Z1; apply Y; assumption].
      * split.
        -- intros l g r c an num Hin. eapply X. apply in_or_app. right. exact Hin.
        -- intros l Hl Hx. specialize (Y l GW Hl Hx). rewrite zeros_app, Z1 in Y. exact Y.
    + intros Hz2. apply Nat.eqb_eq in Hz2. intros l [|] Hl Hi; [apply covered_app_l, V1|apply covered_app_r, V2]; assumption.
  - exists n1, (f_s f1), cs1, ev1, false. split; [reflexivity|]. split; [exact S1|]. split; [exact (proj1 R1)|]. split; [exact H1|]. split; [exact Q1|].
    split; [|discriminate]. split; [discriminate|]. intros [X Y]. exfalso. apply Hz, C1. split; [exact X|]. intros l Hl Hx. apply Y; assumption.
Qed.
End P.
