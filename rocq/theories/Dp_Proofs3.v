(** The files a training leaves: the runs. *)
From Coq Require Import String List.
From Verif Require Import Base BaseLemmas Smx_Model Util_Model Util_Proofs Mf_Model Mf_Spec Dp_Model Dp_Spec Dp_Proofs Dp_Proofs2.
Import ListNotations.
Local Open Scope Z_scope.

Ltac idl := refine (conj _ (conj _ (conj _ (conj _ (conj _ (conj _ _)))))); first [assumption | reflexivity].

Section T.
Context (k : kind) (tot : Z) (c : cond) (w : bwlist) (nms : list string) (on : bool).
Context (Hlen : Z.of_nat (length (bw_cond w)) <= 65535) (Ht : 0 < tot) (Hs : 0 < c_stride c)
        (Hn : k <> FirstBatches -> forall x, List.In x (c_epochs c) -> 0 <= x).
Notation n := (length (bw_cond w)).
Notation ok := (ok_of w).
Notation nm := (nm_of nms).

Definition idle s (e : Z) : Prop :=
  d_names s = nms /\ d_bw s = w /\ d_ep s = e /\ d_stk s = [] /\ d_on s = on /\ a_open (d_ar s) = false /\ condI k tot c (d_cond s).

Lemma pass_spec fwd l s f : calls_ok n false l -> prep w nms s -> d_stk s = [] -> AR (d_ar s) None f -> a_nest (d_ar s) = [] ->
  exists a', run_calls fwd l s = Some (set_ar s a') /\ AR a' None (pass_file fwd ok nm l f) /\ a_nest a' = [].
Proof using Hlen.
  intros Hl Hp Hk Ha Hne.
  destruct (proj2 (calls_spec fwd w nms Hlen) l false s None f Hl Hp Ha (conj Hk eq_refl)) as (a' & H1 & H2 & H3).
  exists a'. split; [exact H1|]. split; [| congruence]. unfold cur in H2. rewrite Hk in H2. exact H2.
Qed.

Lemma passes_quiet l : forall s, do_dump s = false -> run_cmds k (map (Pass true) l) s = Some s.
Proof.
  induction l as [|x l IH]; intros s H; [reflexivity|]. cbn [map run_cmds run_cmd].
  rewrite (proj2 (quiet true)) by exact H. cbn [obind]. apply IH, H.
Qed.

Lemma passes_spec l : forall s f, Forall (calls_ok n false) l -> prep w nms s -> d_stk s = [] -> AR (d_ar s) None f -> a_nest (d_ar s) = [] ->
  exists a', run_cmds k (map (Pass true) l) s = Some (set_ar s a') /\
    AR a' None (fold_left (fun f cs => pass_file true ok nm cs f) l f) /\ a_nest a' = [].
Proof using Hlen.
  induction l as [|x l IH]; intros s f Hl Hp Hk Ha Hne.
  - exists (d_ar s). split; [destruct s; reflexivity|]. auto.
  - inversion Hl as [|? ? Hx Hl']; subst. cbn [map run_cmds run_cmd fold_left].
    destruct (pass_spec true x s f Hx Hp Hk Ha Hne) as (a1 & -> & Ha1 & Hn1). cbn [obind].
    destruct (IH (set_ar s a1) _ Hl' Hp Hk Ha1 Hn1) as (a2 & -> & Ha2 & Hn2).
    exists a2. rewrite set_ar_ar. auto.
Qed.

Lemma close_spec s f nmf : AR (d_ar s) None f -> a_nest (d_ar s) = [] -> d_fn s = Some nmf ->
  exists a', close_archive s = Some (set_out s a' None (d_files s ++ [(nmf, f)])) /\ a_open a' = false.
Proof.
  intros Ha Hne Hf. destruct (close_in _ _ Ha Hne) as (a' & Hc & Ho & Hfl).
  exists a'. unfold close_archive. rewrite Hc. cbn [is_ok]. destruct Ha as (-> & _). rewrite Hf, Hfl. auto.
Qed.

Lemma opened_AR : AR (opened true []) None [].
Proof. repeat split. Qed.

Lemma err_run e ds l wnt s : idle s e -> cond_err k e ds (d_cond s) = Some wnt -> Forall (calls_ok n false) l ->
  exists s', run_cmds k (err_cmds ds l) s = Some s' /\ idle s' e /\
    d_files s' = d_files s ++ err_files ok nm (fun _ _ => on && wnt) e ds l.
Proof using Hlen.
  intros (I1 & I2 & I3 & I4 & I5 & I6 & I7) Hc Hl. unfold err_cmds, err_files. cbn [run_cmds run_cmd].
  rewrite I3, Hc. cbn [obind]. set (s1 := set_do s wnt).
  assert (Hd : do_dump s1 = on && wnt) by (unfold do_dump, s1; cbn; rewrite I5; reflexivity).
  rewrite Hd. destruct (on && wnt) eqn:E.
  - unfold open_archive. change (d_ar s1) with (d_ar s). rewrite I6. cbn [obind].
    set (s2 := set_out s1 (opened true []) (Some (FErr (d_ep s1 + 1) ds)) (d_files s1)).
    assert (Hp : prep w nms s2) by (repeat split; assumption).
    rewrite run_cmds_app.
    destruct (passes_spec l s2 [] Hl Hp I4 opened_AR eq_refl) as (a3 & -> & Ha3 & Hn3). cbn [obind run_cmds run_cmd].
    change (do_dump (set_ar s2 a3)) with (do_dump s1). rewrite Hd.
    destruct (close_spec (set_ar s2 a3) _ _ Ha3 Hn3 eq_refl) as (a4 & -> & Ho4). cbn [obind].
    eexists. split; [reflexivity|]. split; [idl |]. cbn. try rewrite I3. reflexivity.
  - cbn [obind]. rewrite run_cmds_app, passes_quiet by exact Hd. cbn [obind run_cmds run_cmd]. rewrite Hd. cbn [obind].
    eexists. split; [reflexivity|]. split; [idl |]. cbn. symmetry; apply app_nil_r.
Qed.

Lemma report_run e r s : idle s e -> -1 <= e < tot -> report_ok n r ->
  exists s', run_cmds k (report_cmds r) s = Some s' /\ idle s' e /\
    d_files s' = d_files s ++ report_files ok nm (fun e ds => on && WEb k c tot e ds) e r.
Proof using Hlen Ht Hn.
  intros Hi He [H1 H2]. unfold report_cmds, report_files. rewrite run_cmds_app.
  assert (HC : forall s ds, idle s e -> cond_err k e ds (d_cond s) = Some (WEb k c tot e ds)).
  { intros s0 ds (_ & _ & _ & _ & _ & _ & I). apply (cond_err_spec k tot c); assumption. }
  destruct (err_run e 0 (fst r) _ s Hi (HC s 0 Hi) H1) as (s1 & -> & Hi1 & F1). cbn [obind].
  destruct (err_run e 1 (snd r) _ s1 Hi1 (HC s1 1 Hi1) H2) as (s2 & -> & Hi2 & F2).
  exists s2. split; [reflexivity|]. split; [exact Hi2|]. rewrite F2, F1, <- app_assoc. reflexivity.
Qed.

Lemma batch_run e b x wnt s : idle s e -> cond_batch k b e (d_cond s) = Some wnt ->
  calls_ok n false (fst x) -> calls_ok n false (snd x) ->
  exists s', run_cmds k (batch_cmds b x) s = Some s' /\ idle s' e /\ d_cond s' = d_cond s /\
    d_files s' = d_files s ++ (if on && wnt then [(FFwd (e + 1) b, pass_file true ok nm (fst x) []); (FBwd (e + 1) b, pass_file false ok nm (snd x) [])] else []).
Proof using Hlen.
  intros (I1 & I2 & I3 & I4 & I5 & I6 & I7) Hc Hf Hb. unfold batch_cmds. cbn [run_cmds run_cmd].
  rewrite I3, Hc. cbn [obind]. set (s1 := set_do s wnt).
  assert (Hd : do_dump s1 = on && wnt) by (unfold do_dump, s1; cbn; rewrite I5; reflexivity).
  rewrite Hd. destruct (on && wnt) eqn:E.
  - unfold open_archive at 1. change (d_ar (set_bt s1 b)) with (d_ar s). rewrite I6. cbn [obind].
    set (s2 := set_out (set_bt s1 b) (opened true []) (Some (FFwd (d_ep s1 + 1) b)) (d_files (set_bt s1 b))).
    assert (Hp : prep w nms s2) by (repeat split; assumption).
    destruct (pass_spec true (fst x) s2 [] Hf Hp I4 opened_AR eq_refl) as (a3 & -> & Ha3 & Hn3). cbn [obind].
    change (do_dump (set_ar s2 a3)) with (do_dump s1). rewrite Hd.
    destruct (close_spec (set_ar s2 a3) _ _ Ha3 Hn3 eq_refl) as (a4 & -> & Ho4). cbn [obind].
    unfold open_archive. cbn [d_ar set_out]. rewrite Ho4. cbn [obind].
    match goal with |- context [run_calls false _ ?z] => set (s5 := z) end.
    assert (Hp5 : prep w nms s5) by (repeat split; assumption).
    destruct (pass_spec false (snd x) s5 [] Hb Hp5 I4 opened_AR eq_refl) as (a6 & -> & Ha6 & Hn6). cbn [obind].
    change (do_dump (set_ar s5 a6)) with (do_dump s1). rewrite Hd.
    destruct (close_spec (set_ar s5 a6) _ _ Ha6 Hn6 eq_refl) as (a7 & -> & Ho7). cbn [obind].
    eexists. split; [reflexivity|]. split; [idl|]. split; [reflexivity|].
    cbn. try rewrite I3. rewrite <- app_assoc. reflexivity.
  - cbn [obind]. rewrite (proj2 (quiet true)) by exact Hd. cbn [obind]. rewrite Hd. cbn [obind].
    rewrite (proj2 (quiet false)) by exact Hd. cbn [obind]. rewrite Hd. cbn [obind].
    eexists. split; [reflexivity|]. split; [idl|]. split; [reflexivity|]. cbn. symmetry; apply app_nil_r.
Qed.

Lemma batches_run e nb l : forall b s, idle s e -> 0 <= b ->
  (forall b', 0 <= b' -> cond_batch k b' e (d_cond s) = Some (Wb k c tot e b' nb)) ->
  Forall (fun x => calls_ok n false (fst x) /\ calls_ok n false (snd x)) l ->
  exists s', run_cmds k (batches_cmds b l) s = Some s' /\ idle s' e /\
    d_files s' = d_files s ++ batch_files ok nm (fun e b nb => on && Wb k c tot e b nb) e nb b l.
Proof using Hlen.
  clear Ht Hs Hn.
  induction l as [|x l IH]; intros b s Hi Hb HW Hl.
  - exists s. cbn. rewrite app_nil_r. auto.
  - inversion Hl as [|? ? [Hx1 Hx2] Hl']; subst. cbn [batches_cmds batch_files]. rewrite run_cmds_app.
    destruct (batch_run e b x _ s Hi (HW b Hb) Hx1 Hx2) as (s1 & -> & Hi1 & Hc1 & F1). cbn [obind].
    destruct (IH (b + 1) s1 Hi1 ltac:(lia) ltac:(rewrite Hc1; exact HW) Hl') as (s2 & -> & Hi2 & F2).
    exists s2. split; [reflexivity|]. split; [exact Hi2|]. rewrite F2, F1, <- app_assoc. reflexivity.
Qed.

Lemma epoch_run e0 e x s : idle s e0 -> 0 <= e < tot -> epoch_ok n x ->
  exists s', run_cmds k (epoch_cmds e x) s = Some s' /\ idle s' e /\
    d_files s' = d_files s ++ epoch_files ok nm (fun e b nb => on && Wb k c tot e b nb) (fun e ds => on && WEb k c tot e ds) e x.
Proof using Hlen Ht Hn Hs.
  intros (I1 & I2 & I3 & I4 & I5 & I6 & I7) He [H1 H2]. unfold epoch_cmds, epoch_files. cbn [run_cmds run_cmd].
  destruct (cond_epoch_spec k tot c (d_cond s) e (Z.of_nat (length (fst x))) I7 Hs He) as (b0 & c2 & -> & I8 & HW). cbn [obind].
  set (s1 := set_do (set_cond (set_ep s e) c2) b0).
  assert (Hi1 : idle s1 e) by idl.
  rewrite run_cmds_app.
  destruct (batches_run e (Z.of_nat (length (fst x))) (fst x) 0 s1 Hi1 ltac:(lia) HW H1) as (s2 & -> & Hi2 & F2). cbn [obind].
  destruct (snd x) as [r|].
  - destruct (report_run e r s2 Hi2 ltac:(lia) H2) as (s3 & -> & Hi3 & F3).
    exists s3. split; [reflexivity|]. split; [exact Hi3|]. rewrite F3, F2, <- app_assoc. reflexivity.
  - exists s2. split; [reflexivity|]. split; [exact Hi2|]. rewrite F2, app_nil_r. reflexivity.
Qed.

Lemma epochs_run l : forall e0 e s, idle s e0 -> 0 <= e -> e + Z.of_nat (length l) <= tot -> Forall (epoch_ok n) l ->
  exists s' e', run_cmds k (epochs_cmds e l) s = Some s' /\ idle s' e' /\
    d_files s' = d_files s ++ epochs_files ok nm (fun e b nb => on && Wb k c tot e b nb) (fun e ds => on && WEb k c tot e ds) e l.
Proof using Hlen Ht Hn Hs.
  induction l as [|x l IH]; intros e0 e s Hi He Hle Hl.
  - exists s, e0. cbn. rewrite app_nil_r. auto.
  - inversion Hl as [|? ? Hx Hl']; subst. cbn [epochs_cmds epochs_files length] in *. rewrite run_cmds_app.
    destruct (epoch_run e0 e x s Hi ltac:(lia) Hx) as (s1 & -> & Hi1 & F1). cbn [obind].
    destruct (IH e (e + 1) s1 Hi1 ltac:(lia) ltac:(lia) Hl') as (s2 & e2 & -> & Hi2 & F2).
    exists s2, e2. split; [reflexivity|]. split; [exact Hi2|]. rewrite F2, F1, <- app_assoc. reflexivity.
Qed.
End T.

(** ** The announcements of layers *)
Definition init_cmds (ls : list (Z * string * Z)) := map (fun x => InitLayer (fst (fst x)) (snd (fst x)) (snd x)) ls.
Definition idx_ty (ls : list (Z * string * Z)) := map (fun x => (fst (fst x), snd x)) ls.

Lemma inits_run k ls : forall s, d_names s <> [] \/ True ->
  (forall l name ty, List.In (l, name, ty) ls -> 0 <= l < Z.of_nat (length (d_names s)) /\ 0 <= l < Z.of_nat (length (bw_cond (d_bw s)))) ->
  NoDup (map (fun x => fst (fst x)) ls) ->
  exists nms w, run_cmds k (init_cmds ls) s = Some (set_bw (set_names s nms) w) /\
    bw_updateAll (idx_ty ls) (d_bw s) = Some w /\ length nms = length (d_names s) /\ length (bw_cond w) = length (bw_cond (d_bw s)) /\
    (forall l name ty, List.In (l, name, ty) ls -> zget nms l = Some name) /\
    (forall l, ~ List.In l (map (fun x => fst (fst x)) ls) -> zget nms l = zget (d_names s) l).
Proof.
  induction ls as [|[[l name] ty] ls IH]; intros s _ Hin ND.
  - exists (d_names s), (d_bw s). cbn. repeat split; auto; try (intros ? ? ? []). destruct s; reflexivity.
  - cbn [init_cmds map run_cmds run_cmd fst snd].
    destruct (Hin l name ty (or_introl eq_refl)) as [Hl1 Hl2].
    rewrite (zset_some _ l name Hl1). cbn [obind].
    assert (X : exists w1, bw_updateLayer l ty (d_bw s) = Some w1 /\ length (bw_cond w1) = length (bw_cond (d_bw s))).
    { unfold bw_updateLayer. destruct (_ || _); [| eauto]. unfold vc_set. rewrite zset_some by exact Hl2. cbn [obind].
      eexists. split; [reflexivity|]. cbn. apply upd_length. }
    destruct X as (w1 & Hw1 & Lw1). rewrite Hw1. cbn [obind].
    set (s1 := set_bw (set_names s (upd (d_names s) (Z.to_nat l) name)) w1).
    inversion ND as [|? ? N1 N2]; subst.
    destruct (IH s1 (or_intror I)) as (nms & w & Hr & Hu & L1 & L2 & G1 & G2).
    { intros l' name' ty' H. cbn. rewrite upd_length, Lw1. apply (Hin l' name' ty'). right; exact H. }
    { exact N2. }
    exists nms, w. cbn in L1, L2, Hu. rewrite upd_length in L1. rewrite Lw1 in L2. unfold init_cmds in Hr. rewrite Hr.
    split; [reflexivity|]. split; [cbn [idx_ty map bw_updateAll fst snd]; rewrite Hw1; exact Hu|].
    split; [exact L1|]. split; [exact L2|].
    assert (Z1 : forall j, 0 <= j -> zget (upd (d_names s) (Z.to_nat l) name) j = if j =? l then Some name else zget (d_names s) j).
    { intros j Hj. unfold zget, bget. destruct (Z.ltb_spec j 0); [lia|]. rewrite upd_nth_error by lia.
      destruct (Nat.eqb_spec (Z.to_nat j) (Z.to_nat l)), (Z.eqb_spec j l); try reflexivity; lia. }
    split.
    + intros l' name' ty' [H | H]; [| exact (G1 l' name' ty' H)]. injection H as <- <- <-.
      rewrite G2 by exact N1. cbn. rewrite Z1 by lia. rewrite Z.eqb_refl. reflexivity.
    + intros j Hj. rewrite G2 by (intro X; apply Hj; right; exact X). cbn.
      destruct (Z.ltb_spec j 0) as [Hneg|Hpos]; [unfold zget; destruct (Z.ltb_spec j 0); [reflexivity|lia]|].
      rewrite Z1 by exact Hpos. destruct (Z.eqb_spec j l) as [->|]; [| reflexivity]. exfalso. apply Hj. left; reflexivity.
Qed.

Theorem training k s layers tot ls r0 l :
  d_stk s = [] -> a_open (d_ar s) = false -> askable k (d_cond s) -> 0 < tot -> 0 < layers <= 65535 ->
  (forall i, 0 <= i < layers <-> List.In i (map (fun x => fst (fst x)) ls)) -> NoDup (map (fun x => fst (fst x)) ls) ->
  report_ok (Z.to_nat layers) r0 -> Forall (epoch_ok (Z.to_nat layers)) l -> Z.of_nat (length l) <= tot ->
  exists s' ok nm W WE, run_cmds k (train_cmds layers tot ls r0 l) s = Some s' /\
    d_files s' = d_files s ++ train_files ok nm W WE r0 l /\
    (forall i name ty, List.In (i, name, ty) ls -> nm i = name /\
       (ok i = true <-> (List.In ty (bw_types (d_bw s)) \/ List.In i (bw_idxs (d_bw s)) <-> bw_white (d_bw s) = true))) /\
    (forall e b nb, 0 <= b -> W e b nb = true <-> d_on s = true /\ wanted k (d_cond s) tot e b nb) /\
    (forall e ds, WE e ds = true <-> d_on s = true /\ wanted_err k (d_cond s) tot e ds) /\
    a_open (d_ar s') = false /\ d_stk s' = [] /\ d_on s' = d_on s /\
    (c_epochs (d_cond s) <> [] -> c_epochs (d_cond s') = c_epochs (d_cond s)).
Proof.
  intros Hk Ho Ha Ht Hly Hall ND Hr Hl Hlen.
  assert (Hs : 0 < c_stride (d_cond s)) by (destruct k; apply Ha).
  assert (Hn : k <> FirstBatches -> forall x, List.In x (c_epochs (d_cond s)) -> 0 <= x).
  { intros X. destruct k; try (apply Ha). congruence. }
  unfold train_cmds. cbn [run_cmds run_cmd].
  destruct (cond_init_spec k tot (d_cond s) Ht Ha) as (cc & -> & Hcc). cbn [obind].
  match goal with |- context [run_cmds k _ ?z] => set (s1 := z) end.
  assert (HLb : length (bw_cond (d_bw s1)) = Z.to_nat layers).
  { cbn. unfold vc_resize. rewrite app_length, firstn_length, repeat_length. cbn [length]. lia. }
  assert (HLn : length (d_names s1) = Z.to_nat layers) by (cbn; apply repeat_length).
  rewrite run_cmds_app.
  destruct (inits_run k ls s1 (or_intror I)) as (nms & w & Hrun & Hu & L1 & L2 & G1 & _).
  { intros i name ty H. rewrite HLb, HLn. assert (0 <= i < layers) by (apply Hall, in_map_iff; exists (i, name, ty); auto). lia. }
  { exact ND. }
  unfold init_cmds in Hrun. rewrite Hrun. cbn [obind]. set (s2 := set_bw (set_names s1 nms) w) in *.
  assert (Hw : Z.of_nat (length (bw_cond w)) <= 65535) by lia.
  assert (Hi : idle k tot (d_cond s) w nms (d_on s) s2 before_start).
  { idl. }
  assert (Hn' : length (bw_cond w) = Z.to_nat layers) by lia.
  rewrite run_cmds_app.
  destruct (report_run k tot (d_cond s) w nms (d_on s) Hw Ht Hn before_start r0 s2 Hi) as (s3 & -> & Hi3 & F3).
  { unfold before_start. lia. } { rewrite Hn'. exact Hr. }
  cbn [obind].
  destruct (epochs_run k tot (d_cond s) w nms (d_on s) Hw Ht Hs Hn l before_start 0 s3 Hi3 ltac:(lia) ltac:(lia)) as (s4 & e4 & -> & Hi4 & F4).
  { rewrite Hn'. exact Hl. }
  exists s4, (ok_of w), (nm_of nms), (fun e b nb => d_on s && Wb k (d_cond s) tot e b nb), (fun e ds => d_on s && WEb k (d_cond s) tot e ds).
  split; [reflexivity|]. split.
  { rewrite F4, F3, <- app_assoc. reflexivity. }
  split.
  { intros i name ty Hin. assert (Hir : 0 <= i < layers) by (apply Hall, in_map_iff; exists (i, name, ty); auto).
    split; [unfold nm_of; rewrite (G1 i name ty Hin); reflexivity|].
    destruct (bw_updateAll_ok (idx_ty ls) (d_bw s1)) as (w' & Hu' & _ & _ & Wt & _ & W6).
    { intros j tj Hj. unfold idx_ty in Hj. apply in_map_iff in Hj as ([[j' nj] tj'] & E & Hj). cbn in E. injection E as -> ->.
      rewrite HLb. assert (0 <= j < layers) by (apply Hall, in_map_iff; exists (j, nj, tj); auto). lia. }
    rewrite Hu in Hu'. injection Hu' as <-.
    destruct (W6 i ltac:(lia)) as [W7 W8].
    assert (Hit : List.In (i, ty) (idx_ty ls)) by (apply in_map_iff; exists (i, name, ty); auto).
    assert (U : forall ty', List.In (i, ty') (idx_ty ls) -> ty' = ty).
    { intros ty' Hj. unfold idx_ty in Hj. apply in_map_iff in Hj as ([[j' nj] tj'] & E & Hj). cbn in E. injection E as -> ->.
      clear - ND Hin Hj. induction ls as [|[[a na] ta] t IH]; [destruct Hin|]. cbn in ND. inversion ND as [|? ? N1 N2]; subst.
      destruct Hin as [Hin|Hin], Hj as [Hj|Hj].
      - congruence.
      - injection Hin as -> -> ->. exfalso. apply N1, in_map_iff. exists (i, nj, ty'); auto.
      - injection Hj as -> -> ->. exfalso. apply N1, in_map_iff. exists (i, name, ty); auto.
      - apply IH; assumption. }
    assert (HH : hit (d_bw s1) i ty = true <-> List.In ty (bw_types (d_bw s)) \/ List.In i (bw_idxs (d_bw s))).
    { unfold hit. rewrite orb_true_iff, !existsb_exists. split.
      - intros [(x & Hx & E) | (x & Hx & E)]; apply Z.eqb_eq in E; subst x; [left | right]; exact Hx.
      - intros [H | H]; [left; exists ty | right; exists i]; (split; [exact H | apply Z.eqb_refl]). }
    assert (Hok : nth_error (bw_cond w) (Z.to_nat i) = Some (Bool.eqb (hit (d_bw s1) i ty) (bw_white (d_bw s)))).
    { destruct (hit (d_bw s1) i ty) eqn:Eh.
      - rewrite W7 by (exists ty; auto). cbn. destruct (bw_white (d_bw s)); reflexivity.
      - rewrite W8 by (intros ty' Hj; rewrite (U ty' Hj); exact Eh). cbn [s1 d_bw bw_init bw_cond]. unfold vc_resize.
        cbn [length]. rewrite firstn_nil, Nat.sub_0_r. cbn [app]. rewrite nth_error_repeat by lia. destruct (bw_white (d_bw s)); reflexivity. }
    unfold ok_of, bw_allowed, vc_ask, zget, bget. destruct (Z.ltb_spec i 0); [lia|]. rewrite Hok.
    rewrite <- HH. destruct (hit (d_bw s1) i ty), (bw_white (d_bw s)); cbn; intuition congruence. }
  split.
  { intros e b nb Hb. rewrite andb_true_iff, Wb_iff by assumption. reflexivity. }
  split.
  { intros e ds. rewrite andb_true_iff, WEb_iff. reflexivity. }
  destruct Hi4 as (_ & _ & _ & J1 & J2 & J3 & J4). repeat split; try assumption. apply J4.
Qed.
