(** Normalisation of columns apart: the passes. *)
From Coq Require Import Reals Lra Permutation.
From Verif Require Import Base BaseLemmas Act_Spec TData_Model TData_Spec Nrm_Model Nrm_Spec Nrm_Proofs Nrm_Proofs4 Nrm_Proofs5 TData_Proofs2
  Tf_Model Tf_Spec Tf_Proofs Tf_Proofs2.
Local Open Scope nat_scope.
Notation ca := Tf_Proofs.ca. Notation cb := Tf_Proofs.cb.

Section P.
Context {Y FS : Type} (F : tfun Y FS) (st : stor) (derive : nat -> nat -> list (list R * Y)) (Q : protocol FS).
Context (C : conforms F st derive Q).
Notation sample := (list R * Y)%type.
Notation InvP := (InvP F st Q). Notation W := (f_xw F). Notation wide := (wide F).

Definition colOf (D : list sample) (j : nat) : list R := map (fun s => nth j (fst s) 0%R) D.
Lemma colOf_seen a b D j : Forall (fun s => wide (fst s)) D -> j < W -> colOf (seen_as a b D) j = map (fun v => (a j * v + b j)%R) (colOf D j).
Proof.
  intros HD Hj. unfold colOf, seen_as. rewrite !map_map. apply map_ext_in. intros s Hs. rewrite Forall_forall in HD. specialize (HD s Hs). cbn [fst].
  unfold affine. erewrite nth_error_nth; [|apply map_nth_error, nth_error_seq; rewrite HD; exact Hj]. reflexivity.
Qed.

(** ** Gathering *)
Definition accs (D : list sample) : list acc := map (fun j => seen (colOf D j)) (seq 0 W).
Lemma feed_cols_ok x (E prev : list sample) : Permutation x (map fst E) -> Forall (fun s => wide (fst s)) E ->
  feed_cols x 0 (accs prev) = Some (accs (prev ++ E)).
Proof.
  intros P HE. assert (HX : Forall wide x) by (eapply Permutation_Forall; [symmetry; exact P|]; rewrite Forall_map; exact HE).
  unfold accs. assert (G : forall n c, c + n <= W -> feed_cols x c (map (fun j => seen (colOf prev j)) (seq c n)) = Some (map (fun j => seen (colOf (prev ++ E) j)) (seq c n)));
    [|apply G; lia].
  induction n as [|n IH]; intros c Hc; [reflexivity|]. cbn [seq map feed_cols].
  rewrite (omap_ok (fun row => bget row c) (fun row => nth c row 0%R)).
  2:{ eapply Forall_impl; [|exact HX]. intros r Hr. unfold bget. apply nth_error_nth'. unfold Tf_Proofs.wide in Hr. lia. }
  cbn [obind]. replace (c + 1) with (S c) by lia. rewrite IH by lia. cbn [obind]. f_equal. f_equal. rewrite seen_app. apply seen_perm. unfold colOf. rewrite map_app.
  apply Permutation_app_head. rewrite <- (map_map fst (fun row => nth c row 0%R)). apply Permutation_map. exact P.
Qed.

(** ** The statistics of the columns and the maps in force *)
Definition CI (n : nprm) (s : list scd) : Prop := length s = W /\ (forall j, j < W -> wfs (nth j s scd0)) /\
  match n with
  | NNone => s = repeat scd0 W
  | NWhole _ => False
  | NCols o => length o = W /\ forall j, j < W -> wfs (nth j o scd0) /\ sc (nth j o scd0) = sc (nth j s scd0) /\ ofs (nth j o scd0) = ofs (nth j s scd0)
  end.
Lemma CI0 : CI NNone (repeat scd0 W).
Proof. split; [apply repeat_length|]. split; [|reflexivity]. intros j Hj. rewrite nth_repeat_lt by exact Hj. apply wfs0. Qed.
Lemma CI_coef n s j : CI n s -> j < W -> ca n j = sc (nth j s scd0) /\ cb n j = ofs (nth j s scd0).
Proof.
  intros (L & Hw & H) Hj. unfold ca, cb, coef. destruct n as [|o|o]; [|contradiction|].
  - rewrite H, nth_repeat_lt by exact Hj. split; reflexivity.
  - destruct H as (Lo & H). destruct (H j Hj) as (W1 & W2 & W3). rewrite (eff_wf _ W1). cbn [fst snd]. auto.
Qed.
Lemma upd_vec_ok : forall o i, length o = length i -> length (upd_vec o i) = length o /\ forall j, j < length o -> nth j (upd_vec o i) scd0 = upd_all (nth j o scd0) (nth j i scd0).
Proof.
  induction o as [|x o IH]; intros [|y i] H; try discriminate; [split; [reflexivity|cbn; lia]|]. cbn [length upd_vec] in *. destruct (IH i ltac:(lia)) as [L N].
  split; [lia|]. intros [|j] Hj; [reflexivity|]. cbn [nth]. apply N. lia.
Qed.
Lemma upd_all_ok o n : wfs o -> wfs n -> wfs (upd_all o n) /\ sc (upd_all o n) = (sc n * sc o)%R /\ ofs (upd_all o n) = (sc n * ofs o + ofs n)%R.
Proof.
  intros [H1 H2] [H3 H4]. unfold upd_all, upd_scale, upd_ofs, wfs. destruct (bsc n) eqn:E1, (bofs n) eqn:E2; cbn [sc ofs bsc bofs];
    rewrite ?(H3 eq_refl), ?(H4 eq_refl).
  - split; [split; [discriminate|discriminate]|]. split; ring.
  - split; [split; [discriminate|]|]. { intros X. rewrite (H2 X). ring. } split; ring.
  - split; [split; [exact H1|discriminate]|]. split; ring.
  - split; [split; assumption|]. split; ring.
Qed.
Definition ccompose (n : nprm) (l : list scd) : nprm := match n with NCols o => NCols (upd_vec o l) | _ => NCols l end.
(** [it]: the maps of one pass *)
Lemma CI_step n s it s1 : CI n s -> length it = W -> length s1 = W ->
  (forall j, j < W -> wfs (nth j it scd0) /\ wfs (nth j s1 scd0) /\ sc (nth j s1 scd0) = (sc (nth j it scd0) * sc (nth j s scd0))%R /\
    ofs (nth j s1 scd0) = (sc (nth j it scd0) * ofs (nth j s scd0) + ofs (nth j it scd0))%R) -> CI (ccompose n it) s1.
Proof.
  intros (L & Hw & H) Li Ls HS. split; [exact Ls|]. split; [intros j Hj; apply (HS j Hj)|]. destruct n as [|o|o]; [|contradiction|]; cbn [ccompose].
  - split; [exact Li|]. intros j Hj. destruct (HS j Hj) as (A1 & A2 & A3 & A4). rewrite A3, A4, H, nth_repeat_lt by exact Hj. cbn [sc ofs scd0]. split; [exact A1|]. split; ring.
  - destruct H as (Lo & H). destruct (upd_vec_ok o it ltac:(congruence)) as (L1 & N1). split; [congruence|]. intros j Hj. rewrite N1 by congruence.
    destruct (HS j Hj) as (A1 & A2 & A3 & A4). destruct (H j Hj) as (B1 & B2 & B3). destruct (upd_all_ok _ _ B1 A1) as (D1 & D2 & D3). split; [exact D1|].
    rewrite D2, D3, A3, A4, B2, B3. split; reflexivity.
Qed.

(** ** The loop *)
Section L.
Context (p : nset) (ibs fp tb : nat) (Hsz : size_ok F p ibs fp).
Notation base := (base F st derive p ibs fp).
Definition col (s : list scd) (j : nat) : list R := map (fun v => (sc (nth j s scd0) * v + ofs (nth j s scd0))%R) (colOf base j).
Lemma base_wide : Forall (fun s => wide (fst s)) base.
Proof.
  apply (derive_wide F st derive Q C 0 (seq 0 (Lk F st p ibs fp)) ltac:(lia)). apply Forall_forall. intros i Hi. apply in_seq in Hi. unfold Lk, tlooked in Hi. lia.
Qed.
Lemma col_upd s s1 j : wfs (nth j s scd0) -> nth j s1 scd0 = upd_stat p (seen (col s j)) (nth j s scd0) -> col s1 j = map (one_pass p (col s j)) (col s j).
Proof.
  intros Hw E. pose proof (upd_ok p (seen (col s j)) _ Hw) as (_ & V2 & V3 & _). rewrite <- E in V2, V3. rewrite map_pass.
  remember (eff (pass_stat p (seen (col s j)))) as e. unfold col. rewrite map_map. apply map_ext. intros v. rewrite V2, V3. ring.
Qed.

Lemma norm_cw_ok : forall k t s ok, InvP t fp tb PIdle -> CI (d_norm t) s -> length ok = W ->
  (forall j, j < W -> nth j ok false = true -> rank p (col s j) = 0) ->
  exists r t' s', norm_cw F st p ibs k t s ok = Some (r, t', s') /\ InvP t' fp tb PIdle /\ d_idx t' = d_idx t /\ CI (d_norm t') s' /\
    (forall j, j < W -> (dirty (nth j s scd0) = true -> dirty (nth j s' scd0) = true) /\
      (n_dos p = false -> sc (nth j s' scd0) = sc (nth j s scd0)) /\
      (n_doc p = false -> ofs (nth j s scd0) = 0%R -> ofs (nth j s' scd0) = 0%R) /\
      ((0 < n_scale p)%R -> (0 < sc (nth j s scd0))%R -> (0 < sc (nth j s' scd0))%R)) /\
    (r = true -> forall j, j < W -> rank p (col s' j) = 0 /\ (k = 1 -> rank p (col s j) = 0)) /\
    ((forall j, j < W -> enough p (colOf base j)) -> fine p -> forall j, j < W -> rank p (col s' j) <= rank p (col s j) /\
      (0 < k -> 0 < rank p (col s j) -> rank p (col s' j) < rank p (col s j))) /\
    ((forall j, j < W -> enough p (colOf base j)) -> fine p -> (forall j, j < W -> rank p (col s j) < k) -> 0 < k ->
      r = true /\ forall j, j < W -> (rank p (col s j) = 0 -> nth j s' scd0 = nth j s scd0) /\ (0 < rank p (col s j) -> dirty (nth j s' scd0) = true)).
Proof.
  induction k as [|k IH]; intros t s ok HI HC Lok Hok.
  - exists false, t, s. cbn [norm_cw]. do 4 (split; [first [reflexivity|assumption]|]). split; [intros j Hj; auto|]. split; [discriminate|]. split; [intros; lia|]. intros; lia.
  - destruct (look F st derive Q C (fun x => feed_cols x 0) (fun D a => a = accs D) p ibs fp tb t (repeat acc0 W)) as (n & t1 & t2 & d & E1 & E2 & I2 & N2 & XI & Ed);
      try assumption.
    { intros x E d prev -> P HE. eexists. split; [apply (feed_cols_ok x E prev P HE)|reflexivity]. }
    { unfold accs. generalize W. intros w. generalize 0. induction w; intros c; [reflexivity|]. cbn [repeat seq map]. f_equal. apply IHw. }
    pose proof HC as (Ls & Ws & _).
    assert (Ld : length d = W) by (rewrite Ed; unfold accs; rewrite map_length, seq_length; reflexivity).
    assert (Ha : forall j, j < W -> nth j d acc0 = seen (col s j)).
    { intros j Hj. rewrite Ed. unfold accs. erewrite nth_error_nth; [|apply map_nth_error, nth_error_seq; exact Hj]. cbn [Nat.add].
      rewrite colOf_seen by (exact base_wide || exact Hj). destruct (CI_coef _ _ j HC Hj) as [-> ->]. reflexivity. }
    cbn [norm_cw]. rewrite E1. cbn [obind]. rewrite E2. cbn [obind].
    destruct (norm_cols p d s (repeat scd0 W) ok) as [[[[s1 it1] ok1] all] bad] eqn:En.
    destruct (norm_cols_ok p d s (repeat scd0 W) ok s1 it1 ok1 all bad) as (L1 & L2 & L3 & Na & Nb & Nc & Nd); try assumption;
      try (rewrite ?repeat_length; congruence).
    rewrite Ld in *. set (t3 := fix_trainX_cw t2 it1).
    (* a column in this pass *)
    assert (Hcol : forall j, j < W ->
      wfs (nth j it1 scd0) /\ wfs (nth j s1 scd0) /\ sc (nth j s1 scd0) = (sc (nth j it1 scd0) * sc (nth j s scd0))%R /\
      ofs (nth j s1 scd0) = (sc (nth j it1 scd0) * ofs (nth j s scd0) + ofs (nth j it1 scd0))%R /\
      ((nth j it1 scd0 = scd0 /\ nth j s1 scd0 = nth j s scd0 /\ nth j ok1 false = nth j ok false) \/
       (nth j ok false = false /\ nth j s1 scd0 = upd_stat p (seen (col s j)) (nth j s scd0) /\
        col s1 j = map (one_pass p (col s j)) (col s j) /\
        dirty (nth j s1 scd0) = dirty (nth j s scd0) || negb (settled p (seen (col s j))) /\
        (settled p (seen (col s j)) = true -> nth j s1 scd0 = nth j s scd0) /\
        nth j ok1 false = settled p (seen (col s j))))).
    { intros j Hj. destruct (Na j Hj) as [(U1 & U2 & U3)|(U0 & U1 & U2 & U3)]; rewrite nth_repeat_lt in U2 by exact Hj.
      - rewrite U1, U2. split; [apply wfs0|]. split; [apply Ws; exact Hj|]. cbn [sc ofs scd0]. split; [ring|]. split; [ring|]. left. auto.
      - rewrite Ha in U1, U2, U3 by exact Hj. pose proof (upd_ok p (seen (col s j)) _ (Ws j Hj)) as (V1 & V2 & V3 & V4 & V5).
        pose proof (upd_ok p (seen (col s j)) scd0 wfs0) as (Y1 & Y2 & Y3 & _). cbn [sc ofs scd0] in Y2, Y3.
        assert (Ecol : col s1 j = map (one_pass p (col s j)) (col s j)).
        { apply col_upd; [apply Ws; exact Hj|exact U1]. }
        rewrite U1, U2 in *. split; [exact Y1|]. split; [exact V1|]. split; [rewrite V2, Y2; ring|]. split; [rewrite V3, Y2, Y3; ring|]. right. auto 10. }
    assert (HC1 : CI (d_norm t3) s1).
    { change (d_norm t3) with (ccompose (d_norm t2) it1). rewrite N2. apply (CI_step (d_norm t) s it1 s1 HC L2 L1). intros j Hj. destruct (Hcol j Hj) as (A1 & A2 & A3 & A4 & _). auto. }
    assert (I3 : InvP t3 fp tb PIdle).
    { split; [|exact I]. destruct I2 as [_ I2]. split; [|exact I2]. destruct (d_norm t3); [exact I|exact I|]. apply HC1. }
    assert (HP : forall j, j < W -> (dirty (nth j s scd0) = true -> dirty (nth j s1 scd0) = true) /\
      (n_dos p = false -> sc (nth j s1 scd0) = sc (nth j s scd0)) /\
      (n_doc p = false -> ofs (nth j s scd0) = 0%R -> ofs (nth j s1 scd0) = 0%R) /\
      ((0 < n_scale p)%R -> (0 < sc (nth j s scd0))%R -> (0 < sc (nth j s1 scd0))%R)).
    { intros j Hj. destruct (Hcol j Hj) as (_ & _ & _ & _ & [(_ & -> & _)|(_ & X1 & _ & X2 & _)]); [auto|].
      pose proof (upd_ok p (seen (col s j)) _ (Ws j Hj)) as (_ & V2 & V3 & _). rewrite X2, X1, V2, V3.
      split; [intros ->; reflexivity|]. split; [intros K; rewrite (eff_dos p _ K); ring|].
      split; [intros K ->; rewrite (eff_doc p _ K); ring|]. intros K1 K2. apply Rmult_lt_0_compat; [apply eff_pos; exact K1|exact K2]. }
    assert (Hsame : forall j, nth j s1 scd0 = nth j s scd0 -> col s1 j = col s j) by (intros j E; unfold col; rewrite E; reflexivity).
    assert (Hrk : forall j, j < W -> nth j ok1 false = true -> rank p (col s1 j) = 0 /\ rank p (col s j) = 0 /\ nth j s1 scd0 = nth j s scd0).
    { intros j Hj Hok1. destruct (Hcol j Hj) as (_ & _ & _ & _ & [(_ & X1 & X2)|(_ & _ & _ & _ & X2 & X3)]).
      - rewrite (Hsame j X1). rewrite X2 in Hok1. pose proof (Hok j Hj Hok1). auto.
      - rewrite X3 in Hok1. rewrite (Hsame j (X2 Hok1)). apply rank0 in Hok1. rewrite rank0 in Hok1. auto using (proj2 (rank0 p (col s j)) Hok1). }
    assert (Hdec : bad = false -> (forall j, j < W -> enough p (colOf base j)) -> fine p -> forall j, j < W -> rank p (col s1 j) <= rank p (col s j) - 1 /\
      (rank p (col s j) = 0 -> nth j s1 scd0 = nth j s scd0) /\ (0 < rank p (col s j) -> dirty (nth j s1 scd0) = true)).
    { intros Qb Hen Hfine j Hj. destruct (nth j ok1 false) eqn:Eo.
      - destruct (Hrk j Hj Eo) as (-> & -> & ->). split; [lia|]. split; [auto|lia].
      - assert (Eok : nth j ok false = false).
        { destruct (nth j ok false) eqn:X; [|reflexivity]. destruct (Hcol j Hj) as (_ & _ & _ & _ & [(_ & _ & X2)|(X0 & _)]); congruence. }
        destruct (Nb Qb j Hj Eok) as (_ & U1 & _ & U3). rewrite (Ha j Hj) in U1, U3. rewrite U3 in Eo.
        assert (Hpos : 0 < rank p (col s j)). { destruct (rank p (col s j)) eqn:X; [|lia]. apply rank0 in X. congruence. }
        pose proof Hfine as (F1 & F2 & F3). pose proof (rank_pass p _ (enough_map p _ _ (Hen j Hj) : enough p (col s j)) F1 F2 F3 Hpos) as Hlt.
        pose proof (upd_ok p (seen (col s j)) _ (Ws j Hj)) as (_ & V2 & V3 & V4 & _).
        replace (col s1 j) with (map (one_pass p (col s j)) (col s j)).
        2:{ symmetry. apply col_upd; [apply Ws; exact Hj|exact U1]. }
        split; [lia|]. split; [lia|]. intros _. rewrite U1, V4, Eo. cbn [negb]. apply orb_true_r. }
    destruct bad eqn:Ebad.
    { exists false, t3, s1. split; [reflexivity|]. split; [exact I3|]. split; [exact XI|]. split; [exact HC1|]. split; [exact HP|]. split; [discriminate|].
      split; intros Hen; destruct (Nd eq_refl) as (j & Hj & Hs); rewrite Ha in Hs by exact Hj; rewrite (good_stats p (col s j) (enough_map p _ _ (Hen j Hj))) in Hs; discriminate. }
    destruct all eqn:Eall.
    { exists true, t3, s1. split; [reflexivity|]. split; [exact I3|]. split; [exact XI|]. split; [exact HC1|]. split; [exact HP|].
      assert (K : forall j, j < W -> rank p (col s1 j) = 0 /\ rank p (col s j) = 0 /\ nth j s1 scd0 = nth j s scd0).
      { intros j Hj. apply Hrk; [exact Hj|]. exact (proj1 (Nc eq_refl) eq_refl j Hj). }
      split; [intros _ j Hj; split; [apply (K j Hj)|intros _; apply (K j Hj)]|].
      split; [intros _ _ j Hj; destruct (K j Hj) as (K1 & K2 & _); lia|].
      intros _ _ _ _. split; [reflexivity|]. intros j Hj. destruct (K j Hj) as (K1 & K2 & K3). split; [auto|]. lia. }
    destruct (IH t3 s1 ok1 I3 HC1 L3 (fun j Hj Ho => proj1 (Hrk j Hj Ho))) as (r & t' & s' & E & I' & X' & C' & P' & R' & M' & V').
    exists r, t', s'. split; [exact E|]. split; [exact I'|]. split; [rewrite X'; exact XI|]. split; [exact C'|]. split; [|split; [|split]].
    + intros j Hj. destruct (HP j Hj) as (A1 & A2 & A3 & A4). destruct (P' j Hj) as (B1 & B2 & B3 & B4). split; [auto|]. split; [intros K; rewrite (B2 K); auto|]. auto.
    + intros K j Hj. split; [apply (R' K j Hj)|]. intros K1. injection K1 as ->. cbn in E. congruence.
    + intros Hen Hfine j Hj. destruct (Hdec eq_refl Hen Hfine j Hj) as (X & _). destruct (M' Hen Hfine j Hj) as (X0 & _). lia.
    + intros Hen Hfine Hrank _.
      assert (Hk : 0 < k).
      { destruct k; [|lia]. exfalso. assert (false = true); [|discriminate]. apply (proj2 (Nc eq_refl)). intros j Hj.
        assert (X : rank p (col s j) = 0) by (specialize (Hrank j Hj); lia).
        destruct (nth j ok1 false) eqn:Eo; [reflexivity|]. exfalso.
        assert (Eok : nth j ok false = false).
        { destruct (nth j ok false) eqn:XX; [|reflexivity]. destruct (Hcol j Hj) as (_ & _ & _ & _ & [(_ & _ & Z2)|(Z0 & _)]); congruence. }
        destruct (Nb eq_refl j Hj Eok) as (_ & _ & _ & U3). rewrite (Ha j Hj) in U3. apply rank0 in X. congruence. }
      destruct V' as (V1 & V2); [exact Hen|exact Hfine| |exact Hk|].
      { intros j Hj. destruct (Hdec eq_refl Hen Hfine j Hj) as [X _]. specialize (Hrank j Hj). lia. }
      split; [exact V1|]. intros j Hj. destruct (Hdec eq_refl Hen Hfine j Hj) as (Z1 & Z2 & Z3). destruct (V2 j Hj) as (Z4 & Z5). split.
      * intros K. rewrite Z4 by lia. apply Z2. exact K.
      * intros K. apply (P' j Hj). apply Z3. exact K.
Qed.
End L.
End P.
