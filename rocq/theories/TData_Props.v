(** Properties of the training data object: C10 - C14, C63, C64.
    [coherent oneA S]: usable training data (see TData_Spec.v).  [allowed_run]: every
    call of the history meets its documented precondition.  [holds one b src ids]: the
    matrix b consists of exactly the samples of src with the numbers ids. *)
From Coq Require Import Permutation.
From Verif Require Import Base BaseLemmas Workers_Model Kern_Model Kern_Spec Kern_Proofs MKern_Model MKern_Spec
  Smx_Model Smx_Spec Smx_Proofs Smx_Proofs2 TData_Model TData_Spec TData_Proofs TData_Proofs2 TData_Proofs3 TData_Proofs4 TData_Proofs5 TData_Proofs6.

Section R.
Context {A B : Type} (oneA : A) (oneB : B).
Notation sets := (sets A B). Notation tds := (tds A B). Notation imath := (imath A B).
Implicit Types (S : sets) (t : tds).

Lemma allowed_app S fp tb os os' : forall t ph, allowed_run oneA oneB S fp tb t ph (os ++ os') ->
  allowed_run oneA oneB S fp tb t ph os /\
  forall bs t' ph', run oneA S t os = Some (bs, t') -> spec_run oneA oneB S fp tb ph os bs ph' ->
    allowed_run oneA oneB S fp tb t' ph' os'.
Proof.
  induction os as [|o os IH]; intros t ph Ha.
  - split; [constructor|]. intros bs t' ph' E Hs. cbn in E. inversion E; subst. inversion Hs; subst. exact Ha.
  - cbn [app] in Ha. inversion Ha as [|t0 ph0 o0 os0 Hal Hn]; subst. split.
    + constructor; [exact Hal|]. intros b t' ph' E Hs. exact (proj1 (IH t' ph' (Hn b t' ph' E Hs))).
    + intros bs t' ph' E Hs. cbn [run] in E. destruct (step oneA S t o) as [[b t1]|] eqn:E1; [|discriminate]. cbn [obind] in E.
      destruct (run oneA S t1 os) as [[bs1 t2]|] eqn:E2; [|discriminate]. cbn [obind] in E. inversion E; subst.
      inversion Hs as [|ph0 o0 os0 b0 bs0 ph1 ph2 Hs1 Hs2]; subst.
      exact (proj2 (IH t1 ph1 (Hn b t1 ph1 eq_refl Hs1)) bs1 t' ph' E2 Hs2).
Qed.

Lemma init_inv mx my mi S t reqF reqT fp tb t0 : coherent oneA S ->
  init4train oneA oneB mx my mi S t reqF reqT = Some (Success, fp, tb, t0) -> Inv oneA oneB S fp tb t0 Idle.
Proof.
  intros HC E. destruct (init4train_spec oneA oneB mx my mi S t reqF reqT HC) as (e & t' & E' & H1 & _).
  rewrite E in E'. inversion E'; subst. exact (proj1 (proj2 (H1 eq_refl))).
Qed.

(** the observations of an epoch: batches of the given samples *)
Definition batch_of S (n : nat) (b : obs) (ids : list nat) : Prop :=
  length ids = n /\ exists bx by_, b = OData (Some bx) (Some by_) /\
    holds oneA bx (x0 S) ids /\ holds oneB by_ (y0 S) ids.

Lemma epoch_main mx my mi S t reqF reqT fp tb t0 os rv ibs bs ims :
  coherent oneA S -> init4train oneA oneB mx my mi S t reqF reqT = Some (Success, fp, tb, t0) ->
  allowed_run oneA oneB S fp tb t0 Idle (os ++ [Epoch rv ibs bs]) ->
  let n := asked tb ibs bs in let N := train_cnt S in
  Forall im_ok ims -> length ims = N / n ->
  exists obs0 t1 obs1 t2 ids,
    run oneA S t0 os = Some (obs0, t1) /\
    run oneA S t1 (Epoch rv ibs bs :: batch_calls ims) = Some (ONum (N / n) :: obs1, t2) /\
    Forall2 (batch_of S n) obs1 ids /\ length ids = N / n /\
    NoDup (concat ids) /\ Forall (fun k => k < N) (concat ids) /\ N < length (concat ids) + n.
Proof.
  intros HC E Ha n N Him Hl.
  pose proof (init_inv mx my mi S t reqF reqT fp tb t0 HC E) as HI.
  destruct (allowed_app S fp tb os [Epoch rv ibs bs] t0 Idle Ha) as [Ha1 Ha2].
  destruct (run_refines oneA oneB S fp tb os HC t0 Idle HI Ha1) as (obs0 & t1 & ph1 & E1 & Hs1 & HI1).
  pose proof (Ha2 obs0 t1 ph1 E1 Hs1) as Ha3. inversion Ha3 as [|t3 ph3 o3 os3 Hal _]; subst.
  destruct (epoch_run oneA oneB S fp tb t1 ph1 rv ibs bs ims HC HI1 Hal Him Hl) as (perm & obs1 & t2 & E2 & HP & HF).
  fold n in HF. rewrite Hl in E2, HF. exists obs0, t1, obs1, t2, (map (slice perm n) (seq 0 (N / n))).
  assert (Hn : 0 < n) by (destruct Hal as (_ & ? & _); unfold n; lia).
  pose proof (Permutation_length HP) as HL. rewrite seq_length in HL. fold N in HL.
  pose proof (Nat.div_mod N n). pose proof (Nat.mod_upper_bound N n).
  assert (HN : N / n * n <= N) by lia.
  split; [exact E1|]. split; [exact E2|]. split; [|split; [rewrite map_length, seq_length; reflexivity|]].
  - assert (HF2 : forall ks bsl, Forall2 (fun b k => exists bx by_, b = OData (Some bx) (Some by_) /\
       holds oneA bx (x0 S) (slice perm n k) /\ holds oneB by_ (y0 S) (slice perm n k)) bsl ks ->
       (forall k, In k ks -> k < N / n) -> Forall2 (batch_of S n) bsl (map (slice perm n) ks)).
    { induction 1 as [|b k bsl ks Hb _ IH]; intros Hk; [constructor|]. cbn [map]. constructor.
      - split; [|exact Hb]. unfold slice. rewrite firstn_length, skipn_length, HL.
        assert (k < N / n) by (apply Hk; left; reflexivity). assert (n * (k + 1) <= n * (N / n)) by (apply Nat.mul_le_mono_l; lia). lia.
      - apply IH. intros k' Hin. apply Hk. right. exact Hin. }
    apply HF2; [exact HF|]. intros k Hk. apply in_seq in Hk. lia.
  - rewrite concat_slices by lia. split; [|split].
    + assert (ND : NoDup perm) by (apply (Permutation_NoDup (Permutation_sym HP)), seq_NoDup).
      rewrite <- (firstn_skipn (N / n * n) perm) in ND. clear -ND. remember (firstn (N / n * n) perm) as a.
      clear Heqa. induction a as [|x a IH]; [constructor|]. cbn [app] in ND. inversion ND; subst. constructor; [|auto].
      intros Hin. apply H1. apply in_or_app. left. exact Hin.
    + apply Forall_forall. intros k Hk.
      assert (Hk' : In k perm) by (rewrite <- (firstn_skipn (N / n * n) perm); apply in_or_app; left; exact Hk).
      apply (Permutation_in _ HP) in Hk'. apply in_seq in Hk'. unfold N. lia.
    + rewrite firstn_length. lia.
Qed.

Lemma idx_perm mx my mi S t reqF reqT fp tb t0 os :
  coherent oneA S -> init4train oneA oneB mx my mi S t reqF reqT = Some (Success, fp, tb, t0) ->
  allowed_run oneA oneB S fp tb t0 Idle os ->
  exists bs t', run oneA S t0 os = Some (bs, t') /\ (tb < train_cnt S -> Permutation (t_idx t') (seq 0 (train_cnt S))).
Proof.
  intros HC E Ha. pose proof (init_inv mx my mi S t reqF reqT fp tb t0 HC E) as HI.
  destruct (run_refines oneA oneB S fp tb os HC t0 Idle HI Ha) as (bs & t' & ph' & E1 & _ & HI1).
  exists bs, t'. split; [exact E1|]. destruct HI1 as (_ & _ & I3 & _ & _ & I6 & _). intros Hlt. apply I6. rewrite I3. apply Nat.ltb_lt. exact Hlt.
Qed.

Lemma walk_main mx my mi S t reqF reqT fp tb t0 os id ibs bs flag ims :
  coherent oneA S -> init4train oneA oneB mx my mi S t reqF reqT = Some (Success, fp, tb, t0) ->
  allowed_run oneA oneB S fp tb t0 Idle (os ++ [Walk id ibs bs flag]) ->
  let N := cnt S id in let n := Nat.min (asked fp ibs bs) N in
  Forall im_ok ims -> length ims = N / n + (if 1 <? N mod n then 1 else 0) ->
  exists obs0 t1 obs1 t2 ids,
    run oneA S t0 os = Some (obs0, t1) /\
    run oneA S t1 (Walk id ibs bs flag :: subset_calls ims) = Some (ONum (length ims) :: obs1, t2) /\
    Forall2 (fun b l => exists ox oy, b = OData ox oy /\
       (if flag =? 1 then ox = None else exists bx, ox = Some bx /\ holds oneA bx (set_x S id) l) /\
       (if flag =? 2 then oy = None else exists by_, oy = Some by_ /\ holds oneB by_ (set_y S id) l)) obs1 ids /\
    concat ids = seq 0 (if N mod n =? 1 then N - 1 else N).
Proof.
  intros HC E Ha N n Him Hl.
  pose proof (init_inv mx my mi S t reqF reqT fp tb t0 HC E) as HI.
  destruct (allowed_app S fp tb os [Walk id ibs bs flag] t0 Idle Ha) as [Ha1 Ha2].
  destruct (run_refines oneA oneB S fp tb os HC t0 Idle HI Ha1) as (obs0 & t1 & ph1 & E1 & Hs1 & HI1).
  pose proof (Ha2 obs0 t1 ph1 E1 Hs1) as Ha3. inversion Ha3 as [|t3 ph3 o3 os3 Hal _]; subst.
  destruct (walk_run oneA oneB S fp tb t1 ph1 id ibs bs flag ims HC HI1 Hal Him Hl) as (obs1 & t2 & E2 & HF).
  fold N n in HF. exists obs0, t1, obs1, t2, (map (slice (seq 0 N) n) (seq 0 (length ims))).
  split; [exact E1|]. split; [exact E2|]. split.
  - clear -HF. induction HF as [|b k bsl ks Hb _ IH]; [constructor|]. cbn [map]. constructor; [exact Hb|exact IH].
  - rewrite Hl. destruct Hal as (Hid & Hpos & _). destruct (coherent_set oneA S id HC Hid) as (_ & _ & _ & _ & _ & _ & _ & Hb0 & Hp0 & _).
    apply walk_concat. unfold n. fold N in Hp0. lia.
Qed.

Lemma init_main mx my mi S t reqF reqT :
  coherent oneA S ->
  let all := Nat.max (cnt S 0) (cnt S 1) in
  exists e fp tb t', init4train oneA oneB mx my mi S t reqF reqT = Some (e, fp, tb, t') /\
    (e = Success -> 0 < tb <= fp /\ fp <= all /\ tb <= cnt S 0 /\
      (reqF = 0 -> fp = all) /\ (reqT = 0 -> tb = cnt S 0) /\
      (0 < reqF -> fp = Nat.min reqF all) /\ (0 < reqT -> tb = Nat.min reqT (cnt S 0))) /\
    (e <> Success -> forall bs fp' tb', is_initialized4inference S t' bs = None /\ is_initialized4train S t' fp' tb' = None) /\
    (mx <> None -> my <> None -> mi = true -> (e = Success <-> tb <= fp)).
Proof.
  intros HC all. destruct (init4train_spec oneA oneB mx my mi S t reqF reqT HC) as (e & t' & E & H1 & H2 & H3 & H4 & H5 & H6).
  destruct (coherent_set oneA S 0 HC) as (_ & _ & _ & _ & _ & _ & _ & Hb0 & Hp0 & _); [lia|].
  change (biggest S) with (Nat.max (Nat.max 0 (cnt S 0)) (cnt S 1)) in *. change (Nat.max 0 (cnt S 0)) with (cnt S 0) in *. fold all in E, H1, H3.
  change (train_cnt S) with (cnt S 0) in *.
  eexists e, _, _, t'. split; [exact E|]. split; [|split].
  - intros He. destruct (H1 He) as (Hle & (_ & _ & _ & I4 & I5 & _) & _).
    assert (K : forall q a, (q = 0 -> want q a = a) /\ (0 < q -> want q a = Nat.min q a)).
    { intros q a. unfold want. destruct (Nat.eqb_spec q 0), (Nat.ltb_spec a q); cbn [orb]; split; lia. }
    destruct (K reqF all), (K reqT (cnt S 0)). unfold want in *. 
    assert (0 < cnt S 0 <= all) by (unfold all; lia).
    repeat split; auto; destruct (Nat.eqb_spec reqF 0), (Nat.ltb_spec all reqF), (Nat.eqb_spec reqT 0), (Nat.ltb_spec (cnt S 0) reqT); cbn [orb] in *; lia.
  - intros He bs fp' tb'. destruct (H2 He) as [F T]. unfold is_initialized4train.
    assert (K : forall b, is_initialized4inference S t' b = None).
    { intros b. unfold is_initialized4inference. rewrite F. change (0 =? 0) with true. rewrite orb_true_r. reflexivity. }
    rewrite !K. split; reflexivity.
  - intros Mx My Mi. split; [intros He; exact (proj1 (H1 He))|]. intros Hle.
    destruct e; [reflexivity|congruence|congruence| |].
    + assert (want reqF all < want reqT (cnt S 0)) by (apply H3; reflexivity). lia.
    + destruct (H4 eq_refl) as [?|[?|?]]; congruence.
Qed.

Lemma report_main mx my mi S t reqF reqT fp tb t0 :
  coherent oneA S -> init4train oneA oneB mx my mi S t reqF reqT = Some (Success, fp, tb, t0) ->
  (is_initialized4train S t0 fp tb = None <->
   tb < fp /\ tb = cnt S 0 /\ (s_bir (x0 S) = true \/ fp = Nat.max (cnt S 0) (cnt S 1))) /\
  (forall r, is_initialized4train S t0 fp tb = Some r -> exists mini, r = (fp, tb, mini)).
Proof.
  intros HC E. destruct (init_main mx my mi S t reqF reqT HC) as (e1 & fp1 & tb1 & t1 & E1 & J & _).
  destruct (init4train_spec oneA oneB mx my mi S t reqF reqT HC) as (e & t' & E' & H1 & _).
  rewrite E in E'. inversion E'. rewrite E in E1. inversion E1; subst e fp tb t' e1 fp1 tb1 t1. clear E' E1.
  destruct (H1 eq_refl) as (Hle & HI & He). destruct (J eq_refl) as (Jp & Jf & Jt & _).
  rewrite (is_init_train_iff oneA oneB S _ _ t0 Idle HC HI He).
  change (biggest S) with (Nat.max (Nat.max 0 (cnt S 0)) (cnt S 1)) in *. change (Nat.max 0 (cnt S 0)) with (cnt S 0) in *.
  change (train_cnt S) with (cnt S 0) in *.
  set (fp := want reqF _) in *. set (tb := want reqT _) in *. rewrite He.
  destruct (Nat.ltb_spec tb fp), (Nat.ltb_spec tb (cnt S 0)), (Nat.ltb_spec fp (Nat.max (cnt S 0) (cnt S 1))), (s_bir (x0 S));
    cbn [negb andb orb]; (split; [split; intros Q; try discriminate; try reflexivity; try lia|intros r Q; try discriminate; inversion Q; eexists; reflexivity]).
  all: try (split; [lia|split; [lia|auto; right; lia]]).
  all: destruct Q as (? & ? & [?|?]); try discriminate; lia.
Qed.
End R.

(** ** C10 *)
Theorem C10_epoch_batches : forall A B (oneA : A) (oneB : B) mx my mi S t reqF reqT fp tb t0 os rv ibs bs ims,
  coherent oneA S -> init4train oneA oneB mx my mi S t reqF reqT = Some (Success, fp, tb, t0) ->
  allowed_run oneA oneB S fp tb t0 Idle (os ++ [Epoch rv ibs bs]) ->
  let n := asked tb ibs bs in let N := train_cnt S in
  Forall im_ok ims -> length ims = N / n ->
  exists obs0 t1 obs1 t2 ids,
    run oneA S t0 os = Some (obs0, t1) /\
    run oneA S t1 (Epoch rv ibs bs :: batch_calls ims) = Some (ONum (N / n) :: obs1, t2) /\
    Forall2 (batch_of oneA oneB S n) obs1 ids /\ length ids = N / n /\
    NoDup (concat ids) /\ Forall (fun k => k < N) (concat ids) /\ N < length (concat ids) + n.
Proof. exact @epoch_main. Qed.
Print Assumptions C10_epoch_batches.

(** ** C11 *)
Theorem C11_indices_stay_a_permutation : forall A B (oneA : A) (oneB : B) mx my mi S t reqF reqT fp tb t0 os,
  coherent oneA S -> init4train oneA oneB mx my mi S t reqF reqT = Some (Success, fp, tb, t0) ->
  allowed_run oneA oneB S fp tb t0 Idle os ->
  exists bs t', run oneA S t0 os = Some (bs, t') /\ (tb < train_cnt S -> Permutation (t_idx t') (seq 0 (train_cnt S))).
Proof. exact @idx_perm. Qed.
Print Assumptions C11_indices_stay_a_permutation.

(** Every order of the samples comes out of the shuffle for some answers of the
    generator. *)
Theorem C11_every_order_possible : forall l T : list nat, Permutation T l ->
  exists rv, rng_ok rv /\ random_shuffle rv l = Some T.
Proof. exact shuffle_onto. Qed.
Print Assumptions C11_every_order_possible.
Example C11_order_example :
  Permutation [2; 0; 1] [0; 1; 2] /\ random_shuffle (fun k => if k =? 3 then 0 else 1) [0; 1; 2] = Some [2; 1; 0] /\
  random_shuffle (fun k => 0) [0; 1; 2] = Some [2; 0; 1].
Proof. split; [|split; reflexivity]. apply perm_trans with [0; 2; 1]; [apply perm_swap|apply perm_skip, perm_swap]. Qed.

(** ** C12 *)
(** The walk returns the samples in order, each once; the last one is missing iff the
    remainder is 1. *)
Theorem C12_walk_partial : forall A B (oneA : A) (oneB : B) mx my mi S t reqF reqT fp tb t0 os id ibs bs flag ims,
  coherent oneA S -> init4train oneA oneB mx my mi S t reqF reqT = Some (Success, fp, tb, t0) ->
  allowed_run oneA oneB S fp tb t0 Idle (os ++ [Walk id ibs bs flag]) ->
  let N := cnt S id in let n := Nat.min (asked fp ibs bs) N in
  Forall im_ok ims -> length ims = N / n + (if 1 <? N mod n then 1 else 0) ->
  exists obs0 t1 obs1 t2 ids,
    run oneA S t0 os = Some (obs0, t1) /\
    run oneA S t1 (Walk id ibs bs flag :: subset_calls ims) = Some (ONum (length ims) :: obs1, t2) /\
    Forall2 (fun b l => exists ox oy, b = OData ox oy /\
       (if flag =? 1 then ox = None else exists bx, ox = Some bx /\ holds oneA bx (set_x S id) l) /\
       (if flag =? 2 then oy = None else exists by_, oy = Some by_ /\ holds oneB by_ (set_y S id) l)) obs1 ids /\
    concat ids = seq 0 (if N mod n =? 1 then N - 1 else N).
Proof. exact @walk_main. Qed.
Print Assumptions C12_walk_partial.


(** ** C13 *)
Theorem C13_batch_sizes : forall A B (oneA : A) (oneB : B) mx my mi S t reqF reqT,
  coherent oneA S ->
  let all := Nat.max (cnt S 0) (cnt S 1) in
  exists e fp tb t', init4train oneA oneB mx my mi S t reqF reqT = Some (e, fp, tb, t') /\
    (e = Success -> 0 < tb <= fp /\ fp <= all /\ tb <= cnt S 0 /\
      (reqF = 0 -> fp = all) /\ (reqT = 0 -> tb = cnt S 0) /\
      (0 < reqF -> fp = Nat.min reqF all) /\ (0 < reqT -> tb = Nat.min reqT (cnt S 0))) /\
    (e <> Success -> forall bs fp' tb', is_initialized4inference S t' bs = None /\ is_initialized4train S t' fp' tb' = None) /\
    (mx <> None -> my <> None -> mi = true -> (e = Success <-> tb <= fp)).
Proof. exact @init_main. Qed.
Print Assumptions C13_batch_sizes.

(** ** C14 *)
(** Exactly when the initialisation just done is not confirmed. *)
Theorem C14_confirmed_partial : forall A B (oneA : A) (oneB : B) mx my mi S t reqF reqT fp tb t0,
  coherent oneA S -> init4train oneA oneB mx my mi S t reqF reqT = Some (Success, fp, tb, t0) ->
  (is_initialized4train S t0 fp tb = None <->
   tb < fp /\ tb = cnt S 0 /\ (s_bir (x0 S) = true \/ fp = Nat.max (cnt S 0) (cnt S 1))) /\
  (forall r, is_initialized4train S t0 fp tb = Some r -> exists mini, r = (fp, tb, mini)).
Proof. exact @report_main. Qed.
Print Assumptions C14_confirmed_partial.

(** ** Examples for C10 - C14 *)
(** Three train and two test samples of width 1 (x with biases 1), one output. *)
Definition ex_sets : sets nat nat :=
  mkSets (mkS 3 2 true false false false (Some [10; 11; 12; 1; 1; 1]))
         (mkS 2 2 true false false false (Some [20; 21; 1; 1]))
         (mkS 3 1 false false false false (Some [30; 31; 32]))
         (mkS 2 1 false false false false (Some [40; 41])).
(** the same with train and test sets exchanged *)
Definition ex_sets' : sets nat nat := mkSets (x1 ex_sets) (x0 ex_sets) (y1 ex_sets) (y0 ex_sets).
Definition ex_none : tds nat nat :=
  mkT (mkS 0 0 false false false false None) (mkS 0 0 false false false false None)
      (mkS 0 0 false false false false None) (mkS 0 0 false false false false None)
      [] false SNull SNull 0 0 0%Z None.
Definition ex_env : mem_env nat := Some (fun i => 90 + i).
(** one thread *)
Definition ex_im1 : imath nat nat := mkIM (fun n => [mkR 0 n 0]) (@concat _) (@concat _).
Definition ex_t0 : tds nat nat :=
  match init4train 1 1 ex_env ex_env true ex_sets ex_none 0 2 with Some (_, t) => t | None => ex_none end.

Lemma ex_data (m : smx nat) (l : list nat) : s_data m = Some l -> (0 <? s_rows m) && (0 <? s_cols m) && (s_numel m <=? length l) = true -> well_alloc m.
Proof.
  intros E H. apply andb_true_iff in H. destruct H as [H H3]. apply andb_true_iff in H. destruct H as [H1 H2].
  apply Nat.ltb_lt in H1, H2. apply Nat.leb_le in H3. split; [exact H1|]. split; [exact H2|]. exists l. split; assumption.
Qed.

Lemma ex_coherent : coherent 1 ex_sets /\ coherent 1 ex_sets'.
Proof.
  assert (D0 : dataset 1 (x0 ex_sets) (y0 ex_sets)).
  { split; [eapply ex_data; reflexivity|]. split; [eapply ex_data; reflexivity|]. split; [reflexivity|]. split.
    - intros _. cbn. split; [lia|]. intros r Hr. do 3 (destruct r as [|r]; [reflexivity|]). lia.
    - split; [reflexivity|]. split; [cbn; lia|reflexivity]. }
  assert (D1 : dataset 1 (x1 ex_sets) (y1 ex_sets)).
  { split; [eapply ex_data; reflexivity|]. split; [eapply ex_data; reflexivity|]. split; [reflexivity|]. split.
    - intros _. cbn. split; [lia|]. intros r Hr. do 2 (destruct r as [|r]; [reflexivity|]). lia.
    - split; [reflexivity|]. split; [cbn; lia|reflexivity]. }
  split.
  - split; [exact D0|]. split; [exact D1|]. do 4 (split; [reflexivity|]). cbn. unfold max_vec_len. split; lia.
  - split; [exact D1|]. split; [exact D0|]. do 4 (split; [reflexivity|]). cbn. unfold max_vec_len. split; lia.
Qed.

Lemma concat_interleaving {X} (ts : list (list X)) : interleaving ts (concat ts).
Proof.
  assert (K : forall n pre ts, length (concat ts) + length ts <= n -> Forall (fun t : list X => t = []) pre -> interleaving (pre ++ ts) (concat ts)).
  { induction n as [|n IH]; intros pre ts' Hn Hp; destruct ts' as [|[|x t] ts']; cbn [concat app length] in *; try lia.
    - rewrite app_nil_r. constructor. exact Hp.
    - rewrite app_nil_r. constructor. exact Hp.
    - replace (pre ++ [] :: ts') with ((pre ++ [[]]) ++ ts') by (rewrite <- app_assoc; reflexivity).
      apply IH; [lia|]. apply Forall_app. split; [exact Hp|]. constructor; [reflexivity|constructor].
    - eapply (il_pick _ (length pre)); [rewrite nth_error_app2, Nat.sub_diag by lia; reflexivity|].
      assert (U : upd (pre ++ (x :: t) :: ts') (length pre) t = pre ++ t :: ts').
      { clear. induction pre as [|a pre IH]; [reflexivity|]. cbn [app length upd]. rewrite IH. reflexivity. }
      rewrite U. apply (IH pre (t :: ts')); [cbn [concat length]; lia|exact Hp]. }
  exact (K _ [] ts (le_n _) (Forall_nil _)).
Qed.

Lemma ex_im1_ok : im_ok ex_im1.
Proof.
  split; [|split; intros; apply concat_interleaving].
  intros n Hn. split; [|intros p [<-|[]]; exact Hn]. cbn. rewrite app_nil_r. apply Permutation_refl.
Qed.

(** Training with batches of 2, then an evaluation of the test set, then another
    epoch whose generator always answers 0. *)
Definition ex_os : list (op (A := nat) (B := nat)) :=
  [Epoch (fun k => k - 1) 0 (-1)%Z; Batch ex_im1 0; Walk 1 0 (-1)%Z 0; Subset ex_im1 0].
Definition ex_seen (r : option (list obs * tds nat nat)) : option (list (obs (A := nat) (B := nat)) * list nat) :=
  do (b, t) <- r; Some (b, t_idx t).

Lemma ex_allowed : allowed_run 1 1 ex_sets 3 2 ex_t0 Idle (ex_os ++ [Epoch (fun _ => 0) 0 (-1)%Z]).
Proof.
  assert (R1 : rng_ok (fun k => k - 1)) by (intros k; lia). assert (R2 : rng_ok (fun _ => 0)) by (intros k; lia).
  constructor. { split; [exact R1|]. cbn. split; [lia|]. intros Q; discriminate Q. }
  intros b1 t1 ph1 E1 (perm & _ & _ & ->). cbn [asked Z.ltb Z.compare] in *. vm_compute in E1. inversion E1; subst; clear E1.
  constructor. { split; [exact ex_im1_ok|]. cbn. lia. }
  intros b2 t2 ph2 E2 (_ & ->). vm_compute in E2. inversion E2; subst; clear E2.
  constructor. { split; [lia|]. cbn. split; [lia|]. reflexivity. }
  intros b3 t3 ph3 E3 (_ & ->). cbn [asked Z.ltb Z.compare] in *. vm_compute in E3. inversion E3; subst; clear E3.
  constructor. { split; [exact ex_im1_ok|]. cbn. split; lia. }
  intros b4 t4 ph4 E4 (_ & ->). vm_compute in E4. inversion E4; subst; clear E4.
  constructor. { split; [exact R2|]. cbn. split; [lia|]. intros Q; discriminate Q. }
  intros b5 t5 ph5 E5 _. constructor.
Qed.

Example C10_C11_example :
  coherent 1 ex_sets /\ init4train 1 1 ex_env ex_env true ex_sets ex_none 0 2 = Some (Success, 3, 2, ex_t0) /\
  allowed_run 1 1 ex_sets 3 2 ex_t0 Idle (ex_os ++ [Epoch (fun _ => 0) 0 (-1)%Z]) /\
  Forall im_ok [ex_im1] /\ length [ex_im1] = train_cnt ex_sets / asked 2 0 (-1)%Z /\
  ex_seen (run 1 ex_sets ex_t0 (ex_os ++ Epoch (fun _ => 0) 0 (-1)%Z :: batch_calls [ex_im1])) = Some
    ([ONum 1;
      OData (Some (mkS 2 2 true false false false (Some [10; 11; 1; 1; 1; 1])))
            (Some (mkS 2 1 false false false false (Some [30; 31; 92])));
      ONum 1;
      OData (Some (mkS 2 2 true false false false (Some [20; 21; 1; 1])))
            (Some (mkS 2 1 false false false false (Some [40; 41])));
      ONum 1;
      OData (Some (mkS 2 2 true false false false (Some [12; 10; 1; 1; 1; 1])))
            (Some (mkS 2 1 false false false false (Some [32; 30; 92])))], [2; 0; 1]).
Proof.
  split; [exact (proj1 ex_coherent)|]. split; [reflexivity|]. split; [exact ex_allowed|].
  split; [constructor; [exact ex_im1_ok|constructor]|]. split; [reflexivity|]. vm_compute. reflexivity.
Qed.

Example C12_example :
  coherent 1 ex_sets' /\ exists t0, init4train 1 1 ex_env ex_env true ex_sets' ex_none 2 2 = Some (Success, 2, 2, t0) /\
  allowed_run 1 1 ex_sets' 2 2 t0 Idle ([] ++ [Walk 0 0 (-1)%Z 0]) /\
  ex_seen (run 1 ex_sets' t0 (Walk 0 0 (-1)%Z 0 :: subset_calls [ex_im1])) =
    Some ([ONum 1; OData (Some (x0 ex_sets')) (Some (y0 ex_sets'))], []).
Proof.
  split; [exact (proj2 ex_coherent)|]. eexists. split; [reflexivity|]. split; [|vm_compute; reflexivity].
  constructor; [|intros; constructor]. split; [lia|]. split; [cbn; lia|reflexivity].
Qed.

(** 3 samples in batches of 2: one batch with 2 samples, the third is never returned. *)
Theorem C12_walk_refuted : exists S t0 (ims : list (imath nat nat)) obs1 t1 bx by_,
  coherent 1 S /\ init4train 1 1 ex_env ex_env true S ex_none 2 2 = Some (Success, 2, 2, t0) /\
  allowed_run 1 1 S 2 2 t0 Idle [Walk 0 0 (-1)%Z 0] /\ Forall im_ok ims /\
  run 1 S t0 (Walk 0 0 (-1)%Z 0 :: subset_calls ims) = Some (ONum (length ims) :: obs1, t1) /\
  cnt S 0 = 3 /\ obs1 = [OData (Some bx) (Some by_)] /\ batch_size bx = 2.
Proof.
  exists ex_sets. eexists _, [ex_im1], _, _, _, _. split; [exact (proj1 ex_coherent)|]. split; [reflexivity|]. split.
  { constructor; [|intros; constructor]. split; [lia|]. split; [cbn; lia|reflexivity]. }
  split; [constructor; [exact ex_im1_ok|constructor]|]. split; [vm_compute; reflexivity|]. repeat split.
Qed.
Print Assumptions C12_walk_refuted.

Example C13_example :
  (do (r, t') <- init4train 1 1 ex_env ex_env true ex_sets ex_none 0 2; Some r) = Some (Success, 3, 2) /\
  (do (r, t') <- init4train 1 1 ex_env ex_env true ex_sets ex_none 2 0; Some r) = Some (InvalidBatchSize2MaxFPropSizeRelation, 2, 3) /\
  (do (r, t') <- init4train 1 1 ex_env None true ex_sets ex_none 0 2; Some r) = Some (TdInitNoMemory, 3, 2).
Proof. repeat split. Qed.

Example C14_example :
  exists t0, init4train 1 1 ex_env ex_env true ex_sets ex_none 0 2 = Some (Success, 3, 2, t0) /\
    is_initialized4train ex_sets t0 3 2 = Some (3, 2, true).
Proof. eexists. split; reflexivity. Qed.

(** Full-batch training on 2 samples with a test set of 3. *)
Theorem C14_confirmed_refuted : exists S t0 fp tb,
  coherent 1 S /\ init4train 1 1 ex_env ex_env true S ex_none 0 0 = Some (Success, fp, tb, t0) /\
  is_initialized4train S t0 fp tb = None.
Proof. exists ex_sets'. eexists _, _, _. split; [exact (proj2 ex_coherent)|]. split; reflexivity. Qed.
Print Assumptions C14_confirmed_refuted.

(** ** C63 *)
(** Sample i of the matrix exists iff i < batch_size; the statement for matrices with
    one sample per row. *)
Definition usable_input {C} (one : C) (m : smx C) : Prop :=
  s_bir m = false /\ 0 < s_cols_nb m /\ (Z.of_nat (s_rows m) <= max_vec_len)%Z /\
  (empty m = false -> well_alloc m /\ biases_one one m).

Theorem C63_absorb_partial : forall A B (oneA : A) (oneB : B) S tx ty ex ey,
  usable_input oneA tx -> usable_input oneA ex -> usable_input oneB ty -> usable_input oneB ey ->
  exists ok S', absorb S tx ty ex ey = (ok, S') /\
    (ok = true -> S' = mkSets tx ex ty ey) /\ (ok = false -> S' = S) /\
    (ok = true <-> coherent oneA (mkSets tx ex ty ey) /\
                   s_ext tx = false /\ s_ext ex = false /\ s_ext ty = false /\ s_ext ey = false).
Proof.
  intros A B oneA oneB S tx ty ex ey (R1 & C1 & L1 & W1) (R2 & C2 & L2 & W2) (R3 & C3 & L3 & W3) (R4 & C4 & L4 & W4).
  unfold absorb. destruct (absorbsion_will_succeed tx ty ex ey) eqn:E; eexists _, _; (split; [reflexivity|]);
    (split; [tauto || discriminate|]); (split; [tauto || discriminate|]).
  - unfold absorbsion_will_succeed in E. rewrite !andb_true_iff, !negb_true_iff, !Nat.eqb_eq in E.
    destruct E as (((((((((((((((E1 & E2) & E3) & E4) & E5) & E6) & E7) & E8) & E9) & E10) & E11) & E12) & E13) & E14) & E15) & E16).
    split; [|reflexivity]. intros _. split; [|repeat split; assumption].
    unfold coherent, dataset, sample_size, batch_size, s_cols_nb, s_bias_col in *. cbn [x0 x1 y0 y1].
    rewrite R1, R2, R3, R4, E9, E10, E11, E12 in *. cbn [andb negb Nat.b2n] in *.
    destruct (W1 E1), (W2 E4), (W3 E2), (W4 E5).
    split; [|split]; [do 6 (split; [first [assumption|reflexivity|lia]|]); assumption..|].
    do 4 (split; [first [reflexivity|lia]|]). split; assumption.
  - split; [discriminate|]. intros ((D0 & D1 & _ & _ & HX & HY & _) & X1 & X2 & X3 & X4). cbn [x0 x1 y0 y1] in *.
    destruct D0 as (A1 & A2 & A3 & _ & A5 & _ & A7), D1 as (B1 & B2 & B3 & _ & B5 & _ & B7).
    assert (K : forall C (m : smx C), well_alloc m -> empty m = false) by (intros C m (_ & _ & l & D & _); unfold empty; rewrite D; reflexivity).
    unfold absorbsion_will_succeed in E. rewrite (K _ tx A1), (K _ ty A2), (K _ ex B1), (K _ ey B2), A3, A5, B3, B5, X1, X2, X3, X4 in E.
    unfold sample_size, batch_size, s_cols_nb, s_bias_col in *. rewrite R1, R2, R3, R4, A3, A5, B3, B5 in *. cbn [andb negb Nat.b2n] in *.
    rewrite !andb_true_r in E.
    apply Nat.eqb_eq in A7, B7. rewrite A7, B7 in E. cbn [andb] in E.
    assert (s_cols ty = s_cols ey) by lia. assert (s_cols tx = s_cols ex) by lia.
    rewrite H, H0, !Nat.eqb_refl in E. discriminate E.
Qed.
Print Assumptions C63_absorb_partial.

Example C63_example :
  usable_input 1 (x0 ex_sets) /\
  fst (absorb ex_sets' (x0 ex_sets) (y0 ex_sets) (x1 ex_sets) (y1 ex_sets)) = true /\
  fst (absorb ex_sets' (x0 ex_sets) (y1 ex_sets) (x1 ex_sets) (y1 ex_sets)) = false.
Proof.
  split; [|split; reflexivity]. destruct ex_coherent as [((W & _ & _ & Bi & _) & _) _].
  split; [reflexivity|]. split; [cbn; lia|]. split; [unfold max_vec_len; cbn; lia|]. intros _. split; assumption.
Qed.

(** One sample per column: coherent data is rejected (rows are widths there), and data
    with 2 x-samples but a single y-sample is accepted. *)
Theorem C63_absorb_refuted :
  (exists (S S' : sets nat nat), coherent 1 S /\
     s_ext (x0 S) = false /\ s_ext (x1 S) = false /\ s_ext (y0 S) = false /\ s_ext (y1 S) = false /\
     fst (absorb S' (x0 S) (y0 S) (x1 S) (y1 S)) = false) /\
  (exists (S' : sets nat nat) tx ty ex ey, well_alloc tx /\ well_alloc ty /\ well_alloc ex /\ well_alloc ey /\
     batch_size tx = 2 /\ batch_size ty = 1 /\ fst (absorb S' tx ty ex ey) = true).
Proof.
  split.
  - set (x := mkS 2 2 true false false true (Some [10; 1; 11; 1])).
    set (y := mkS 1 2 false false false true (Some [30; 31])).
    exists (mkSets x x y y), ex_sets.
    assert (D : dataset 1 x y).
    { split; [eapply ex_data; reflexivity|]. split; [eapply ex_data; reflexivity|]. split; [reflexivity|]. split.
      - intros _. cbn. split; [lia|]. intros c Hc. do 2 (destruct c as [|c]; [reflexivity|]). lia.
      - split; [reflexivity|]. split; [cbn; lia|reflexivity]. }
    split; [|repeat split]. split; [exact D|]. split; [exact D|]. do 4 (split; [reflexivity|]).
    cbn. unfold max_vec_len. split; lia.
  - set (x := mkS 2 2 true false false true (Some [10; 1; 11; 1])).
    set (y := mkS 2 1 false false false true (Some [30; 31])).
    exists ex_sets, x, y, x, y. repeat (split; [eapply ex_data; reflexivity|]). repeat split.
Qed.
Print Assumptions C63_absorb_refuted.

(** ** C64 *)
Lemma resize_fail {C} (one : C) me (s s' : smx C) bs w :
  d_resize_as_dataset one me s bs w = Some (false, s') -> empty s' = true.
Proof.
  unfold d_resize_as_dataset, resize_as_dataset.
  assert (K : forall r c, resize one me (free s) r c = Some (false, s') -> empty s' = true).
  { intros r c. unfold resize. destruct ((r =? 0) || (c =? 0)); [intros E; inversion E; reflexivity|].
    destruct (impl_resize me (free s) _ _) as [[b s1]|] eqn:E1; [|discriminate]. cbn [obind].
    destruct b; cbn [andb].
    - destruct (s_bias s1); [|discriminate]. destruct (set_biases one s1); discriminate.
    - intros E; inversion E; subst. revert E1. unfold impl_resize.
      destruct (_ || _); [intros E1; inversion E1; reflexivity|]. destruct (_ && _); [discriminate|].
      destruct (realloc me _) as [s2|]; [|discriminate]. cbn [obind]. intros E1. inversion E1. apply negb_false_iff in H0. exact H0. }
  destruct (s_bir (free s)); apply K.
Qed.

(** After a failure the object answers 'initialised' exactly for the maximum size (or
    0, which stands for it). *)
Theorem C64_failed_inference_partial : forall A B (oneA : A) (oneB : B) mx my S t reqF,
  coherent oneA S ->
  exists e fp t', init4inference oneA oneB mx my S t reqF = Some (e, fp, t') /\
    fp = (if (reqF =? 0) then Nat.max (cnt S 0) (cnt S 1) else Nat.min reqF (Nat.max (cnt S 0) (cnt S 1))) /\
    is_initialized4inference S t' 0 = Some fp /\
    (e <> Success -> forall bs, is_initialized4inference S t' bs = if (bs =? 0) || (bs =? fp) then Some fp else None).
Proof.
  intros A B oneA oneB mx my S t reqF HC. destruct (biggest_ok oneA S HC) as [EB LB].
  destruct (coherent_set oneA S 0 HC) as (_ & _ & _ & _ & _ & _ & _ & Hb0 & Hp0 & _); [lia|].
  unfold init4inference. rewrite EB. cbn [obind].
  destruct (Z.ltb_spec max_vec_len (Z.of_nat (biggest S))); [lia|]. rewrite andb_false_r, leb0.
  fold (want reqF (biggest S)). set (fp := want reqF (biggest S)).
  assert (Efp : fp = (if (reqF =? 0) then Nat.max (cnt S 0) (cnt S 1) else Nat.min reqF (Nat.max (cnt S 0) (cnt S 1)))).
  { change (Nat.max (cnt S 0) (cnt S 1)) with (biggest S). unfold fp, want.
    destruct (Nat.eqb_spec reqF 0), (Nat.ltb_spec (biggest S) reqF); cbn [orb]; lia. }
  assert (Hfp : 0 < fp <= biggest S).
  { unfold fp, want. destruct (Nat.eqb_spec reqF 0), (Nat.ltb_spec (biggest S) reqF); cbn [orb]; lia. }
  set (t1 := with_sizes (deinit4all t) fp _ _).
  destruct (init_batches_ok oneA oneB mx my S t1 (fp <? biggest S) fp 0 HC) as (ok & t' & E & H1 & H2);
    try reflexivity; try lia; try discriminate.
  rewrite E. cbn [obind]. eexists _, fp, t'. split; [reflexivity|]. split; [exact Efp|].
  assert (T : t_fp t' = fp /\ (ok = false -> empty (t_bx t') = true)).
  { revert E. unfold initBatches. destruct (t_mini t1 || (fp <? biggest S)).
    2: { intros E. inversion E; subst. split; [reflexivity|discriminate]. }
    match goal with |- (do (_, _) <- ?q; _) = _ -> _ => destruct q as [[okx bx]|] eqn:EX end; [|discriminate]. cbn [obind].
    destruct okx; cbn [negb].
    - match goal with |- (do (_, _) <- ?q; _) = _ -> _ => destruct q as [[oky by_]|] eqn:EY end; [|discriminate]. cbn [obind].
      destruct oky; cbn [negb]; intros E; inversion E; subst; (split; [reflexivity|]); [discriminate|reflexivity].
    - intros E; inversion E; subst. split; [reflexivity|]. intros _. cbn [t_bx with_batches].
      destruct (t_mini t1 || negb (s_bir (x0 S) && (fp <? biggest S))); [|discriminate].
      exact (resize_fail _ _ _ _ _ _ EX). }
  destruct T as [T1 T2].
  assert (G : forall bs, is_initialized4inference S t' bs =
     if (bs =? 0) || (bs =? fp) then Some fp else if (fp <? bs) || empty (t_bx t') then None else Some bs).
  { intros bs. unfold is_initialized4inference. rewrite T1, (sets_nonempty oneA S HC).
    destruct (Nat.eqb_spec fp 0); [lia|]. cbn [orb].
    destruct (Nat.eqb_spec bs 0); cbn [orb].
    - rewrite Nat.ltb_irrefl. reflexivity.
    - destruct (Nat.eqb_spec bs fp) as [->|]; [rewrite Nat.ltb_irrefl; reflexivity|].
      destruct (Nat.ltb_spec fp bs); cbn [orb]; [reflexivity|]. destruct (Nat.ltb_spec bs fp); [|lia]. cbn [andb].
      destruct (empty (t_bx t')); reflexivity. }
  split; [rewrite G; reflexivity|]. intros He bs. rewrite G. destruct ok; [congruence|]. rewrite (T2 eq_refl), orb_true_r. reflexivity.
Qed.
Print Assumptions C64_failed_inference_partial.

Example C64_example :
  (do (r, t') <- init4inference 1 1 ex_env ex_env ex_sets ex_none 2; Some (r, is_initialized4inference ex_sets t' 1))
   = Some ((Success, 2), Some 1) /\
  (do (r, t') <- init4inference 1 1 None ex_env ex_sets ex_none 2; Some (r, is_initialized4inference ex_sets t' 1))
   = Some ((TdInitNoMemory, 2), None).
Proof. split; reflexivity. Qed.

Theorem C64_failed_inference_refuted : exists S t' fp,
  coherent 1 S /\ init4inference 1 1 None ex_env S ex_none 2 = Some (TdInitNoMemory, fp, t') /\
  is_initialized4inference S t' 0 = Some fp /\ empty (t_bx t') = true.
Proof. exists ex_sets. eexists _, _. split; [exact (proj1 ex_coherent)|]. split; [reflexivity|]. split; reflexivity. Qed.
Print Assumptions C64_failed_inference_refuted.
