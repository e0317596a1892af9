(** C103-C108: training data made at run time out of stored data. *)
From Coq Require Import Reals Lra Permutation.
From Verif Require Import Base Act_Spec TData_Model TData_Spec Nrm_Model Nrm_Spec Tf_Model Tf_Spec Tf_Proofs6.
Local Open Scope nat_scope.

(** ** C103 *)
(** Whatever happened to the object (initialisations, epochs, walks, normalisations, in any
    order the documentation allows): from now on, and after any further initialisation, every
    history of calls succeeds, an epoch or a walk shows the samples derived from the base
    samples, once each, in batches of whole families, and all values of a column go through
    one affine map, that is the identity if there is no normalisation. *)
Theorem C103_serves : forall (Y FS : Type) (F : tfun Y FS) st derive Q, conforms F st derive Q ->
  forall t h, thist F st derive t h ->
  (exists a b, tshown F st derive a b t h /\ tshown F st derive a b (deinit4all F t) None) /\
  tshown F st derive (fun _ => 1%R) (fun _ => 0%R) (reset_normalization t) h.
Proof. exact @serves_main. Qed.
Print Assumptions C103_serves.

(** A whole epoch; all samples, if the size of a batch divides their number. *)
Theorem C103_epoch : forall (Y FS : Type) (F : tfun Y FS) st derive a b t fp tb e rv ibs bs,
  tserves F st derive a b t fp tb -> rng_ok rv -> 0 < asked tb ibs bs <= tb -> asked tb ibs bs mod f_sibs F = 0 ->
  let c := asked tb ibs bs / f_sibs F in
  exists rs t' perm, trun F st t (TEpoch e rv ibs bs :: map TBatch (seq 0 (st_cnt st 0 / c))) = Some (TNum (st_cnt st 0 / c) :: rs, t') /\
    Permutation perm (seq 0 (st_cnt st 0)) /\
    Permutation (tall rs) (seen_as a b (flat_map (derive 0) (firstn (c * (st_cnt st 0 / c)) perm))) /\
    (st_cnt st 0 mod c = 0 -> Permutation (tall rs) (seen_as a b (flat_map (derive 0) (seq 0 (st_cnt st 0))))).
Proof. exact @epoch_main. Qed.
Print Assumptions C103_epoch.

(** ** C104 *)
(** A complete walk shows everything, but for a single last sample. *)
Theorem C104_walk_partial : forall (Y FS : Type) (F : tfun Y FS) st derive a b t fp tb id ibs bs,
  tserves F st derive a b t fp tb -> id < 2 -> 0 < asked fp ibs bs <= fp -> asked fp ibs bs mod f_sibs F = 0 ->
  let n := st_cnt st id in let c := Nat.min (asked fp ibs bs / f_sibs F) n in
  exists rs t', trun F st t (TWalk id ibs bs 0 :: map TNext (seq 0 (walks (f_sibs F) n c))) = Some (TNum (walks (f_sibs F) n c) :: rs, t') /\
    Permutation (tall rs) (seen_as a b (flat_map (derive id) (seq 0 (if f_sibs F * (n mod c) =? 1 then n - 1 else n)))).
Proof. exact @walk_main. Qed.
Print Assumptions C104_walk_partial.

(** ** C105 *)
Theorem C105_inference : forall (Y FS : Type) (F : tfun Y FS) st derive Q, conforms F st derive Q ->
  forall t h mf, thist F st derive t h ->
  let all := Nat.max (st_cnt st 0) (st_cnt st 1) * f_sibs F in
  (forall fp t', init4inference F st t mf = (TfSuccess, Z.of_nat fp, t') ->
     (0 <= mf)%Z /\ Z.to_nat mf mod f_sibs F = 0 /\ fp = granted (Z.to_nat mf) all /\ 0 < fp /\ (Z.of_nat fp <= max_vec_len)%Z /\
     forall n, is_initialized4inference F st t' n = if (n <=? fp) && (n mod f_sibs F =? 0) then Some (if n =? 0 then fp else n) else None) /\
  (st_empty st = false -> st_coherent st = true -> (0 <= mf)%Z -> Z.to_nat mf mod f_sibs F = 0 -> (Z.of_nat (granted (Z.to_nat mf) all) <= max_vec_len)%Z ->
     (forall n f, fst (f_init F n f) = true) -> exists fp t', init4inference F st t mf = (TfSuccess, Z.of_nat fp, t')).
Proof. exact @init_inference_main. Qed.
Print Assumptions C105_inference.

Theorem C105_train : forall (Y FS : Type) (F : tfun Y FS) st derive Q, conforms F st derive Q ->
  forall t h mem mf mt, thist F st derive t h ->
  let s := f_sibs F in let n0 := st_cnt st 0 * s in let all := Nat.max (st_cnt st 0) (st_cnt st 1) * s in
  (forall fp tb mini t', init4train F st mem t mf mt = (TfSuccess, Z.of_nat fp, Z.of_nat tb, mini, t') ->
     (0 <= mf)%Z /\ Z.to_nat mf mod s = 0 /\ (0 <= mt)%Z /\ Z.to_nat mt mod s = 0 /\
     fp = granted (Z.to_nat mf) all /\ tb = granted (Z.to_nat mt) n0 /\ 0 < tb <= fp /\ (Z.of_nat fp <= max_vec_len)%Z /\
     mini = Some (tb <? n0) /\
     (forall n, is_initialized4inference F st t' n = if (n <=? fp) && (n mod s =? 0) then Some (if n =? 0 then fp else n) else None) /\
     forall n m, is_initialized4train F st t' n m =
       let n' := if n =? 0 then fp else n in let m' := if m =? 0 then tb else m in
       if (n' <=? fp) && (n' mod s =? 0) && (m' <=? tb) && (m' mod s =? 0) && (m' <=? n') then Some (n', m', m' <? n0) else None) /\
  (st_empty st = false -> st_coherent st = true -> mem = true -> (0 <= mf)%Z -> Z.to_nat mf mod s = 0 -> (0 <= mt)%Z -> Z.to_nat mt mod s = 0 ->
     granted (Z.to_nat mt) n0 <= granted (Z.to_nat mf) all -> (Z.of_nat (granted (Z.to_nat mf) all) <= max_vec_len)%Z ->
     (forall n f, fst (f_init F n f) = true) -> exists fp tb mini t', init4train F st mem t mf mt = (TfSuccess, Z.of_nat fp, Z.of_nat tb, mini, t')).
Proof. exact @init_train_main. Qed.
Print Assumptions C105_train.

(** ** C106 *)
(** After an initialisation for training that failed the object is not initialised; unless the
    data or the sizes were refused: then nothing has changed. *)
Theorem C106_train_partial : forall (Y FS : Type) (F : tfun Y FS) st t mem mf mt e fp tb mini t',
  init4train F st mem t mf mt = (e, fp, tb, mini, t') -> e <> TfSuccess ->
  if st_empty st || negb (st_coherent st) || bad_size F mf || bad_size F mt then t' = t /\ e = TfOther
  else forall n, is_initialized4inference F st t' n = None.
Proof. exact @init_train_fails. Qed.
Print Assumptions C106_train_partial.
(** For inference: if it is the transformation that could not be initialised, the object says it
    is ready. *)
Theorem C106_inference_partial : forall (Y FS : Type) (F : tfun Y FS) st derive Q, conforms F st derive Q -> forall t mf e fp t',
  init4inference F st t mf = (e, fp, t') -> e <> TfSuccess ->
  if st_empty st || negb (st_coherent st) || bad_size F mf then t' = t /\ e = TfOther
  else (e = TfTooBigTrainTest /\ forall n, is_initialized4inference F st t' n = None) \/
       (e = TfOther /\ is_initialized4inference F st t' 0 = Some (Z.to_nat fp)).
Proof. exact @init_inference_fails. Qed.
Print Assumptions C106_inference_partial.

(** ** C107 *)
(** The values are shown after affine maps, of the kind that was asked for.  When success is
    reported they have the statistics asked for: of all columns apart; of all values together
    exactly if the case [tdrifts] does not occur. *)
Theorem C107_statistics_partial : forall (Y FS : Type) (F : tfun Y FS) st derive Q, conforms F st derive Q ->
  forall t h p ibs mok, thist F st derive t h -> tfit F st p ibs h -> should_normalize p = true -> tprepared F st p mok t h ->
  let D := tbase F st derive p ibs h in
  exists r t' a b, normalize_data F st p ibs mok t = Some (r, t') /\ tshown F st derive a b t' h /\
    (n_cw p = false -> forall j k, a j = a k /\ b j = b k) /\
    (forall j, j < f_xw F -> (n_dos p = false -> a j = 1%R) /\ (n_doc p = false -> b j = 0%R) /\ ((0 < n_scale p)%R -> (0 < a j)%R)) /\
    (tenough F p D -> positive p -> r = true ->
      (Forall (met p) (tgroups F p (seen_as a b D)) <-> n_cw p = true \/ ~ tdrifts p (flat_map fst D))).
Proof. exact @statistics_main. Qed.
Print Assumptions C107_statistics_partial.

(** ** C108 *)
(** When failure is reported the values are shown unchanged exactly if there was nothing to do;
    with enough tries there is no other reason to fail. *)
Theorem C108_failure_partial : forall (Y FS : Type) (F : tfun Y FS) st derive Q, conforms F st derive Q ->
  forall t h p ibs mok, thist F st derive t h -> tfit F st p ibs h -> should_normalize p = true -> tprepared F st p mok t h ->
  let D := tbase F st derive p ibs h in tenough F p D -> positive p ->
  exists r t' a b, normalize_data F st p ibs mok t = Some (r, t') /\ tshown F st derive a b t' h /\
    (r = false -> ((forall j, j < f_xw F -> a j = 1%R /\ b j = 0%R) <-> Forall (met p) (tgroups F p D))) /\
    (Forall (met p) (tgroups F p D) -> r = false) /\
    (n_tries p = 1 -> r = false) /\
    (ttries p <= n_tries p -> (r = true <-> ~ Forall (met p) (tgroups F p D))).
Proof. exact @failure_main. Qed.
Print Assumptions C108_failure_partial.
(** Nothing to do, or no way to do it. *)
Theorem C108_skipped_partial : forall (Y FS : Type) (F : tfun Y FS) st derive Q, conforms F st derive Q ->
  forall t h p ibs mok, thist F st derive t h -> tfit F st p ibs h ->
  exists r t', normalize_data F st p ibs mok t = Some (r, t') /\
    (should_normalize p = false -> r = true /\ tshown F st derive (fun _ => 1%R) (fun _ => 0%R) t' h) /\
    (should_normalize p = true -> ~ tprepared F st p mok t h -> r = false).
Proof. exact @skipped_main. Qed.
Print Assumptions C108_skipped_partial.

(** ** Examples and refutations *)
(** A transformation that fills its matrices with the samples derived from those it is asked
    for.  [ok]: whether its initialisation succeeds. *)
Notation fst_t := (option (list (list R)) * option (list nat))%type.
Definition fill (D : list (list R * nat)) : fst_t := (Some (map fst D), Some (map snd D)).
Definition tx (ok : bool) (sibs xw : nat) (cnt : nat -> nat) (derive : nat -> nat -> list (list R * nat)) : tfun nat fst_t :=
  mkTF sibs cnt xw (fun s => s) (fun _ s => (ok, s)) (fun _ _ s => s)
    (fun _ ids _ _ => Some (fill (flat_map (derive 0) ids))) (fun _ _ _ s => s)
    (fun id _ c o _ _ => Some (fill (flat_map (derive id) (seq o c)))) fst snd (fun x s => (Some x, snd s)).
Definition txQ : protocol fst_t := mkPr (fun _ _ => True) (fun _ _ => True) (fun _ _ _ _ => True).
Lemma tx_shows flag (D : list (list R * nat)) : shows flag (fst (fill D)) (snd (fill D)) D.
Proof.
  unfold shows, fill. cbn [fst snd]. destruct (flag =? 1); [eexists; split; [reflexivity|apply Permutation_refl]|].
  destruct (flag =? 2); [eexists; split; [reflexivity|apply Permutation_refl]|]. do 2 eexists. split; [reflexivity|]. split; [reflexivity|]. split; [rewrite !map_length; reflexivity|].
  induction D as [|[x y] D IH]; [constructor|]. cbn. constructor. exact IH.
Qed.
Lemma tx_conforms ok sibs xw cnt derive : 0 < sibs -> (forall id, id < 2 -> 0 < cnt id) ->
  (forall id i, id < 2 -> i < cnt id -> length (derive id i) = sibs /\ Forall (fun s => length (fst s) = xw) (derive id i)) ->
  conforms (tx ok sibs xw cnt derive) (mkSt false true cnt) derive txQ.
Proof.
  intros H1 H2 H3. constructor; cbn [f_sibs f_count f_xw tx st_empty st_cnt ready training walking txQ f_init f_epoch f_batch f_walk f_next f_setX f_X f_Y]; auto.
  - intros. eexists. split; [reflexivity|]. do 2 (split; [exact I|]). apply (tx_shows 0).
  - intros. eexists. split; [reflexivity|]. do 2 (split; [exact I|]). apply tx_shows.
Qed.

(** Five train samples and one to test with; a sample and its mirrored copy. *)
Definition mcnt (id : nat) : nat := if id =? 0 then 5 else 1.
Definition mder (id i : nat) : list (list R * nat) :=
  [([INR i; INR (10 + id)], i); ([(- INR i)%R; (- INR (10 + id))%R], i)].
Definition mF := tx true 2 2 mcnt mder.
Definition mS := mkSt false true mcnt.
Lemma m_conforms : conforms mF mS mder txQ.
Proof.
  apply tx_conforms; [lia| |].
  - intros [|[|id]] H; cbn; lia.
  - intros id i _ _. split; [reflexivity|]. repeat constructor.
Qed.
Definition m0 : td fst_t := mkTd [] 0 0 0 None 0 false NNone (None, None).
Definition m1 : td fst_t := snd (init4train mF mS true m0 0 4).
Lemma m1_init : init4train mF mS true m0 0 4 = (TfSuccess, Z.of_nat 10, Z.of_nat 4, Some true, m1).
Proof. reflexivity. Qed.
Lemma m1_hist : thist mF mS mder m1 (Some (10, 4)).
Proof. eapply th_train; [apply (th_new mF mS mder 0)|exact m1_init]. Qed.
Lemma m1_serves : tserves mF mS mder (fun _ => 1%R) (fun _ => 0%R) m1 10 4.
Proof.
  destruct (C103_serves _ _ mF mS mder txQ m_conforms m0 None (th_new mF mS mder 0 (None, None))) as [_ (_ & H & _)]. exact (H _ _ _ _ _ _ _ m1_init).
Qed.
(** sizes: asked for whatever there is, and for training in batches of four samples *)
Example C105_example : init4train mF mS true m0 0 4 = (TfSuccess, 10%Z, 4%Z, Some true, m1) /\
  is_initialized4train mF mS m1 0 2 = Some (10, 2, true) /\ is_initialized4train mF mS m1 0 3 = None /\
  init4inference mF mS m0 7 = (TfOther, 7%Z, m0) /\ snd (fst (init4inference mF mS m0 6)) = 6%Z /\ snd (fst (init4inference mF mS m0 100)) = 10%Z.
Proof. repeat split; reflexivity. Qed.
(** two batches of two families; the family that is left over is not shown in this epoch; a
    walk with batches of two families has a third batch *)
Example C103_C104_example :
  (exists rs t' i, trun mF mS m1 [TEpoch 0 (fun k => k - 1) 0 (-1); TBatch 0; TBatch 1] = Some (TNum 2 :: rs, t') /\ length (tall rs) = 8 /\
    ~ In i (map snd (tall rs)) /\ i < 5) /\
  (exists rs t', trun mF mS m1 [TWalk 0 0 4 0; TNext 0; TNext 1; TNext 2] = Some (TNum 3 :: rs, t') /\
    Permutation (tall rs) (seen_as (fun _ => 1%R) (fun _ => 0%R) (flat_map (mder 0) [0; 1; 2; 3; 4]))).
Proof.
  split.
  - do 2 eexists. exists 4. split; [reflexivity|]. split; [reflexivity|]. change (d_tb m1) with 4. cbn. split; [intuition discriminate|lia].
  - destruct (C104_walk_partial _ _ mF mS mder _ _ m1 10 4 0 0 4 m1_serves) as (rs & t' & E & P); [lia|cbn; lia|reflexivity|]. exists rs, t'. split; [exact E|exact P].
Qed.

(** A transformation that derives one sample from each: the values 4, 6 and, to test, 0. *)
Definition icnt (k id : nat) : nat := if id =? 0 then k else 1.
Definition ider (id i : nat) : list (list R * nat) := [([nth i (if id =? 0 then [4; 6]%R else []) 0%R], i)].
Definition iF (ok : bool) k := tx ok 1 1 (icnt k) ider.
Definition iS k := mkSt false true (icnt k).
Lemma i_conforms ok k : 0 < k -> conforms (iF ok k) (iS k) ider txQ.
Proof.
  intros Hk. apply tx_conforms; [lia| |].
  - intros [|[|id]] H; cbn; lia.
  - intros id i _ _. split; [reflexivity|]. repeat constructor.
Qed.
Lemma i0_hist ok k : thist (iF ok k) (iS k) ider m0 None.
Proof. apply th_new. Qed.

(** Three samples in batches of two: one batch, and the third sample is never seen. *)
Theorem C104_walk_refuted : exists (F : tfun nat fst_t) st derive Q t fp, conforms F st derive Q /\ thist F st derive t (Some (fp, 0)) /\
  tserves F st derive (fun _ => 1%R) (fun _ => 0%R) t fp 0 /\
  exists rs t', trun F st t [TWalk 0 0 2 0; TNext 0] = Some (TNum 1 :: rs, t') /\ 0 < asked fp 0 2 <= fp /\ st_cnt st 0 = 3 /\
    ~ In 2 (map snd (tall rs)) /\ In 2 (map snd (flat_map (derive 0) (seq 0 3))).
Proof.
  assert (Ei : exists t, init4inference (iF true 3) (iS 3) m0 3 = (TfSuccess, Z.of_nat 3, t)) by (eexists; reflexivity). destruct Ei as [t Ei].
  exists (iF true 3), (iS 3), ider, txQ, t, 3. split; [apply i_conforms; lia|]. split; [eapply th_inf; [apply i0_hist|exact Ei]|].
  assert (HS : tserves (iF true 3) (iS 3) ider (fun _ => 1%R) (fun _ => 0%R) t 3 0).
  { destruct (C103_serves _ _ (iF true 3) (iS 3) ider txQ (i_conforms true 3 ltac:(lia)) m0 None (i0_hist true 3)) as [_ (_ & _ & H)]. exact (H _ _ _ Ei). }
  split; [exact HS|]. clear HS. cbn in Ei. injection Ei as <-. do 2 eexists. split; [reflexivity|]. split; [cbn; lia|]. split; [reflexivity|]. 
  split; [|cbn; auto]. intros K. lazy -[Rdefinitions.IZR INR] in K. intuition discriminate.
Qed.
Print Assumptions C104_walk_refuted.

(** The transformation cannot be initialised: an error is returned, and the object says it is
    initialised.  A size that does not fit: an error, and the object stays as it was. *)
Theorem C106_refuted :
  (exists (F : tfun nat fst_t) st derive Q t fp t', conforms F st derive Q /\ thist F st derive t None /\ is_initialized4inference F st t 0 = None /\
     init4inference F st t 2 = (TfOther, fp, t') /\ is_initialized4inference F st t' 0 = Some 2) /\
  (exists (F : tfun nat fst_t) st derive Q t fp t', conforms F st derive Q /\ thist F st derive t (Some (10, 4)) /\
     init4inference F st t 3 = (TfOther, fp, t') /\ is_initialized4train F st t' 0 0 = Some (10, 4, true)).
Proof.
  split.
  - exists (iF false 2), (iS 2), ider, txQ, m0. do 2 eexists. split; [apply i_conforms; lia|]. split; [apply i0_hist|]. split; [reflexivity|]. split; reflexivity.
  - exists mF, mS, mder, txQ, m1. do 2 eexists. split; [exact m_conforms|]. split; [exact m1_hist|]. split; reflexivity.
Qed.
Print Assumptions C106_refuted.

(** The values 4 and 6: mean 5, deviation 1. *)
Definition np (s c : R) (n : nat) (dos cw : bool) : nset := mkNS s c (/ 2) (/ 2) n dos true false (-1) 0 cw false.
Lemma i_mean : mean [4; 6]%R = 5%R.
Proof. unfold mean, sumR. cbn [fold_right length INR]. lra. Qed.
Lemma i_dev : dev false [4; 6]%R = 1%R.
Proof. unfold dev. rewrite i_mean. unfold sumR, Rsqr. cbn [map fold_right length Nat.b2n Nat.sub INR]. transitivity (sqrt 1); [f_equal; field|exact sqrt_1]. Qed.
Lemma i_base s c n dos cw : tbase (iF true 2) (iS 2) ider (np s c n dos cw) 0 None = [([4%R], 0); ([6%R], 1)].
Proof. reflexivity. Qed.
Lemma i_groups s c n dos cw : tgroups (iF true 2) (np s c n dos cw) [([4%R], 0); ([6%R], 1)] = [[4; 6]%R].
Proof. destruct cw; reflexivity. Qed.
Lemma i_enough s c n dos cw : tenough (iF true 2) (np s c n dos cw) [([4%R], 0); ([6%R], 1)].
Proof. unfold tenough. rewrite i_groups. repeat constructor. Qed.
Lemma i_positive s c n dos cw : (0 < s)%R -> positive (np s c n dos cw).
Proof. intros H. unfold positive. cbn. repeat split; lra. Qed.
Lemma i_fit s c n dos cw : tfit (iF true 2) (iS 2) (np s c n dos cw) 0 None.
Proof. split; [cbn; lia|]. split; [reflexivity|]. cbn. lia. Qed.
Lemma i_prepared s c n dos cw : tprepared (iF true 2) (iS 2) (np s c n dos cw) true m0 None.
Proof. right. split; reflexivity. Qed.
Lemma i_should s c n dos cw : 0 < n -> should_normalize (np s c n dos cw) = true.
Proof. intros H. unfold should_normalize. cbn. destruct n; [lia|reflexivity]. Qed.
Lemma far x : (1 <= x \/ x <= -1)%R -> ~ (Rabs x < / 2)%R.
Proof. intros [H|H] K; apply Rabs_def2 in K; lra. Qed.

(** Scaled by 2 the mean becomes 10; it should be 5, and is 0 in the end. *)
Lemma i_drifts n cw : tdrifts (np 2 5 n true cw) [4; 6]%R.
Proof.
  unfold tdrifts. cbn [np n_dos n_doc n_adj n_scale n_stol n_central n_ctol]. rewrite i_mean, i_dev. do 2 (split; [reflexivity|]). split; [lra|].
  split; [apply far; lra|]. split; [|split; apply far; lra]. replace (5 - 5)%R with 0%R by ring. rewrite Rabs_R0. lra.
Qed.
Lemma i_unmet n cw : ~ Forall (met (np 2 5 n true cw)) (tgroups (iF true 2) (np 2 5 n true cw) [([4%R], 0); ([6%R], 1)]).
Proof.
  rewrite i_groups. intros H. inversion H as [|? ? [H1 _] _]; subst. destruct (H1 eq_refl) as [X|X]; cbn in X; rewrite i_dev in X; [lra|]. exact (far (1 - 2) ltac:(lra) X).
Qed.
Theorem C107_statistics_refuted : exists (F : tfun nat fst_t) st derive Q t p a b t', conforms F st derive Q /\ thist F st derive t None /\ tfit F st p 0 None /\
  should_normalize p = true /\ tprepared F st p true t None /\ tenough F p (tbase F st derive p 0 None) /\ positive p /\
  normalize_data F st p 0 true t = Some (true, t') /\ tshown F st derive a b t' None /\
  ~ Forall (met p) (tgroups F p (seen_as a b (tbase F st derive p 0 None))).
Proof.
  set (p := np 2 5 4 true false).
  destruct (C107_statistics_partial _ _ _ _ _ _ (i_conforms true 2 ltac:(lia)) m0 None p 0 true (i0_hist true 2) (i_fit _ _ _ _ _) (i_should 2 5 4 true false ltac:(lia)) (i_prepared _ _ _ _ _))
    as (r & t' & a & b & E & Hsh & _ & _ & Hm).
  destruct (C108_failure_partial _ _ _ _ _ _ (i_conforms true 2 ltac:(lia)) m0 None p 0 true (i0_hist true 2) (i_fit _ _ _ _ _) (i_should 2 5 4 true false ltac:(lia)) (i_prepared _ _ _ _ _))
    as (r2 & t2 & a2 & b2 & E2 & _ & _ & _ & _ & Hr); [apply i_enough|apply i_positive; lra|].
  rewrite E in E2. injection E2 as <- <-.
  assert (Hrt : r = true). { apply Hr; [unfold ttries, p; cbn [np n_dos n_doc n_cw n_central n_tries andb]; destruct (Req_EM_T 5 0); lia|]. apply i_unmet. }
  exists (iF true 2), (iS 2), ider, txQ, m0, p, a, b, t'. split; [apply i_conforms; lia|]. split; [apply i0_hist|]. split; [apply i_fit|]. split; [apply i_should; lia|].
  split; [apply i_prepared|]. split; [apply i_enough|]. split; [apply i_positive; lra|]. split; [rewrite Hrt in E; exact E|]. split; [exact Hsh|].
  rewrite (Hm (i_enough _ _ _ _ _) (i_positive 2 5 4 true false ltac:(lra)) Hrt). intros [X|X]; [discriminate|]. apply X. apply i_drifts.
Qed.
Print Assumptions C107_statistics_refuted.
(** The columns apart: reached. *)
Example C107_example : exists a b t', normalize_data (iF true 2) (iS 2) (np 2 5 4 true true) 0 true m0 = Some (true, t') /\
  tshown (iF true 2) (iS 2) ider a b t' None /\ Forall (met (np 2 5 4 true true)) (tgroups (iF true 2) (np 2 5 4 true true) (seen_as a b [([4%R], 0); ([6%R], 1)])).
Proof.
  set (p := np 2 5 4 true true).
  destruct (C107_statistics_partial _ _ _ _ _ _ (i_conforms true 2 ltac:(lia)) m0 None p 0 true (i0_hist true 2) (i_fit _ _ _ _ _) (i_should 2 5 4 true true ltac:(lia)) (i_prepared _ _ _ _ _))
    as (r & t' & a & b & E & Hsh & _ & _ & Hm).
  destruct (C108_failure_partial _ _ _ _ _ _ (i_conforms true 2 ltac:(lia)) m0 None p 0 true (i0_hist true 2) (i_fit _ _ _ _ _) (i_should 2 5 4 true true ltac:(lia)) (i_prepared _ _ _ _ _))
    as (r2 & t2 & a2 & b2 & E2 & _ & _ & _ & _ & Hr); [apply i_enough|apply i_positive; lra|].
  rewrite E in E2. injection E2 as <- <-. assert (Hrt : r = true). { apply Hr; [cbn; lia|]. apply i_unmet. }
  exists a, b, t'. split; [rewrite Hrt in E; exact E|]. split; [exact Hsh|]. apply (Hm (i_enough _ _ _ _ _) (i_positive 2 5 4 true true ltac:(lra)) Hrt). left. reflexivity.
Qed.

(** One try: failure is reported, and the values are shown changed from then on. *)
Theorem C108_failure_refuted : exists (F : tfun nat fst_t) st derive Q t p a b t', conforms F st derive Q /\ thist F st derive t None /\ tfit F st p 0 None /\
  should_normalize p = true /\ tprepared F st p true t None /\ tenough F p (tbase F st derive p 0 None) /\ positive p /\
  normalize_data F st p 0 true t = Some (false, t') /\ tshown F st derive a b t' None /\
  ~ (forall j, j < f_xw F -> a j = 1%R /\ b j = 0%R).
Proof.
  set (p := np 2 5 1 true false).
  destruct (C108_failure_partial _ _ _ _ _ _ (i_conforms true 2 ltac:(lia)) m0 None p 0 true (i0_hist true 2) (i_fit _ _ _ _ _) (i_should 2 5 1 true false ltac:(lia)) (i_prepared _ _ _ _ _))
    as (r & t' & a & b & E & Hsh & Hf & _ & H1 & _); [apply i_enough|apply i_positive; lra|].
  assert (Hr : r = false) by (apply H1; reflexivity).
  exists (iF true 2), (iS 2), ider, txQ, m0, p, a, b, t'. split; [apply i_conforms; lia|]. split; [apply i0_hist|]. split; [apply i_fit|]. split; [apply i_should; lia|].
  split; [apply i_prepared|]. split; [apply i_enough|]. split; [apply i_positive; lra|]. split; [rewrite Hr in E; exact E|]. split; [exact Hsh|].
  intros K. apply (Hf Hr) in K. revert K. apply i_unmet.
Qed.
Print Assumptions C108_failure_refuted.
