(** Properties of the normalisation of the x data: C92 - C95.
    [history oneB S t h]: the training data object with the data S has reached the state t
    by documented calls, or is not initialised.  [fit]: the input batch size of the network
    is one the object can serve (only if the settings refer to it). *)
From Coq Require Import Reals Lra Permutation.
From Verif Require Import Base BaseLemmas Workers_Model Act_Spec Loss_Proofs Kern_Model Kern_Spec Kern_Proofs
  Smx_Model Smx_Spec TData_Model TData_Spec TData_Proofs TData_Proofs2 TData_Proofs3 TData_Proofs4 TData_Proofs5 TData_Props
  Nrm_Model Nrm_Spec Nrm_Proofs Nrm_Proofs2 Nrm_Proofs3 Nrm_Proofs4 Nrm_Proofs5 Nrm_Proofs6 Nrm_Proofs7.
Local Open Scope nat_scope.

Section T.
Context {B : Type} (oneB : B) (p : nset) (imw : nat -> nat -> imath R B) (imf : nat -> imath R B) (imd : imath R B) (ibs : nat).
Context (Hw : forall i k, im_ok (imw i k)) (Hf : forall i, im_ok (imf i)) (Hd : im_ok imd).
Context (mx : mem_env R) (my : mem_env B) (mok : bool) (S : sets R B) (t : tds R B) (h : option (nat * nat)).
Context (HC : coherent 1%R S) (Hb : s_bir (x0 S) = false) (Hh : history oneB S t h) (Hfit : fit p ibs S t h).

Lemma affine_main :
  exists r S' t' a b, normalize_data oneB p imw imf ibs mx my mok imd S t = Some (r, S', t') /\
    coherent 1%R S' /\ y0 S' = y0 S /\ y1 S' = y1 S /\
    mapped a b (x0 S) (x0 S') /\ (r = true -> mapped a b (x1 S) (x1 S')) /\ (r = false -> x1 S' = x1 S) /\
    (n_cw p = false -> forall j k, a j = a k /\ b j = b k) /\
    (forall j, (n_dos p = false -> a j = 1%R) /\ (n_doc p = false -> b j = 0%R) /\ ((0 < n_scale p)%R -> (0 < a j)%R)) /\
    (should_normalize p = false -> r = true /\ S' = S /\ t' = t) /\
    (forall fp tb, h = Some (fp, tb) -> should_normalize p = false \/ is_initialized4inference S t (Z.to_nat (n_bs p)) <> None ->
       serves oneB S' t' fp tb) /\
    (should_normalize p = true -> is_initialized4inference S t (Z.to_nat (n_bs p)) = None -> mx <> None -> my <> None -> mok = true ->
       forall b, is_initialized4inference S' t' b = None).
Proof.
  destruct (normalize_ok oneB p imw imf imd ibs Hw Hf Hd mx my mok S t h HC Hb Hh Hfit)
    as (r & S' & t' & a & b & E & (K1 & K2 & K3 & K4 & _) & (R1 & R2 & R3 & R4 & R5 & _) & _ & _ & Z1 & Z2 & Z3 & _).
  exists r, S', t', a, b. do 11 (split; [assumption|]). assumption.
Qed.

Lemma statistics_main r S' t' : normalize_data oneB p imw imf ibs mx my mok imd S t = Some (r, S', t') ->
  let L := looked p (cnt S 0) (used p ibs S h) in
  should_normalize p = true -> r = true -> enough_values p (x0 S) L -> Forall (met p) (groups p (x0 S') L).
Proof.
  intros E L. destruct (normalize_ok oneB p imw imf imd ibs Hw Hf Hd mx my mok S t h HC Hb Hh Hfit)
    as (r1 & S1 & t1 & a & b & E1 & _ & (_ & _ & _ & _ & _ & R6) & _). rewrite E1 in E. injection E as <- <- <-. exact R6.
Qed.

Lemma success_main r S' t' : normalize_data oneB p imw imf ibs mx my mok imd S t = Some (r, S', t') ->
  let L := looked p (cnt S 0) (used p ibs S h) in
  should_normalize p = true -> prepared p mx my mok S t -> enough_values p (x0 S) L -> positive p ->
  (Forall (met p) (groups p (x0 S) L) -> r = false) /\ (n_tries p = 1 -> r = false) /\
  (enough_tries p -> r = true <-> ~ Forall (met p) (groups p (x0 S) L)).
Proof.
  intros E L. destruct (normalize_ok oneB p imw imf imd ibs Hw Hf Hd mx my mok S t h HC Hb Hh Hfit)
    as (r1 & S1 & t1 & a & b & E1 & _ & _ & R & _). rewrite E1 in E. injection E as <- <- <-.
  intros Q1 Q2 Q3 Q4. destruct (R Q1 Q2 Q3 Q4) as (X1 & X2 & X4 & X3). split; [intros Q; apply (X1 Q)|]. split; [exact X4|]. intros Q. apply (X3 Q).
Qed.

Lemma big_batch_main r S' t' : normalize_data oneB p imw imf ibs mx my mok imd S t = Some (r, S', t') ->
  should_normalize p = true -> is_initialized4inference S t (Z.to_nat (n_bs p)) = None -> (Z.of_nat (Nat.max (cnt S 0) (cnt S 1)) < n_bs p)%Z ->
  r = false /\ S' = S.
Proof.
  intros E. destruct (normalize_ok oneB p imw imf imd ibs Hw Hf Hd mx my mok S t h HC Hb Hh Hfit)
    as (r1 & S1 & t1 & a & b & E1 & _ & _ & _ & _ & _ & _ & _ & R). rewrite E1 in E. injection E as <- <- <-. exact R.
Qed.

Lemma failure_main r S' t' : normalize_data oneB p imw imf ibs mx my mok imd S t = Some (r, S', t') ->
  let L := looked p (cnt S 0) (used p ibs S h) in
  r = false ->
  x1 S' = x1 S /\
  (enough_values p (x0 S) L -> positive p ->
   (prepared p mx my mok S t -> same_values (x0 S) (x0 S') <-> Forall (met p) (groups p (x0 S) L)) /\
   (enough_tries p -> same_values (x0 S) (x0 S'))).
Proof.
  intros E L. destruct (normalize_ok oneB p imw imf imd ibs Hw Hf Hd mx my mok S t h HC Hb Hh Hfit)
    as (r1 & S1 & t1 & a & b & E1 & _ & (R1 & _ & R3 & _) & C1 & C2 & C3 & _). rewrite E1 in E. injection E as <- <- <-.
  intros Hr. split; [exact (R3 Hr)|]. intros Q1 Q2.
  assert (Es : should_normalize p = true). { destruct (should_normalize p) eqn:Q; [reflexivity|]. destruct (C3 eq_refl). congruence. }
  assert (Hid : (forall j, j < sample_size (x0 S) -> a j = 1%R /\ b j = 0%R) -> same_values (x0 S) (x0 S1)).
  { intros K. eapply mapped_ext; [| |exact R1]; intros j Hj; apply K; exact Hj. }
  assert (Hcv : converges p L S S1 r1 a b -> (same_values (x0 S) (x0 S1) <-> Forall (met p) (groups p (x0 S) L)) /\ (enough_tries p -> same_values (x0 S) (x0 S1))).
  { intros C. destruct (C Q1 Q2) as (X1 & X2 & _ & X3).
    assert (Xm : Forall (met p) (groups p (x0 S) L) -> same_values (x0 S) (x0 S1)) by (intros K; apply Hid; apply (X1 K)).
    split; [|intros Q; apply Xm; apply (X3 Q); exact Hr]. split; [|exact Xm].
    intros K. destruct (Classical_Prop.classic (Forall (met p) (groups p (x0 S) L))) as [Y|Y]; [exact Y|]. destruct (X2 Y K). }
  split; [intros Qp; apply Hcv; apply (C1 Es Qp)|].
  intros Qt. destruct (Classical_Prop.classic (prepared p mx my mok S t)) as [Y|Y]; [apply (Hcv (C1 Es Y)); exact Qt|].
  destruct (C2 Es Y) as [[_ ->]|C]; [|apply (Hcv C); exact Qt].
  apply mapped_id. exact (coherent_xdata S 0 HC Hb ltac:(lia)).
Qed.
End T.

(** ** C92 *)
(** Whatever the settings, the schedule of the threads and the outcome: the y data stays,
    the train x goes through one affine map per column (the same for all columns unless the
    columns are normalised separately), and the test x goes through the same map exactly if
    success is reported, otherwise it stays.  The slope is positive.  Scaling or centring not
    asked for is not done.  An object that was initialised stays so and goes on to serve the
    new data; one that was not is not afterwards. *)
Theorem C92_affine : forall B (oneB : B) p imw imf imd ibs, (forall i k, im_ok (imw i k)) -> (forall i, im_ok (imf i)) -> im_ok imd ->
  forall mx my mok S t h, coherent 1%R S -> s_bir (x0 S) = false -> history oneB S t h -> fit p ibs S t h ->
  exists r S' t' a b, normalize_data oneB p imw imf ibs mx my mok imd S t = Some (r, S', t') /\
    coherent 1%R S' /\ y0 S' = y0 S /\ y1 S' = y1 S /\
    mapped a b (x0 S) (x0 S') /\ (r = true -> mapped a b (x1 S) (x1 S')) /\ (r = false -> x1 S' = x1 S) /\
    (n_cw p = false -> forall j k, a j = a k /\ b j = b k) /\
    (forall j, (n_dos p = false -> a j = 1%R) /\ (n_doc p = false -> b j = 0%R) /\ ((0 < n_scale p)%R -> (0 < a j)%R)) /\
    (should_normalize p = false -> r = true /\ S' = S /\ t' = t) /\
    (forall fp tb, h = Some (fp, tb) -> should_normalize p = false \/ is_initialized4inference S t (Z.to_nat (n_bs p)) <> None ->
       serves oneB S' t' fp tb) /\
    (should_normalize p = true -> is_initialized4inference S t (Z.to_nat (n_bs p)) = None -> mx <> None -> my <> None -> mok = true ->
       forall b, is_initialized4inference S' t' b = None).
Proof. exact @affine_main. Qed.
Print Assumptions C92_affine.

(** ** C93 *)
(** When success is reported the train x has the statistics asked for, over the samples
    looked at: all values together, or every column. *)
Theorem C93_statistics : forall B (oneB : B) p imw imf imd ibs, (forall i k, im_ok (imw i k)) -> (forall i, im_ok (imf i)) -> im_ok imd ->
  forall mx my mok S t h, coherent 1%R S -> s_bir (x0 S) = false -> history oneB S t h -> fit p ibs S t h ->
  forall r S' t', normalize_data oneB p imw imf ibs mx my mok imd S t = Some (r, S', t') ->
  let L := looked p (cnt S 0) (used p ibs S h) in
  should_normalize p = true -> r = true -> enough_values p (x0 S) L -> Forall (met p) (groups p (x0 S') L).
Proof. exact @statistics_main. Qed.
Print Assumptions C93_statistics.

(** ** C94 *)
(** Exactly when the normalisation succeeds: there must be something to do.  With
    one try it never does. *)
Theorem C94_succeeds_partial : forall B (oneB : B) p imw imf imd ibs, (forall i k, im_ok (imw i k)) -> (forall i, im_ok (imf i)) -> im_ok imd ->
  forall mx my mok S t h, coherent 1%R S -> s_bir (x0 S) = false -> history oneB S t h -> fit p ibs S t h ->
  forall r S' t', normalize_data oneB p imw imf ibs mx my mok imd S t = Some (r, S', t') ->
  let L := looked p (cnt S 0) (used p ibs S h) in
  should_normalize p = true -> prepared p mx my mok S t -> enough_values p (x0 S) L -> positive p ->
  (Forall (met p) (groups p (x0 S) L) -> r = false) /\ (n_tries p = 1 -> r = false) /\
  (enough_tries p -> r = true <-> ~ Forall (met p) (groups p (x0 S) L)).
Proof. exact @success_main. Qed.
Print Assumptions C94_succeeds_partial.

(** A batch size above the number of samples is accepted by the initialisation, and then
    refused. *)
Theorem C94_big_batch_partial : forall B (oneB : B) p imw imf imd ibs, (forall i k, im_ok (imw i k)) -> (forall i, im_ok (imf i)) -> im_ok imd ->
  forall mx my mok S t h, coherent 1%R S -> s_bir (x0 S) = false -> history oneB S t h -> fit p ibs S t h ->
  forall r S' t', normalize_data oneB p imw imf ibs mx my mok imd S t = Some (r, S', t') ->
  should_normalize p = true -> is_initialized4inference S t (Z.to_nat (n_bs p)) = None -> (Z.of_nat (Nat.max (cnt S 0) (cnt S 1)) < n_bs p)%Z ->
  r = false /\ S' = S.
Proof. exact @big_batch_main. Qed.
Print Assumptions C94_big_batch_partial.

(** ** C95 *)
(** When failure is reported the test x has not been touched; the train x has its values
    with enough tries; with fewer exactly if it met the goal before (or nothing was started). *)
Theorem C95_failure_partial : forall B (oneB : B) p imw imf imd ibs, (forall i k, im_ok (imw i k)) -> (forall i, im_ok (imf i)) -> im_ok imd ->
  forall mx my mok S t h, coherent 1%R S -> s_bir (x0 S) = false -> history oneB S t h -> fit p ibs S t h ->
  forall r S' t', normalize_data oneB p imw imf ibs mx my mok imd S t = Some (r, S', t') ->
  let L := looked p (cnt S 0) (used p ibs S h) in
  r = false ->
  x1 S' = x1 S /\
  (enough_values p (x0 S) L -> positive p ->
   (prepared p mx my mok S t -> same_values (x0 S) (x0 S') <-> Forall (met p) (groups p (x0 S) L)) /\
   (enough_tries p -> same_values (x0 S) (x0 S'))).
Proof. exact @failure_main. Qed.
Print Assumptions C95_failure_partial.

(** ** Example and refutations *)
(** Two train samples, 1 and 3, and one test sample, 5 (with biases). *)
Definition nx_sets : sets R nat :=
  mkSets (mkS 2 2 true false false false (Some [1; 3; 1; 1]%R)) (mkS 1 2 true false false false (Some [5; 1]%R))
         (mkS 2 1 false false false false (Some [30; 31])) (mkS 1 1 false false false false (Some [40])).
Definition nx_none : tds R nat :=
  mkT (mkS 0 0 false false false false None) (mkS 0 0 false false false false None)
      (mkS 0 0 false false false false None) (mkS 0 0 false false false false None)
      [] false SNull SNull 0 0 0%Z None.
Definition nx_im : imath R nat := mkIM (fun n => [mkR 0 n 0]) (@concat _) (@concat _).
Lemma nx_im_ok : im_ok nx_im.
Proof.
  split; [|split; intros; apply concat_interleaving].
  intros n Hn. split; [|intros q [<-|[]]; exact Hn]. cbn. rewrite app_nil_r. apply Permutation_refl.
Qed.
Lemma nx_data {T} (m : smx T) (l : list T) : s_data m = Some l -> (0 <? s_rows m) && (0 <? s_cols m) && (s_numel m <=? length l) = true -> well_alloc m.
Proof.
  intros E H. apply andb_true_iff in H. destruct H as [H H3]. apply andb_true_iff in H. destruct H as [H1 H2].
  apply Nat.ltb_lt in H1, H2. apply Nat.leb_le in H3. split; [exact H1|]. split; [exact H2|]. exists l. split; assumption.
Qed.
Lemma nx_coherent : coherent 1%R nx_sets.
Proof.
  split; [|split].
  - split; [eapply nx_data; reflexivity|]. split; [eapply nx_data; reflexivity|]. split; [reflexivity|]. split.
    + intros _. cbn. split; [lia|]. intros r Hr. do 2 (destruct r as [|r]; [reflexivity|]). lia.
    + split; [reflexivity|]. split; [cbn; lia|reflexivity].
  - split; [eapply nx_data; reflexivity|]. split; [eapply nx_data; reflexivity|]. split; [reflexivity|]. split.
    + intros _. cbn. split; [lia|]. intros r Hr. do 1 (destruct r as [|r]; [reflexivity|]). lia.
    + split; [reflexivity|]. split; [cbn; lia|reflexivity].
  - do 4 (split; [reflexivity|]). cbn. unfold max_vec_len. split; lia.
Qed.
Lemma nx_history : history 1 nx_sets nx_none None.
Proof. constructor. intros b. reflexivity. Qed.

(** settings: deviation [s] and mean [c], up to 1/2, [n] tries, batch size [bs], by column *)
Definition nx_p (s c : R) (n : nat) (bs : Z) : nset := mkNS s c (/ 2) (/ 2) n true true false bs 0 true false.
Lemma nx_groups s c n bs : groups (nx_p s c n bs) (x0 nx_sets) 2 = [[1; 3]%R].
Proof. reflexivity. Qed.
Lemma nx_looked s c n : looked (nx_p s c n (-1)) (cnt nx_sets 0) (used (nx_p s c n (-1)) 0 nx_sets None) = 2.
Proof. reflexivity. Qed.
Lemma nx_mean : mean [1; 3]%R = 2%R.
Proof. unfold mean, sumR. cbn [fold_right length INR]. lra. Qed.
Lemma nx_dev : dev false [1; 3]%R = 1%R.
Proof. unfold dev. rewrite nx_mean. unfold sumR, Rsqr. cbn [map fold_right length Nat.b2n Nat.sub INR]. transitivity (sqrt 1); [f_equal; field|exact sqrt_1]. Qed.
Lemma nx_met s c n bs : Forall (met (nx_p s c n bs)) (groups (nx_p s c n bs) (x0 nx_sets) 2) <-> (Rabs (1 - s) < /2)%R /\ (Rabs (2 - c) < /2)%R.
Proof.
  rewrite nx_groups. split.
  - intros H. inversion H as [|l ls [H1 H2]]; subst. cbn [nx_p n_dos n_doc n_adj n_scale n_stol n_central n_ctol] in *.
    rewrite nx_dev in H1. rewrite nx_mean in H2. split; [|auto]. destruct (H1 eq_refl); [lra|assumption].
  - intros [H1 H2]. constructor; [|constructor]. split; cbn [nx_p n_dos n_doc n_adj n_scale n_stol n_central n_ctol];
      rewrite ?nx_dev, ?nx_mean; auto.
Qed.
Lemma nx_enough s c n bs : enough_values (nx_p s c n bs) (x0 nx_sets) 2.
Proof. unfold enough_values. cbn. lia. Qed.
Lemma nx_positive s c n bs : (0 < s)%R -> positive (nx_p s c n bs).
Proof. intros H. unfold positive. cbn [nx_p n_scale n_stol n_ctol]. lra. Qed.
Definition nx_env : mem_env R := Some (fun _ => 0%R).
Definition nx_envy : mem_env nat := Some (fun i => 90 + i).
Lemma nx_prepared s c n : prepared (nx_p s c n (-1)) nx_env nx_envy true nx_sets nx_none.
Proof. right. do 3 (split; [discriminate || reflexivity|]). vm_compute. discriminate. Qed.
Lemma nx_run s c n bs : (0 < n) -> (0 < bs \/ bs = -1)%Z ->
  exists r S' t', normalize_data 1 (nx_p s c n bs) (fun _ _ => nx_im) (fun _ => nx_im) 0 nx_env nx_envy true nx_im nx_sets nx_none = Some (r, S', t').
Proof.
  intros Hn Hbs. destruct (C92_affine nat 1 (nx_p s c n bs) (fun _ _ => nx_im) (fun _ => nx_im) nx_im 0 (fun _ _ => nx_im_ok) (fun _ => nx_im_ok) nx_im_ok
    nx_env nx_envy true nx_sets nx_none None nx_coherent eq_refl nx_history) as (r & S' & t' & a & b & E & _); [cbn; intros Q; cbn in Q; lia|].
  exists r, S', t'. exact E.
Qed.

(** Deviation 4 and mean 0 are reached. *)
Example C92_C93_C94_example :
  exists S' t' a b, normalize_data 1 (nx_p 4 0 3 (-1)) (fun _ _ => nx_im) (fun _ => nx_im) 0 nx_env nx_envy true nx_im nx_sets nx_none = Some (true, S', t') /\
    scell (x1 S') 0 0 = Some (a * 5 + b)%R /\ scell (x0 S') 0 0 = Some (a * 1 + b)%R /\ scell (x0 S') 1 0 = Some (a * 3 + b)%R /\
    (Rabs (a - 4) < /2)%R /\ (Rabs (a * 2 + b) < /2)%R.
Proof.
  destruct (C92_affine nat 1 (nx_p 4 0 3 (-1)) (fun _ _ => nx_im) (fun _ => nx_im) nx_im 0 (fun _ _ => nx_im_ok) (fun _ => nx_im_ok) nx_im_ok
    nx_env nx_envy true nx_sets nx_none None nx_coherent eq_refl nx_history) as (r & S' & t' & a & b & E & _ & _ & _ & M0 & M1 & _ & _ & Hab & _); [cbn; intros Q; cbn in Q; lia|].
  assert (Hr : r = true).
  { apply (C94_succeeds_partial nat 1 (nx_p 4 0 3 (-1)) (fun _ _ => nx_im) (fun _ => nx_im) nx_im 0 (fun _ _ => nx_im_ok) (fun _ => nx_im_ok) nx_im_ok
      nx_env nx_envy true nx_sets nx_none None nx_coherent eq_refl nx_history) with (2 := E).
    - cbn. intros Q. cbn in Q. lia.
    - reflexivity.
    - apply nx_prepared.
    - rewrite nx_looked. apply nx_enough.
    - apply nx_positive. lra.
    - unfold enough_tries. cbn. lia.
    - rewrite nx_looked, nx_met. intros [Q _]. unfold Rabs in Q. destruct (Rcase_abs (1 - 4)); lra. }
  subst r. specialize (M1 eq_refl).
  assert (Hst : Forall (met (nx_p 4 0 3 (-1))) (groups (nx_p 4 0 3 (-1)) (x0 S') 2)).
  { apply (C93_statistics nat 1 (nx_p 4 0 3 (-1)) (fun _ _ => nx_im) (fun _ => nx_im) nx_im 0 (fun _ _ => nx_im_ok) (fun _ => nx_im_ok) nx_im_ok
      nx_env nx_envy true nx_sets nx_none None nx_coherent eq_refl nx_history) with (2 := E).
    - cbn. intros Q. cbn in Q. lia.
    - reflexivity.
    - reflexivity.
    - rewrite nx_looked. apply nx_enough. }
  exists S', t', (a 0), (b 0). split; [exact E|].
  split; [apply (proj2 (proj2 (proj2 (proj2 (proj2 M1)))) 0 0); cbn; lia|].
  pose proof (proj2 (proj2 (proj2 (proj2 (proj2 M0)))) 0 0 ltac:(cbn; lia) ltac:(cbn; lia)) as V0.
  pose proof (proj2 (proj2 (proj2 (proj2 (proj2 M0)))) 1 0 ltac:(cbn; lia) ltac:(cbn; lia)) as V1.
  split; [exact V0|]. split; [exact V1|].
  assert (EG : groups (nx_p 4 0 3 (-1)) (x0 S') 2 = [[a 0%nat * 1 + b 0%nat; a 0%nat * 3 + b 0%nat]%R]).
  { unfold groups. cbn [n_cw nx_p]. replace (sample_size (x0 S')) with 1.
    - cbn [map seq]. unfold xv at 1 2. rewrite V0, V1. reflexivity.
    - symmetry. exact (proj1 (mapped_dims _ _ _ _ M0)). }
  rewrite EG in Hst. apply Forall_inv in Hst. destruct Hst as [H1 H2]. cbn [nx_p n_dos n_doc n_adj n_scale n_stol n_central n_ctol] in *.
  assert (Ha : (0 < a 0%nat)%R) by (apply (Hab 0); cbn; lra).
  assert (Em : mean [a 0%nat * 1 + b 0%nat; a 0%nat * 3 + b 0%nat]%R = (a 0%nat * 2 + b 0%nat)%R). { unfold mean, sumR. cbn [fold_right length INR]. lra. }
  assert (Ed : dev false [a 0%nat * 1 + b 0%nat; a 0%nat * 3 + b 0%nat]%R = a 0).
  { unfold dev. rewrite Em. unfold sumR, Rsqr. cbn [map fold_right length Nat.b2n Nat.sub INR]. transitivity (sqrt (a 0%nat * a 0%nat)); [f_equal; field|]. apply sqrt_square. lra. }
  rewrite Em in H2. rewrite Ed in H1. specialize (H2 eq_refl). rewrite Rminus_0_r in H2. split; [|exact H2].
  destruct (H1 eq_refl); [lra|assumption].
Qed.

(** Data that already has the statistics asked for: reported as a failure. *)
Theorem C94_succeeds_refuted : exists (S : sets R nat) t h p S' t',
  coherent 1%R S /\ history 1 S t h /\ should_normalize p = true /\ prepared p nx_env nx_envy true S t /\ positive p /\ enough_tries p /\
  enough_values p (x0 S) (looked p (cnt S 0) (used p 0 S h)) /\
  normalize_data 1 p (fun _ _ => nx_im) (fun _ => nx_im) 0 nx_env nx_envy true nx_im S t = Some (false, S', t').
Proof.
  destruct (nx_run 1 2 3 (-1) ltac:(lia) ltac:(lia)) as (r & S' & t' & E).
  assert (r = false).
  { edestruct (C94_succeeds_partial nat 1 (nx_p 1 2 3 (-1)) (fun _ _ => nx_im) (fun _ => nx_im) nx_im 0 (fun _ _ => nx_im_ok) (fun _ => nx_im_ok) nx_im_ok
      nx_env nx_envy true nx_sets nx_none None nx_coherent eq_refl nx_history) with (2 := E) as [H _].
    - cbn. intros Q. cbn in Q. lia.
    - reflexivity.
    - apply nx_prepared.
    - rewrite nx_looked. apply nx_enough.
    - apply nx_positive. lra.
    - apply H. rewrite nx_looked, nx_met. rewrite !Rminus_eq_0, Rabs_R0. lra. }
  subst r. exists nx_sets, nx_none, None, (nx_p 1 2 3 (-1)), S', t'.
  split; [exact nx_coherent|]. split; [exact nx_history|]. split; [reflexivity|]. split; [apply nx_prepared|]. split; [apply nx_positive; lra|].
  split; [unfold enough_tries; cbn; lia|]. split; [rewrite nx_looked; apply nx_enough|]. exact E.
Qed.
Print Assumptions C94_succeeds_refuted.

(** A batch size of 3 for two samples: initialisation takes it, normalisation fails. *)
Theorem C94_big_batch_refuted : exists (S : sets R nat) t h p t',
  coherent 1%R S /\ history 1 S t h /\ should_normalize p = true /\ positive p /\ enough_tries p /\
  (exists fp t1, init4inference 1%R 1 nx_env nx_envy S t (Z.to_nat (n_bs p)) = Some (Success, fp, t1)) /\
  normalize_data 1 p (fun _ _ => nx_im) (fun _ => nx_im) 0 nx_env nx_envy true nx_im S t = Some (false, S, t') /\
  ~ Forall (met p) (groups p (x0 S) 2).
Proof.
  destruct (nx_run 4 0 3 3 ltac:(lia) ltac:(lia)) as (r & S' & t' & E).
  assert (r = false /\ S' = nx_sets) as [-> ->].
  { apply (C94_big_batch_partial nat 1 (nx_p 4 0 3 3) (fun _ _ => nx_im) (fun _ => nx_im) nx_im 0 (fun _ _ => nx_im_ok) (fun _ => nx_im_ok) nx_im_ok
      nx_env nx_envy true nx_sets nx_none None nx_coherent eq_refl nx_history) with (2 := E); [cbn; intros Q; cbn in Q; lia|reflexivity|reflexivity|cbn; lia]. }
  exists nx_sets, nx_none, None, (nx_p 4 0 3 3), t'.
  split; [exact nx_coherent|]. split; [exact nx_history|]. split; [reflexivity|]. split; [apply nx_positive; lra|].
  split; [unfold enough_tries; cbn; lia|]. split; [do 2 eexists; reflexivity|]. split; [exact E|].
  rewrite nx_met. intros [Q _]. unfold Rabs in Q. destruct (Rcase_abs (1 - 4)); lra.
Qed.
Print Assumptions C94_big_batch_refuted.

(** One try only: failure is reported and the train x is changed, the test x is not. *)
Theorem C95_failure_refuted : exists (S : sets R nat) t h p S' t',
  coherent 1%R S /\ history 1 S t h /\ should_normalize p = true /\ prepared p nx_env nx_envy true S t /\ positive p /\
  enough_values p (x0 S) (looked p (cnt S 0) (used p 0 S h)) /\
  normalize_data 1 p (fun _ _ => nx_im) (fun _ => nx_im) 0 nx_env nx_envy true nx_im S t = Some (false, S', t') /\
  ~ same_values (x0 S) (x0 S') /\ x1 S' = x1 S.
Proof.
  destruct (nx_run 4 0 1 (-1) ltac:(lia) ltac:(lia)) as (r & S' & t' & E).
  assert (Hno : ~ Forall (met (nx_p 4 0 1 (-1))) (groups (nx_p 4 0 1 (-1)) (x0 nx_sets) 2)).
  { rewrite nx_met. intros [Q _]. unfold Rabs in Q. destruct (Rcase_abs (1 - 4)); lra. }
  assert (r = false).
  { edestruct (C94_succeeds_partial nat 1 (nx_p 4 0 1 (-1)) (fun _ _ => nx_im) (fun _ => nx_im) nx_im 0 (fun _ _ => nx_im_ok) (fun _ => nx_im_ok) nx_im_ok
      nx_env nx_envy true nx_sets nx_none None nx_coherent eq_refl nx_history) with (2 := E) as (_ & H & _).
    - cbn. intros Q. cbn in Q. lia.
    - reflexivity.
    - apply nx_prepared.
    - rewrite nx_looked. apply nx_enough.
    - apply nx_positive. lra.
    - apply H. reflexivity. }
  subst r.
  destruct (C95_failure_partial nat 1 (nx_p 4 0 1 (-1)) (fun _ _ => nx_im) (fun _ => nx_im) nx_im 0 (fun _ _ => nx_im_ok) (fun _ => nx_im_ok) nx_im_ok
    nx_env nx_envy true nx_sets nx_none None nx_coherent eq_refl nx_history) with (2 := E) as [H1 H2]; [cbn; intros Q; cbn in Q; lia|reflexivity|].
  rewrite nx_looked in H2. assert (P4 : (0 < 4)%R) by lra. destruct (H2 (nx_enough _ _ _ _) (nx_positive _ _ _ _ P4)) as [H3 _].
  exists nx_sets, nx_none, None, (nx_p 4 0 1 (-1)), S', t'.
  split; [exact nx_coherent|]. split; [exact nx_history|]. split; [reflexivity|]. split; [apply nx_prepared|]. split; [apply nx_positive; lra|].
  split; [rewrite nx_looked; apply nx_enough|]. split; [exact E|]. split; [|exact H1].
  rewrite (H3 (nx_prepared _ _ _)). exact Hno.
Qed.
Print Assumptions C95_failure_refuted.
