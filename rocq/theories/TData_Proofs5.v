(** Initialisation results and the main theorems about epochs and walks. *)
From Coq Require Import Permutation.
From Verif Require Import Base BaseLemmas Workers_Model Kern_Model Kern_Spec Kern_Proofs MKern_Model MKern_Spec
  Smx_Model Smx_Spec Smx_Proofs Smx_Proofs2 TData_Model TData_Spec TData_Proofs TData_Proofs2 TData_Proofs3 TData_Proofs4.

Section R.
Context {A B : Type} (oneA : A) (oneB : B).
Notation sets := (sets A B). Notation tds := (tds A B). Notation imath := (imath A B).
Implicit Types (S : sets) (t : tds).

Definition want (req all : nat) : nat := if (req =? 0) || (all <? req) then all else req.

Lemma biggest_ok S : coherent oneA S -> biggest_samples_count S = Some (biggest S) /\ (Z.of_nat (biggest S) <= max_vec_len)%Z.
Proof.
  intros (_ & _ & _ & _ & _ & _ & L0 & L1). unfold biggest_samples_count, biggest. cbn [Nat.max].
  assert (H : (Z.of_nat (Nat.max (batch_size (x0 S)) (batch_size (x1 S))) <= max_vec_len)%Z) by lia.
  apply Z.leb_le in H. rewrite H. split; [reflexivity|]. apply Z.leb_le. exact H.
Qed.

Lemma leb0 n : (n <=? 0) = (n =? 0). Proof. destruct n; reflexivity. Qed.

(** complete description of init4train on usable data *)
Lemma init4train_spec mx my mi S t reqF reqT :
  coherent oneA S ->
  let fp := want reqF (biggest S) in let tb := want reqT (train_cnt S) in
  exists e t', init4train oneA oneB mx my mi S t reqF reqT = Some (e, fp, tb, t') /\
    (e = Success -> tb <= fp /\ Inv oneA oneB S fp tb t' Idle /\
       empty (t_bx t') = negb ((tb <? train_cnt S) || ((fp <? biggest S) && negb (s_bir (x0 S))))) /\
    (e <> Success -> t_fp t' = 0 /\ t_tb t' = 0) /\
    (e = InvalidBatchSize2MaxFPropSizeRelation <-> fp < tb) /\
    (e = TdInitNoMemory -> mx = None \/ my = None \/ mi = false) /\
    e <> TooBigTrainTestSet /\ e <> TooBigTrainSet.
Proof.
  intros HC fp tb. destruct (biggest_ok S HC) as [EB LB].
  destruct (coherent_set oneA S 0 HC) as (_ & _ & _ & _ & _ & _ & _ & Hb0 & Hp0 & _); [lia|].
  change (cnt S 0) with (train_cnt S) in Hb0, Hp0.
  unfold init4train. rewrite EB. cbn [obind]. change (trainset_samples_count S) with (train_cnt S).
  destruct (Z.ltb_spec max_vec_len (Z.of_nat (biggest S))); [lia|].
  destruct (Z.ltb_spec max_vec_len (Z.of_nat (train_cnt S))); [lia|].
  rewrite !andb_false_r, !leb0. fold (want reqF (biggest S)) (want reqT (train_cnt S)). fold fp tb.
  assert (Hfp : 0 < fp <= biggest S).
  { unfold fp, want. destruct (Nat.eqb_spec reqF 0), (Nat.ltb_spec (biggest S) reqF); cbn [orb]; lia. }
  assert (Htb : 0 < tb <= train_cnt S).
  { unfold tb, want. destruct (Nat.eqb_spec reqT 0), (Nat.ltb_spec (train_cnt S) reqT); cbn [orb]; lia. }
  destruct (Nat.ltb_spec fp tb) as [Hlt|Hge].
  - eexists _, _. split; [reflexivity|]. split; [discriminate|]. split; [intros _; split; reflexivity|].
    split; [split; auto|]. split; [discriminate|]. split; discriminate.
  - destruct (tb <? train_cnt S) eqn:Em.
    + cbn [andb]. destruct mi; cbn [negb].
      * set (t1 := with_idx (with_sizes (deinit4all t) fp tb true) (seq 0 (train_cnt S))).
        destruct (init_batches_ok oneA oneB mx my S t1 (fp <? biggest S) fp tb HC) as (ok & t' & E & H1 & H2);
          try reflexivity; try lia; try exact Hge.
        rewrite E. cbn [obind]. destruct ok.
        -- destruct (H1 eq_refl) as (bx & by_ & -> & HX & HY & He). change (t_mini t1) with true in HX, HY, He.
           eexists _, _. split; [reflexivity|]. split.
           { intros _. split; [exact Hge|]. split; [|exact He]. unfold Inv, in_phase, with_batches, t1.
             cbn [t_fp t_tb t_mini t_idx t_bx t_by with_idx with_sizes]. split; [reflexivity|]. split; [reflexivity|].
             split; [symmetry; exact Em|]. do 2 (split; [lia|]). split; [intros _; apply Permutation_refl|]. auto. }
           split; [congruence|]. split; [split; [discriminate|lia]|]. split; [discriminate|]. split; discriminate.
        -- eexists _, _. split; [reflexivity|]. split; [discriminate|]. split; [intros _; split; reflexivity|].
           split; [split; [discriminate|lia]|]. split; [intros _; specialize (H2 eq_refl); tauto|]. split; discriminate.
      * eexists _, _. split; [reflexivity|]. split; [discriminate|]. split; [intros _; split; reflexivity|].
        split; [split; [discriminate|lia]|]. split; [auto|]. split; discriminate.
    + cbn [andb]. set (t1 := with_sizes (deinit4all t) fp tb false).
      destruct (init_batches_ok oneA oneB mx my S t1 (fp <? biggest S) fp tb HC) as (ok & t' & E & H1 & H2);
          try reflexivity; try lia; try exact Hge.
      rewrite E. cbn [obind]. destruct ok.
      -- destruct (H1 eq_refl) as (bx & by_ & -> & HX & HY & He). change (t_mini t1) with false in HX, HY, He.
         eexists _, _. split; [reflexivity|]. split.
         { intros _. split; [exact Hge|]. split; [|exact He]. unfold Inv, in_phase, with_batches, t1.
           cbn [t_fp t_tb t_mini t_idx t_bx t_by with_idx with_sizes]. split; [reflexivity|]. split; [reflexivity|].
           split; [symmetry; exact Em|]. do 2 (split; [lia|]). split; [discriminate|]. auto. }
         split; [congruence|]. split; [split; [discriminate|lia]|]. split; [discriminate|]. split; discriminate.
      -- eexists _, _. split; [reflexivity|]. split; [discriminate|]. split; [intros _; split; reflexivity|].
         split; [split; [discriminate|lia]|]. split; [intros _; specialize (H2 eq_refl); tauto|]. split; discriminate.
Qed.

Lemma sets_nonempty S : coherent oneA S -> sets_empty S = false.
Proof.
  intros (D0 & D1 & _). unfold sets_empty.
  assert (H : forall C (m : smx C), well_alloc m -> empty m = false) by (intros C m (_ & _ & l & D & _); unfold empty; rewrite D; reflexivity).
  destruct D0 as (Wx & Wy & _), D1 as (Wx1 & Wy1 & _). rewrite !H by assumption. reflexivity.
Qed.

(** when is_initialized4train confirms a successful initialisation *)
Lemma is_init_train_iff S fp tb t ph :
  coherent oneA S -> Inv oneA oneB S fp tb t ph ->
  empty (t_bx t) = negb ((tb <? train_cnt S) || ((fp <? biggest S) && negb (s_bir (x0 S)))) ->
  is_initialized4train S t fp tb =
    if (tb <? fp) && empty (t_bx t) then None else Some (fp, tb, negb (empty (t_bx t))).
Proof.
  intros HC (I1 & I2 & I3 & I4 & I5 & _) He. unfold is_initialized4train, is_initialized4inference.
  rewrite I1, I2. rewrite (sets_nonempty S HC).
  destruct (Nat.eqb_spec fp 0); [lia|]. destruct (Nat.ltb_spec fp fp); [lia|]. cbn [orb andb obind].
  destruct (Nat.eqb_spec tb 0); [lia|]. destruct (Nat.ltb_spec tb tb); [lia|]. cbn [orb].
  destruct (Nat.ltb_spec fp tb); [lia|]. rewrite orb_false_r. reflexivity.
Qed.

(** ** Refinement *)
Lemma step_refines S fp tb t ph o :
  coherent oneA S -> Inv oneA oneB S fp tb t ph -> allowed S t fp tb ph o ->
  exists b t' ph', step oneA S t o = Some (b, t') /\ spec_step oneA oneB S fp tb ph o b ph' /\ Inv oneA oneB S fp tb t' ph'.
Proof.
  intros HC HI Ha. destruct o.
  - eapply epoch_step; eassumption.
  - eapply batch_step; eassumption.
  - eapply walk_step; eassumption.
  - eapply subset_step; eassumption.
Qed.

Lemma run_refines S fp tb os : coherent oneA S -> forall t ph,
  Inv oneA oneB S fp tb t ph -> allowed_run oneA oneB S fp tb t ph os ->
  exists bs t' ph', run oneA S t os = Some (bs, t') /\ spec_run oneA oneB S fp tb ph os bs ph' /\ Inv oneA oneB S fp tb t' ph'.
Proof.
  intros HC. induction os as [|o os IH]; intros t ph HI Ha.
  - exists [], t, ph. split; [reflexivity|]. split; [constructor|exact HI].
  - inversion Ha as [|t0 ph0 o0 os0 Hal Hnext]; subst.
    destruct (step_refines S fp tb t ph o HC HI Hal) as (b & t1 & ph1 & E & Hsp & HI1).
    destruct (IH t1 ph1 HI1 (Hnext b t1 ph1 E Hsp)) as (bs & t2 & ph2 & E2 & Hsp2 & HI2).
    exists (b :: bs), t2, ph2. cbn [run]. rewrite E. cbn [obind]. rewrite E2. cbn [obind].
    split; [reflexivity|]. split; [econstructor; eassumption|exact HI2].
Qed.

(** ** Epochs *)
Definition batch_calls (ims : list imath) : list op := map (fun '(k, im) => Batch im k) (combine (seq 0 (length ims)) ims).

Lemma slice_app perm n k : (k + 1) * n <= length perm -> firstn (k * n) perm ++ slice perm n k = firstn ((k + 1) * n) perm.
Proof.
  intros H. unfold slice. rewrite <- (firstn_skipn (k * n) perm) at 3. rewrite firstn_app.
  rewrite firstn_length, Nat.min_l by lia.
  rewrite (firstn_firstn perm), Nat.min_r by lia. replace ((k + 1) * n - k * n) with n by lia.
  rewrite (Nat.mul_comm n k). reflexivity.
Qed.

Lemma concat_slices perm n m : m * n <= length perm -> concat (map (slice perm n) (seq 0 m)) = firstn (m * n) perm.
Proof.
  induction m as [|m IH]; intros H; [reflexivity|]. rewrite seq_S, map_app, concat_app, IH by lia.
  cbn [map concat Nat.add]. rewrite app_nil_r. rewrite slice_app by lia. f_equal. lia.
Qed.

Lemma batches_run S fp tb n perm : coherent oneA S -> forall ims k t, Inv oneA oneB S fp tb t (Training n perm) ->
  Forall im_ok ims -> k + length ims <= train_cnt S / n ->
  exists bs t', run oneA S t (map (fun '(k, im) => Batch im k) (combine (seq k (length ims)) ims)) = Some (bs, t') /\
    Inv oneA oneB S fp tb t' (Training n perm) /\
    Forall2 (fun b k => exists bx by_, b = OData (Some bx) (Some by_) /\
       holds oneA bx (x0 S) (slice perm n k) /\ holds oneB by_ (y0 S) (slice perm n k)) bs (seq k (length ims)).
Proof.
  intros HC. induction ims as [|im ims IH]; intros k t HI Him Hk.
  - exists [], t. split; [reflexivity|]. split; [exact HI|constructor].
  - inversion Him; subst. cbn [length] in *.
    destruct (step_refines S fp tb t (Training n perm) (Batch im k) HC HI) as (b & t1 & ph1 & E & Hsp & HI1).
    { split; [assumption|lia]. }
    destruct Hsp as [Hb ->]. destruct (IH (Datatypes.S k) t1 HI1) as (bs & t2 & E2 & HI2 & HF); [assumption|lia|].
    exists (b :: bs), t2. cbn [seq combine map run]. rewrite E. cbn [obind]. rewrite E2. cbn [obind].
    split; [reflexivity|]. split; [exact HI2|]. constructor; assumption.
Qed.

Lemma epoch_run S fp tb t ph rv ibs bs ims :
  coherent oneA S -> Inv oneA oneB S fp tb t ph -> allowed S t fp tb ph (Epoch rv ibs bs) ->
  let n := asked tb ibs bs in
  Forall im_ok ims -> length ims = train_cnt S / n ->
  exists perm os t', run oneA S t (Epoch rv ibs bs :: batch_calls ims) = Some (ONum (length ims) :: os, t') /\
    Permutation perm (seq 0 (train_cnt S)) /\
    Forall2 (fun b k => exists bx by_, b = OData (Some bx) (Some by_) /\
       holds oneA bx (x0 S) (slice perm n k) /\ holds oneB by_ (y0 S) (slice perm n k)) os (seq 0 (length ims)).
Proof.
  intros HC HI Ha n Him Hl.
  destruct (step_refines S fp tb t ph (Epoch rv ibs bs) HC HI Ha) as (b & t1 & ph1 & E & Hsp & HI1).
  destruct Hsp as (perm & HP & -> & ->). fold n in HI1, E.
  destruct (batches_run S fp tb n perm HC ims 0 t1 HI1 Him) as (os & t2 & E2 & HI2 & HF); [lia|].
  exists perm, os, t2. unfold batch_calls. cbn [run]. rewrite E. cbn [obind]. rewrite E2. cbn [obind]. rewrite Hl.
  split; [reflexivity|]. split; [exact HP|]. rewrite <- Hl. exact HF.
Qed.

(** ** Walks *)
Definition subset_calls (ims : list imath) : list op := map (fun '(k, im) => Subset im k) (combine (seq 0 (length ims)) ims).

Definition walked S id flag n (b : obs) k : Prop :=
  exists ox oy, b = OData ox oy /\
    (if flag =? 1 then ox = None
     else exists bx, ox = Some bx /\ holds oneA bx (set_x S id) (slice (seq 0 (cnt S id)) n k)) /\
    (if flag =? 2 then oy = None
     else exists by_, oy = Some by_ /\ holds oneB by_ (set_y S id) (slice (seq 0 (cnt S id)) n k)).

Lemma subsets_run S fp tb id n flag : coherent oneA S -> forall ims k t, Inv oneA oneB S fp tb t (Walking id n flag k) ->
  Forall im_ok ims -> k + length ims <= subsets (cnt S id) n ->
  exists bs t', run oneA S t (map (fun '(k, im) => Subset im k) (combine (seq k (length ims)) ims)) = Some (bs, t') /\
    Forall2 (walked S id flag n) bs (seq k (length ims)).
Proof.
  intros HC. induction ims as [|im ims IH]; intros k t HI Him Hk.
  - exists [], t. split; [reflexivity|constructor].
  - inversion Him; subst. cbn [length] in *.
    destruct (step_refines S fp tb t (Walking id n flag k) (Subset im k) HC HI) as (b & t1 & ph1 & E & Hsp & HI1).
    { split; [assumption|]. split; [reflexivity|lia]. }
    destruct Hsp as [Hb ->]. destruct (IH (Datatypes.S k) t1) as (bs & t2 & E2 & HF); [|assumption|lia|].
    { replace (Datatypes.S k) with (k + 1) by lia. exact HI1. }
    exists (b :: bs), t2. cbn [seq combine map run]. rewrite E. cbn [obind]. rewrite E2. cbn [obind].
    split; [reflexivity|]. constructor; assumption.
Qed.

Lemma walk_run S fp tb t ph id ibs bs flag ims :
  coherent oneA S -> Inv oneA oneB S fp tb t ph -> allowed S t fp tb ph (Walk id ibs bs flag) ->
  let n := Nat.min (asked fp ibs bs) (cnt S id) in
  Forall im_ok ims -> length ims = subsets (cnt S id) n ->
  exists os t', run oneA S t (Walk id ibs bs flag :: subset_calls ims) = Some (ONum (length ims) :: os, t') /\
    Forall2 (walked S id flag n) os (seq 0 (length ims)).
Proof.
  intros HC HI Ha n Him Hl.
  destruct (step_refines S fp tb t ph (Walk id ibs bs flag) HC HI Ha) as (b & t1 & ph1 & E & Hsp & HI1).
  destruct Hsp as (-> & ->). fold n in HI1, E.
  destruct (subsets_run S fp tb id n flag HC ims 0 t1 HI1 Him) as (os & t2 & E2 & HF); [lia|].
  exists os, t2. unfold subset_calls. cbn [run]. rewrite E. cbn [obind]. rewrite E2. cbn [obind]. rewrite Hl.
  split; [reflexivity|]. rewrite <- Hl. exact HF.
Qed.

Lemma walk_concat N n : 0 < n <= N ->
  concat (map (slice (seq 0 N) n) (seq 0 (subsets N n))) = seq 0 (if N mod n =? 1 then N - 1 else N).
Proof.
  intros Hn. pose proof (Nat.div_mod N n). pose proof (Nat.mod_upper_bound N n).
  assert (Hq : concat (map (slice (seq 0 N) n) (seq 0 (N / n))) = seq 0 (N / n * n)).
  { rewrite concat_slices by (rewrite seq_length; lia). rewrite firstn_seq. f_equal. lia. }
  unfold subsets. destruct (Nat.ltb_spec 1 (N mod n)).
  - rewrite Nat.add_1_r, seq_S, map_app, concat_app, Hq. cbn [map concat Nat.add]. rewrite app_nil_r, slice_seq.
    destruct (Nat.eqb_spec (N mod n) 1); [lia|].
    replace (Nat.min n (N - n * (N / n))) with (N mod n) by lia.
    rewrite (Nat.mul_comm n (N / n)). rewrite <- seq_app with (start := 0). f_equal. lia.
  - rewrite Nat.add_0_r, Hq. f_equal. destruct (Nat.eqb_spec (N mod n) 1); lia.
Qed.
End R.
