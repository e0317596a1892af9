(** The object refines the client's view of it. *)
From Coq Require Import Permutation.
From Verif Require Import Base BaseLemmas Workers_Model Kern_Model Kern_Spec Kern_Proofs MKern_Model MKern_Spec
  Smx_Model Smx_Spec Smx_Proofs Smx_Proofs2 TData_Model TData_Spec TData_Proofs TData_Proofs2.

(** a subset fetched into a buffer *)
Lemma subset_buf {C} (one : C) sched parts src b bias W cap n k :
  well_alloc src -> s_bir src = false -> s_bias src = bias -> sample_size src = W -> buf one false bias W cap b ->
  (forall n, 0 < n -> tiles (parts n) n) -> (forall trs, interleaving trs (sched trs)) ->
  batch_size b = n -> 0 < n -> n * k < batch_size src ->
  exists b1 b2,
    (if batch_size src - k * n <? n then deform_batch_size_with_biases one b (batch_size src - k * n) else Some b) = Some b1 /\
    run_kernel sched (extract_rows_seq parts (k * n)) src b1 = Some b2 /\
    buf one false bias W cap b2 /\ batch_size b2 = Nat.min n (batch_size src - n * k) /\
    holds one b2 src (slice (seq 0 (batch_size src)) n k).
Proof.
  intros Hw Hbir Hb HW HB Hp Hs Hn Hn0 Hk.
  assert (H1 : exists b1, (if batch_size src - k * n <? n then deform_batch_size_with_biases one b (batch_size src - k * n) else Some b) = Some b1
     /\ buf one false bias W cap b1 /\ batch_size b1 = Nat.min n (batch_size src - n * k)).
  { destruct (Nat.ltb_spec (batch_size src - k * n) n).
    - assert (batch_size b <= cap) by apply HB.
      destruct (deform_buf one false bias W cap b (batch_size src - k * n) HB) as (b1 & E & HB1 & Hs1); [lia|].
      exists b1. split; [exact E|]. split; [exact HB1|]. lia.
    - exists b. split; [reflexivity|]. split; [exact HB|]. lia. }
  destruct H1 as (b1 & E1 & HB1 & S1).
  destruct (extract_seq_buf one sched parts (k * n) src b1 bias W cap Hw Hbir Hb HW HB1 Hp Hs) as (b2 & E2 & HB2 & S2 & Hh); [lia|].
  exists b1, b2. split; [exact E1|]. split; [exact E2|]. split; [exact HB2|]. split; [lia|].
  rewrite slice_seq, <- S1, (Nat.mul_comm n k). exact Hh.
Qed.

Lemma subset_view {C} (one : C) src bias n k :
  well_alloc src -> s_bir src = true -> s_bias src = bias -> 0 < sample_size src -> biases_one one src ->
  0 < n -> n * k < batch_size src ->
  exists v,
    view src (k * n) (sample_size src + Nat.b2n bias)
      (if batch_size src - k * n <? n then batch_size src - k * n else n) bias = Some v /\
    holds one v src (slice (seq 0 (batch_size src)) n k).
Proof.
  intros Hw Hbir Hb HW HO Hn Hk.
  assert (Hcols : s_cols src = batch_size src) by (unfold batch_size; rewrite Hbir; reflexivity).
  assert (E : (if batch_size src - k * n <? n then batch_size src - k * n else n) = Nat.min n (batch_size src - n * k)).
  { destruct (Nat.ltb_spec (batch_size src - k * n) n); lia. }
  rewrite E, slice_seq. rewrite (Nat.mul_comm n k).
  apply view_holds; try assumption; lia.
Qed.

Section R.
Context {A B : Type} (oneA : A) (oneB : B).
Notation sets := (sets A B). Notation tds := (tds A B). Notation imath := (imath A B).
Implicit Types (S : sets) (t : tds).

Definition biggest S := Nat.max (batch_size (x0 S)) (batch_size (x1 S)).

Definition wsel (excl bir : bool) : sel := if excl then SNull else if bir then SWalk else SBatch.

(** the two batch buffers, as far as they are needed *)
Definition xbuf S fp tb (mini : bool) (b : smx A) : Prop :=
  (mini = true \/ (s_bir (x0 S) = false /\ fp < biggest S) ->
   exists cap, buf oneA (s_bir (x0 S)) true (sample_size (x0 S)) cap b /\
     (mini = true -> tb <= cap) /\ (s_bir (x0 S) = false -> fp <= cap)) /\
  (empty b = false -> mini = true \/ (s_bir (x0 S) = false /\ fp < biggest S)).
Definition ybuf S fp tb (mini : bool) (b : smx B) : Prop :=
  mini = true \/ (s_bir (y0 S) = false /\ fp < biggest S) ->
   exists cap, buf oneB (s_bir (y0 S)) false (sample_size (y0 S)) cap b /\
     (mini = true -> tb <= cap) /\ (s_bir (y0 S) = false -> fp <= cap).

Definition in_phase S t (ph : phase) : Prop :=
  match ph with
  | Idle => True
  | Training b perm =>
      t_walk t = None /\ Permutation perm (seq 0 (train_cnt S)) /\
      if t_mini t then t_px t = SBatch /\ t_py t = SBatch /\ t_cur t = Z.of_nat b /\ 0 < b /\ t_idx t = perm /\
                       batch_size (t_bx t) = b /\ batch_size (t_by t) = b
      else t_px t = SSet 0 /\ t_py t = SSet 0 /\ b = train_cnt S /\ perm = seq 0 (train_cnt S)
  | Walking id n flag k =>
      t_walk t = Some id /\ id < 2 /\ 0 < n <= cnt S id /\
      if n <? cnt S id then
        n <= t_fp t /\ t_cur t = Z.of_nat n /\
        t_px t = wsel (exclude_dataX flag) (s_bir (x0 S)) /\ t_py t = wsel (exclude_dataY flag) (s_bir (y0 S)) /\
        (t_px t = SBatch -> (t_mini t = true \/ t_fp t < biggest S) /\ (k <= cnt S id / n -> batch_size (t_bx t) = n)) /\
        (t_py t = SBatch -> (t_mini t = true \/ t_fp t < biggest S) /\ (k <= cnt S id / n -> batch_size (t_by t) = n))
      else t_cur t = (-1)%Z /\ t_px t = (if exclude_dataX flag then SNull else SSet id) /\
           t_py t = (if exclude_dataY flag then SNull else SSet id)
  end.

Definition Inv S fp tb t ph : Prop :=
  t_fp t = fp /\ t_tb t = tb /\ t_mini t = (tb <? train_cnt S) /\
  0 < tb <= train_cnt S /\ tb <= fp <= biggest S /\
  (t_mini t = true -> Permutation (t_idx t) (seq 0 (train_cnt S))) /\
  xbuf S fp tb (t_mini t) (t_bx t) /\ ybuf S fp tb (t_mini t) (t_by t) /\ in_phase S t ph.

Lemma xbuf_upd S fp tb mini b cap : 
  xbuf S fp tb mini b -> (mini = true \/ (s_bir (x0 S) = false /\ fp < biggest S)) ->
  (mini = true -> tb <= cap) -> (s_bir (x0 S) = false -> fp <= cap) ->
  forall b', buf oneA (s_bir (x0 S)) true (sample_size (x0 S)) cap b' -> xbuf S fp tb mini b'.
Proof. intros H Hc H1 H2 b' Hb'. split; [|auto]. intros _. exists cap. auto. Qed.

(** ** coherent data *)
Lemma coherent_set S id : coherent oneA S -> id < 2 ->
  X S id = Some (set_x S id) /\ Y S id = Some (set_y S id) /\ dataset oneA (set_x S id) (set_y S id) /\
  s_bir (set_x S id) = s_bir (x0 S) /\ s_bir (set_y S id) = s_bir (y0 S) /\
  sample_size (set_x S id) = sample_size (x0 S) /\ sample_size (set_y S id) = sample_size (y0 S) /\
  cnt S id <= biggest S /\ 0 < cnt S id /\ 0 < sample_size (y0 S).
Proof.
  intros (D0 & D1 & B1 & B2 & S1 & S2 & _) Hid.
  assert (Hpos : forall (C : Type) (m : smx C), well_alloc m -> s_bias m = false -> 0 < sample_size m /\ 0 < batch_size m).
  { intros C m (W1 & W2 & _) Hb. unfold sample_size, batch_size, s_rows_nb, s_cols_nb, s_bias_row, s_bias_col. rewrite Hb.
    destruct (s_bir m); cbn [andb Nat.b2n]; lia. }
  assert (HY0 : 0 < sample_size (y0 S)) by (apply Hpos; apply D0).
  assert (Hb : forall (x : smx A) (y : smx B), dataset oneA x y -> 0 < batch_size x).
  { intros x y (_ & Wy & _ & _ & By & _ & E). rewrite E. apply Hpos; assumption. }
  unfold set_x, set_y, cnt, set_x, biggest. destruct id as [|[|id]]; [| |lia]; cbn [Nat.eqb X Y].
  - do 2 (split; [reflexivity|]). split; [exact D0|]. do 4 (split; [reflexivity|]). split; [lia|].
    split; [apply (Hb _ _ D0)|exact HY0].
  - do 2 (split; [reflexivity|]). split; [exact D1|]. do 4 (split; [congruence|]). split; [lia|].
    split; [apply (Hb _ _ D1)|exact HY0].
Qed.

(** ** one step *)
Lemma epoch_step S fp tb t ph rv ibs bs :
  coherent oneA S -> Inv S fp tb t ph -> allowed S t fp tb ph (Epoch rv ibs bs) ->
  exists b t' ph', step oneA S t (Epoch rv ibs bs) = Some (b, t') /\
    spec_step oneA oneB S fp tb ph (Epoch rv ibs bs) b ph' /\ Inv S fp tb t' ph'.
Proof.
  intros HC (I1 & I2 & I3 & I4 & I5 & I6 & I7 & I8 & I9) (Hrv & Hb & Hfull).
  set (n := asked tb ibs bs) in *.
  unfold step, on_next_epoch. cbn [with_walk t_tb t_mini].
  assert (En : (if (bs <? 0)%Z then t_tb t else if (bs =? 0)%Z then ibs else Z.to_nat bs) = n) by (rewrite I2; reflexivity).
  rewrite En. destruct (t_mini t) eqn:Em.
  - cbn [t_bx t_by t_idx with_walk].
    destruct (proj1 I7 (or_introl eq_refl)) as (capx & HBx & Hx1 & Hx2).
    destruct (I8 (or_introl eq_refl)) as (capy & HBy & Hy1 & Hy2).
    destruct (deform_buf oneA _ _ _ _ _ n HBx) as (bx' & Ex & HBx' & Sx); [specialize (Hx1 eq_refl); lia|].
    destruct (deform_buf oneB _ _ _ _ _ n HBy) as (by' & Ey & HBy' & Sy); [specialize (Hy1 eq_refl); lia|].
    rewrite deform_nobias in Ey by apply HBy. injection Ey as Ey.
    destruct (shuffle_perm rv (t_idx t) Hrv) as (idx' & Ei & Pi).
    rewrite Ex. cbn [obind]. rewrite Ei, Ey. cbn [obind].
    destruct (Nat.ltb_spec 0 n); [|lia]. cbn [guard obind].
    specialize (I6 eq_refl).
    eexists _, _, (Training n idx'). split; [reflexivity|]. split.
    + exists idx'. split; [eapply Permutation_trans; eassumption|]. split; reflexivity.
    + unfold Inv. cbn [with_idx with_ptrs with_batches with_walk t_fp t_tb t_mini t_idx t_bx t_by].
      do 2 (split; [assumption|]). split; [congruence|]. do 2 (split; [lia|]).
      split; [intros _; eapply Permutation_trans; eassumption|].
      rewrite Em. split; [eapply (xbuf_upd _ _ _ _ _ capx); eauto|]. split; [intros _; exists capy; auto|].
      unfold in_phase. cbn [with_idx with_ptrs with_batches with_walk t_walk t_mini t_px t_py t_cur t_idx t_bx t_by].
      split; [reflexivity|]. split; [eapply Permutation_trans; eassumption|]. rewrite Em.
      do 3 (split; [reflexivity|]). split; [lia|]. split; [reflexivity|]. split; assumption.
  - cbn [obind]. destruct (Nat.ltb_spec 0 n); [|lia]. cbn [guard obind].
    symmetry in I3. apply Nat.ltb_ge in I3. assert (Et : tb = train_cnt S) by lia. specialize (Hfull Et).
    eexists _, _, (Training n (seq 0 (train_cnt S))). split; [reflexivity|]. split.
    + exists (seq 0 (train_cnt S)). split; [apply Permutation_refl|]. split; reflexivity.
    + unfold Inv. cbn [with_idx with_ptrs with_batches with_walk t_fp t_tb t_mini t_idx t_bx t_by].
      do 2 (split; [assumption|]). rewrite Em. split; [symmetry; apply Nat.ltb_ge; lia|]. do 2 (split; [lia|]).
      split; [discriminate|]. split; [exact I7|]. split; [exact I8|].
      unfold in_phase. cbn [with_idx with_ptrs with_batches with_walk t_walk t_mini t_px t_py t_cur t_idx t_bx t_by].
      split; [reflexivity|]. split; [apply Permutation_refl|]. rewrite Em.
      do 2 (split; [reflexivity|]). split; [lia|reflexivity].
Qed.

Lemma batch_idx_ok perm N b bi : Permutation perm (seq 0 N) -> 0 < b -> bi < N / b ->
  forall r, r < b -> exists i, nth_error (skipn (b * bi) perm) r = Some i /\ i < N.
Proof.
  intros P Hb Hbi r Hr.
  assert (HL : length perm = N) by (rewrite (Permutation_length P), seq_length; reflexivity).
  assert (Hlt : b * bi + r < N).
  { pose proof (Nat.mul_div_le N b). assert (b * (bi + 1) <= b * (N / b)) by (apply Nat.mul_le_mono_l; lia). lia. }
  destruct (bget_lt perm (b * bi + r)) as [i Ei]; [lia|].
  exists i. split.
  - change (bget (skipn (b * bi) perm) r = Some i). rewrite bget_skipn. exact Ei.
  - assert (In i (seq 0 N)) as Hin by (eapply Permutation_in; [exact P|]; eapply nth_error_In; exact Ei).
    apply in_seq in Hin. lia.
Qed.

Lemma batch_step S fp tb t ph im bi :
  coherent oneA S -> Inv S fp tb t ph -> allowed S t fp tb ph (Batch im bi) ->
  exists b t' ph', step oneA S t (Batch im bi) = Some (b, t') /\
    spec_step oneA oneB S fp tb ph (Batch im bi) b ph' /\ Inv S fp tb t' ph'.
Proof.
  intros HC HI Ha. destruct ph as [|n perm|]; [contradiction| |contradiction].
  destruct Ha as ((Hp & HsA & HsB) & Hbi). pose proof HI as (I1 & I2 & I3 & I4 & I5 & I6 & I7 & I8 & Hw & HP & Hph).
  destruct (coherent_set S 0 HC) as (_ & _ & D0 & _ & _ & _ & _ & _ & Hpos & HyW); [lia|].
  change (set_x S 0) with (x0 S) in D0. change (set_y S 0) with (y0 S) in D0.
  pose proof D0 as (Wx & Wy & Bx & Ox & By & HxW & Ecnt).
  unfold step, on_next_batch. destruct (t_mini t) eqn:Em.
  - destruct Hph as (P1 & P2 & P3 & P4 & P5 & P6 & P7).
    destruct (proj1 I7 (or_introl eq_refl)) as (capx & HBx & Hx1 & Hx2).
    destruct (I8 (or_introl eq_refl)) as (capy & HBy & Hy1 & Hy2).
    rewrite P3, Nat2Z.id, P5.
    destruct (extract_batches_buf oneB (im_schedB im) (im_parts im) (skipn (n * bi) perm) (y0 S) (t_by t)
       (s_bir (y0 S)) false (sample_size (y0 S)) capy Wy eq_refl By eq_refl HBy Hp HsB) as (by' & Ey & HBy' & Sy & Hy).
    { rewrite P7, <- Ecnt. apply batch_idx_ok; assumption. }
    destruct (extract_batches_buf oneA (im_schedA im) (im_parts im) (skipn (n * bi) perm) (x0 S) (t_bx t)
       (s_bir (x0 S)) true (sample_size (x0 S)) capx Wx eq_refl Bx eq_refl HBx Hp HsA) as (bx' & Ex & HBx' & Sx & Hx).
    { rewrite P6. apply batch_idx_ok; assumption. }
    rewrite Ey. cbn [obind]. rewrite Ex. cbn [obind]. rewrite P6 in Hx. rewrite P7 in Hy.
    eexists _, _, (Training n perm). split; [reflexivity|]. split.
    + split; [|reflexivity]. exists bx', by'.
      unfold batchX, batchY. cbn [with_batches t_px t_py t_bx t_by]. rewrite P1, P2. split; [reflexivity|]. split; assumption.
    + unfold Inv, in_phase. cbn [with_batches t_fp t_tb t_mini t_idx t_bx t_by t_walk t_px t_py t_cur]. rewrite Em.
      do 2 (split; [assumption|]). split; [assumption|]. do 2 (split; [lia|]). split; [exact I6|].
      split; [eapply (xbuf_upd _ _ _ _ _ capx); eauto|]. split; [intros _; exists capy; auto|].
      split; [exact Hw|]. split; [exact HP|]. do 5 (split; [assumption|]). split; congruence.
  - destruct Hph as (P1 & P2 & P3 & P4). cbn [obind].
    eexists _, _, (Training n perm). split; [reflexivity|]. split; [|exact HI].
    split; [|reflexivity]. exists (x0 S), (y0 S). unfold batchX, batchY. rewrite P1, P2. cbn [X Y]. split; [reflexivity|].
    assert (bi = 0) as -> by (rewrite P3, Nat.div_same in Hbi; unfold train_cnt in *; unfold cnt, set_x in Hpos; cbn [Nat.eqb] in Hpos; lia).
    assert (Esl : slice perm n 0 = seq 0 (train_cnt S)).
    { rewrite P4, P3, slice_seq, Nat.mul_0_r, Nat.sub_0_r, Nat.min_id. reflexivity. }
    rewrite Esl. split; [apply holds_whole; assumption|].
    unfold train_cnt. rewrite Ecnt. apply holds_whole; [assumption|assumption|]. intros Q. congruence.
Qed.
End R.
