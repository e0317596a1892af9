(** Walking over data sets, initialisation, the main refinement. *)
From Coq Require Import Permutation.
From Verif Require Import Base BaseLemmas Workers_Model Kern_Model Kern_Spec Kern_Proofs MKern_Model MKern_Spec
  Smx_Model Smx_Spec Smx_Proofs Smx_Proofs2 TData_Model TData_Spec TData_Proofs TData_Proofs2 TData_Proofs3.

Section R.
Context {A B : Type} (oneA : A) (oneB : B).
Notation sets := (sets A B). Notation tds := (tds A B). Notation imath := (imath A B).
Implicit Types (S : sets) (t : tds).

Lemma subsets_eq n b : n / b + Nat.b2n (1 <? n mod b) = subsets n b.
Proof. unfold subsets. destruct (1 <? n mod b); reflexivity. Qed.

(** what walking needs and keeps, whether initialised for training or for inference *)
Definition InvW S fp tb t ph : Prop :=
  t_fp t = fp /\ t_tb t = tb /\ 0 < fp <= biggest S /\ tb <= fp /\
  xbuf oneA S fp tb (t_mini t) (t_bx t) /\ ybuf oneB S fp tb (t_mini t) (t_by t) /\ in_phase S t ph.

Lemma Inv_W S fp tb t ph : Inv oneA oneB S fp tb t ph -> InvW S fp tb t ph.
Proof. intros (I1 & I2 & I3 & I4 & I5 & I6 & I7 & I8 & I9). repeat (split; [first [assumption|lia]|]). exact I9. Qed.
Lemma W_Inv S fp tb t ph t' ph' : Inv oneA oneB S fp tb t ph -> InvW S fp tb t' ph' -> t_mini t' = t_mini t -> t_idx t' = t_idx t ->
  Inv oneA oneB S fp tb t' ph'.
Proof.
  intros (I1 & I2 & I3 & I4 & I5 & I6 & I7 & I8 & I9) (J1 & J2 & J3 & J4 & J5 & J6 & J7) Em Ei. unfold Inv. rewrite Ei.
  do 2 (split; [assumption|]). split; [congruence|]. do 2 (split; [lia|]). split; [rewrite Em; exact I6|].
  split; [exact J5|]. split; [exact J6|]. exact J7.
Qed.

Lemma walk_stepW S fp tb t ph id ibs bs flag :
  coherent oneA S -> InvW S fp tb t ph -> allowed S t fp tb ph (Walk id ibs bs flag) ->
  exists b t' ph', step oneA S t (Walk id ibs bs flag) = Some (b, t') /\
    spec_step oneA oneB S fp tb ph (Walk id ibs bs flag) b ph' /\ InvW S fp tb t' ph' /\ t_mini t' = t_mini t /\ t_idx t' = t_idx t.
Proof.
  intros HC (I1 & I2 & I4 & I5 & I7 & I8 & I9) (Hid & Hb & Hinit).
  destruct (coherent_set oneA S id HC Hid) as (EX & EY & D & Bx & By & Sx & Sy & Hbig & Hpos & HyW).
  set (n0 := asked fp ibs bs) in *. set (n := Nat.min n0 (cnt S id)).
  assert (Hreq : n0 <= fp /\ (n0 = fp \/ empty (t_bx t) = false)).
  { unfold is_initialized4inference in Hinit. rewrite I1 in Hinit. destruct (Nat.eqb_spec n0 0); [lia|].
    destruct (sets_empty S || (fp =? 0) || (fp <? n0)) eqn:E1; [discriminate|].
    apply orb_false_elim in E1. destruct E1 as [_ E1]. apply Nat.ltb_ge in E1.
    destruct ((n0 <? fp) && empty (t_bx t)) eqn:E2; [discriminate|].
    split; [exact E1|]. apply andb_false_iff in E2. destruct E2 as [E2|E2]; [apply Nat.ltb_ge in E2; left; lia|right; exact E2]. }
  destruct Hreq as [Hle Hbuf].
  unfold step, walk_over_set. cbn [with_walk t_fp].
  assert (En : (if (bs <? 0)%Z then t_fp t else if (bs =? 0)%Z then ibs else Z.to_nat bs) = n0) by (rewrite I1; reflexivity).
  rewrite En. unfold dataset_samples_count. rewrite EX. cbn [obind]. fold (cnt S id).
  assert (En' : (if cnt S id <? n0 then cnt S id else n0) = n).
  { unfold n. destruct (Nat.ltb_spec (cnt S id) n0); lia. }
  rewrite En'. assert (Hn : 0 < n <= cnt S id) by (unfold n; lia).
  destruct (Nat.ltb_spec n (cnt S id)) as [Hlt|Hge].
  - assert (Hneed : t_mini t = true \/ fp < biggest S).
    { assert (n = n0) by (unfold n in *; lia). destruct Hbuf as [->|He].
      - right. lia.
      - destruct (proj2 I7 He) as [->|[_ Hfp]]; auto. }
    assert (Hbx : exists bx, (if exclude_dataX flag then Some (t_bx t, SNull)
             else if s_bir (x0 S) then Some (t_bx t, SWalk)
             else do bx <- deform_batch_size_with_biases oneA (t_bx t) n; Some (bx, SBatch))
           = Some (bx, wsel (exclude_dataX flag) (s_bir (x0 S))) /\
           xbuf oneA S fp tb (t_mini t) bx /\
           (wsel (exclude_dataX flag) (s_bir (x0 S)) = SBatch -> batch_size bx = n)).
    { unfold wsel. destruct (exclude_dataX flag); [exists (t_bx t); split; [reflexivity|split; [exact I7|discriminate]]|].
      destruct (s_bir (x0 S)) eqn:Ebir; [exists (t_bx t); split; [reflexivity|split; [exact I7|discriminate]]|].
      assert (Hc : t_mini t = true \/ s_bir (x0 S) = false /\ fp < biggest S) by (destruct Hneed; auto).
      destruct (proj1 I7 Hc) as (cap & HB & H1 & H2).
      destruct (deform_buf oneA _ _ _ _ _ n HB) as (b' & E & HB' & Sz); [specialize (H2 Ebir); unfold n in *; lia|].
      exists b'. rewrite E. cbn [obind]. split; [reflexivity|]. split; [|auto].
      apply (xbuf_upd oneA S fp tb (t_mini t) (t_bx t) cap I7 Hc H1 H2 b' HB'). }
    assert (Hby : exists by_, (if exclude_dataY flag then (t_by t, SNull)
             else if s_bir (y0 S) then (t_by t, SWalk) else (deform_batch_size (t_by t) n, SBatch))
           = (by_, wsel (exclude_dataY flag) (s_bir (y0 S))) /\
           ybuf oneB S fp tb (t_mini t) by_ /\
           (wsel (exclude_dataY flag) (s_bir (y0 S)) = SBatch -> batch_size by_ = n)).
    { unfold wsel. destruct (exclude_dataY flag); [exists (t_by t); split; [reflexivity|split; [exact I8|discriminate]]|].
      destruct (s_bir (y0 S)) eqn:Ebir; [exists (t_by t); split; [reflexivity|split; [exact I8|discriminate]]|].
      assert (Hc : t_mini t = true \/ s_bir (y0 S) = false /\ fp < biggest S) by (destruct Hneed; auto).
      destruct (I8 Hc) as (cap & HB & H1 & H2).
      destruct (deform_buf oneB _ _ _ _ _ n HB) as (b' & E & HB' & Sz); [specialize (H2 Ebir); unfold n in *; lia|].
      rewrite deform_nobias in E by apply HB. injection E as E.
      exists b'. rewrite E. split; [reflexivity|]. split; [|auto].
      intros _. exists cap. auto. }
    cbn [t_bx t_by with_walk].
    destruct Hbx as (bx & Ex & Hbx & Sbx). destruct Hby as (by_ & Ey & Hby & Sby).
    rewrite Ex. cbn [obind]. rewrite Ey. cbn [obind].
    destruct (Nat.ltb_spec 0 n); [|lia]. cbn [guard obind]. rewrite subsets_eq.
    eexists _, _, (Walking id n flag 0). split; [reflexivity|]. split; [split; reflexivity|].
    split; [|split; reflexivity].
    unfold InvW, in_phase. cbn [with_walk with_ptrs with_batches t_fp t_tb t_mini t_idx t_bx t_by t_walk t_px t_py t_cur].
    do 2 (split; [assumption|]). do 2 (split; [lia|]). split; [exact Hbx|]. split; [exact Hby|].
    split; [reflexivity|]. split; [exact Hid|]. split; [lia|].
    destruct (Nat.ltb_spec n (cnt S id)); [|lia]. split; [unfold n; lia|]. do 3 (split; [reflexivity|]).
    rewrite I1. split; intros Q; (split; [exact Hneed|]); auto.
  - cbn [obind]. destruct (Nat.ltb_spec 0 n); [|lia]. cbn [guard obind]. rewrite subsets_eq.
    eexists _, _, (Walking id n flag 0). split; [reflexivity|]. split; [split; reflexivity|].
    split; [|split; reflexivity].
    unfold InvW, in_phase. cbn [with_walk with_ptrs with_batches t_fp t_tb t_mini t_idx t_bx t_by t_walk t_px t_py t_cur].
    do 2 (split; [assumption|]). do 2 (split; [lia|]). split; [exact I7|]. split; [exact I8|].
    split; [reflexivity|]. split; [exact Hid|]. split; [lia|].
    destruct (Nat.ltb_spec n (cnt S id)); [lia|]. repeat split; reflexivity.
Qed.

Lemma walk_step S fp tb t ph id ibs bs flag :
  coherent oneA S -> Inv oneA oneB S fp tb t ph -> allowed S t fp tb ph (Walk id ibs bs flag) ->
  exists b t' ph', step oneA S t (Walk id ibs bs flag) = Some (b, t') /\
    spec_step oneA oneB S fp tb ph (Walk id ibs bs flag) b ph' /\ Inv oneA oneB S fp tb t' ph'.
Proof.
  intros HC HI Ha. destruct (walk_stepW S fp tb t ph id ibs bs flag HC (Inv_W _ _ _ _ _ HI) Ha) as (b & t' & ph' & E & Hs & HW & E1 & E2).
  exists b, t', ph'. split; [exact E|]. split; [exact Hs|]. exact (W_Inv _ _ _ _ _ _ _ HI HW E1 E2).
Qed.

Lemma xbuf_repl S fp tb mini b bir : xbuf oneA S fp tb mini b ->
  s_bir (x0 S) = bir -> (mini = true \/ (bir = false /\ fp < biggest S)) ->
  exists cap, buf oneA bir true (sample_size (x0 S)) cap b /\
    forall b', buf oneA bir true (sample_size (x0 S)) cap b' -> xbuf oneA S fp tb mini b'.
Proof.
  intros H <- Hc. destruct (proj1 H Hc) as (cap & HB & H1 & H2). exists cap. split; [exact HB|].
  intros b' HB'. apply (xbuf_upd oneA S fp tb mini b cap H Hc H1 H2 b' HB').
Qed.
Lemma ybuf_repl S fp tb mini b bir : ybuf oneB S fp tb mini b ->
  s_bir (y0 S) = bir -> (mini = true \/ (bir = false /\ fp < biggest S)) ->
  exists cap, buf oneB bir false (sample_size (y0 S)) cap b /\
    forall b', buf oneB bir false (sample_size (y0 S)) cap b' -> ybuf oneB S fp tb mini b'.
Proof.
  intros H <- Hc. destruct (H Hc) as (cap & HB & H1 & H2). exists cap. split; [exact HB|].
  intros b' HB' _. exists cap. auto.
Qed.

Lemma subset_pos N n k : 0 < n <= N -> k < subsets N n -> n * k < N /\ k <= N / n.
Proof.
  intros Hn Hk. unfold subsets in Hk. pose proof (Nat.div_mod N n). pose proof (Nat.mod_upper_bound N n).
  destruct (Nat.ltb_spec 1 (N mod n)); split; try lia.
  - assert (n * k <= n * (N / n)) by (apply Nat.mul_le_mono_l; lia). lia.
  - assert (n * (k + 1) <= n * (N / n)) by (apply Nat.mul_le_mono_l; lia). lia.
Qed.

Lemma next_size N n k : 0 < n <= N -> k + 1 <= N / n -> Nat.min n (N - n * k) = n.
Proof.
  intros Hn Hk. pose proof (Nat.mul_div_le N n).
  assert (n * (k + 1) <= n * (N / n)) by (apply Nat.mul_le_mono_l; lia). lia.
Qed.

Lemma excl_flag_x flag : exclude_dataX flag = (flag =? 1). Proof. reflexivity. Qed.
Lemma excl_flag_y flag : exclude_dataY flag = (flag =? 2). Proof. reflexivity. Qed.

Lemma subset_stepW S fp tb t ph im bi :
  coherent oneA S -> InvW S fp tb t ph -> allowed S t fp tb ph (Subset im bi) ->
  exists b t' ph', step oneA S t (Subset im bi) = Some (b, t') /\
    spec_step oneA oneB S fp tb ph (Subset im bi) b ph' /\ InvW S fp tb t' ph' /\ t_mini t' = t_mini t /\ t_idx t' = t_idx t.
Proof.
  intros HC HI Ha. destruct ph as [|n perm|id n flag k]; [contradiction|contradiction|].
  destruct Ha as ((Hp & HsA & HsB) & -> & Hbi).
  pose proof HI as (I1 & I2 & I4 & I5 & I7 & I8 & Hw & Hid & Hn & Hph).
  destruct (coherent_set oneA S id HC Hid) as (EX & EY & D & Bx & By & Sx & Sy & Hbig & Hpos & HyW).
  pose proof D as (Wx & Wy & Fx & Ox & Fy & HxW & Ecnt).
  destruct (subset_pos _ _ _ Hn Hbi) as [Hk Hk2].
  assert (Oy : biases_one oneB (set_y S id)) by (intros Q; congruence).
  unfold step, next_subset. destruct (Nat.ltb_spec n (cnt S id)) as [Hlt|Hge].
  - destruct Hph as (P0 & P1 & P2 & P3 & P4 & P5). rewrite P1.
    destruct (Z.ltb_spec 0 (Z.of_nat n)); [|lia]. rewrite Hw. cbn [obind]. rewrite EX, EY. cbn [obind].
    rewrite Nat2Z.id. change (batch_size (set_x S id)) with (cnt S id).
    destruct (Nat.ltb_spec (k * n) (cnt S id)); [|lia]. cbn [guard obind].
    (* y *)
    assert (HY : exists by1 by2 wy2,
      (if (cnt S id - k * n <? n) && match t_py t with SBatch => true | _ => false end
       then deform_batch_size (t_by t) (cnt S id - k * n) else t_by t) = by1 /\
      match t_py t with
      | SBatch => do by' <- run_kernel (im_schedB im) (extract_rows_seq (im_parts im) (k * n)) (set_y S id) by1; Some (by', t_wy t)
      | SWalk => do w <- view (set_y S id) (k * n) (sample_size (set_y S id))
                   (if cnt S id - k * n <? n then cnt S id - k * n else n) false; Some (by1, w)
      | _ => Some (by1, t_wy t)
      end = Some (by2, wy2) /\
      ybuf oneB S fp tb (t_mini t) by2 /\
      (t_py t = SBatch -> (k + 1 <= cnt S id / n -> batch_size by2 = n)) /\
      (if flag =? 2 then t_py t = SNull else exists b,
         match t_py t with SNull => None | SBatch => Some by2 | SWalk => Some wy2 | SSet id => Y S id end = Some b /\
         holds oneB b (set_y S id) (slice (seq 0 (cnt S id)) n k))).
    { rewrite P3. unfold wsel. rewrite excl_flag_y. destruct (flag =? 2) eqn:Ef.
      - rewrite andb_false_r. exists (t_by t), (t_by t), (t_wy t). split; [reflexivity|]. split; [reflexivity|].
        split; [exact I8|]. split; [discriminate|reflexivity].
      - unfold cnt in *. rewrite Ecnt in *. destruct (s_bir (y0 S)) eqn:Eb.
        + rewrite andb_false_r.
          destruct (subset_view oneB (set_y S id) false n k Wy) as (v & Ev & Hv); try assumption; try congruence; try lia.
          cbn [Nat.b2n] in Ev. rewrite Nat.add_0_r in Ev.
          exists (t_by t), (t_by t), v. split; [reflexivity|]. rewrite Ev. split; [reflexivity|].
          split; [exact I8|]. split; [discriminate|]. exists v. split; [reflexivity|exact Hv].
        + rewrite andb_true_r. rewrite excl_flag_y, Ef in P3. cbn [wsel] in P3. unfold wsel in P3.
          destruct (P5 P3) as [Hneed Hsz].
          destruct (ybuf_repl S fp tb (t_mini t) (t_by t) false I8 Eb) as (cap & HB & Hrep); [rewrite I1 in Hneed; tauto|].
          destruct (subset_buf oneB (im_schedB im) (im_parts im) (set_y S id) (t_by t) false (sample_size (y0 S)) cap n k)
            as (b1 & b2 & E1 & E2 & HB2 & S2 & Hh); try assumption; try congruence; try lia; auto.
          rewrite deform_nobias in E1 by apply HB.
          assert (E1' : (if batch_size (set_y S id) - k * n <? n then deform_batch_size (t_by t) (batch_size (set_y S id) - k * n) else t_by t) = b1).
          { destruct (batch_size (set_y S id) - k * n <? n); congruence. }
          rewrite E1'. exists b1, b2, (t_wy t). split; [reflexivity|]. rewrite E2. split; [reflexivity|].
          split; [apply Hrep; exact HB2|]. split; [intros _ Q; rewrite S2; apply next_size; assumption|].
          exists b2. split; [reflexivity|exact Hh]. }
    (* x *)
    assert (HX : exists bx1 bx2 wx2,
      (if (cnt S id - k * n <? n) && match t_px t with SBatch => true | _ => false end
       then deform_batch_size_with_biases oneA (t_bx t) (cnt S id - k * n) else Some (t_bx t)) = Some bx1 /\
      match t_px t with
      | SBatch => do bx' <- run_kernel (im_schedA im) (extract_rows_seq (im_parts im) (k * n)) (set_x S id) bx1; Some (bx', t_wx t)
      | SWalk => do w <- view (set_x S id) (k * n) (sample_size (set_x S id) + 1)
                   (if cnt S id - k * n <? n then cnt S id - k * n else n) true; Some (bx1, w)
      | _ => Some (bx1, t_wx t)
      end = Some (bx2, wx2) /\
      xbuf oneA S fp tb (t_mini t) bx2 /\
      (t_px t = SBatch -> (k + 1 <= cnt S id / n -> batch_size bx2 = n)) /\
      (if flag =? 1 then t_px t = SNull else exists b,
         match t_px t with SNull => None | SBatch => Some bx2 | SWalk => Some wx2 | SSet id => X S id end = Some b /\
         holds oneA b (set_x S id) (slice (seq 0 (cnt S id)) n k))).
    { rewrite P2. unfold wsel. rewrite excl_flag_x. destruct (flag =? 1) eqn:Ef.
      - rewrite andb_false_r. exists (t_bx t), (t_bx t), (t_wx t). split; [reflexivity|]. split; [reflexivity|].
        split; [exact I7|]. split; [discriminate|reflexivity].
      - unfold cnt in *. destruct (s_bir (x0 S)) eqn:Eb.
        + rewrite andb_false_r.
          destruct (subset_view oneA (set_x S id) true n k Wx) as (v & Ev & Hv); try assumption; try congruence; try lia.
          cbn [Nat.b2n] in Ev.
          exists (t_bx t), (t_bx t), v. split; [reflexivity|]. rewrite Ev. split; [reflexivity|].
          split; [exact I7|]. split; [discriminate|]. exists v. split; [reflexivity|exact Hv].
        + rewrite andb_true_r. rewrite excl_flag_x, Ef in P2. unfold wsel in P2.
          destruct (P4 P2) as [Hneed Hsz].
          destruct (xbuf_repl S fp tb (t_mini t) (t_bx t) false I7 Eb) as (cap & HB & Hrep); [rewrite I1 in Hneed; tauto|].
          destruct (subset_buf oneA (im_schedA im) (im_parts im) (set_x S id) (t_bx t) true (sample_size (x0 S)) cap n k)
            as (b1 & b2 & E1 & E2 & HB2 & S2 & Hh); try assumption; try congruence; try lia; auto.
          rewrite E1. exists b1, b2, (t_wx t). split; [reflexivity|]. rewrite E2. split; [reflexivity|].
          split; [apply Hrep; exact HB2|]. split; [intros _ Q; rewrite S2; apply next_size; assumption|].
          exists b2. split; [reflexivity|exact Hh]. }
    destruct HY as (by1 & by2 & wy2 & EY1 & EY2 & HYb & HYs & HYh).
    destruct HX as (bx1 & bx2 & wx2 & EX1 & EX2 & HXb & HXs & HXh).
    rewrite EX1. cbn [obind]. rewrite EY1, EY2. cbn [obind]. rewrite EX2. cbn [obind].
    eexists _, _, (Walking id n flag (k + 1)). split; [reflexivity|]. split.
    + split; [|reflexivity]. eexists _, _. split; [reflexivity|].
      unfold batchX, batchY. cbn [with_walks with_batches t_px t_py t_bx t_by t_wx t_wy].
      destruct (flag =? 1), (flag =? 2); rewrite ?HXh, ?HYh; auto.
    + split; [|split; reflexivity]. unfold InvW, in_phase. cbn [with_walks with_batches t_fp t_tb t_mini t_idx t_bx t_by t_walk t_px t_py t_cur].
      do 2 (split; [assumption|]). do 2 (split; [lia|]). split; [exact HXb|]. split; [exact HYb|].
      split; [exact Hw|]. split; [exact Hid|]. split; [lia|]. destruct (Nat.ltb_spec n (cnt S id)); [|lia].
      do 4 (split; [assumption|]). split; intros Q; (split; [first [exact (proj1 (P4 Q)) | exact (proj1 (P5 Q))]|]); auto.
  - destruct Hph as (P1 & P2 & P3). rewrite P1. cbn [Z.ltb Z.compare obind].
    assert (n = cnt S id) as En by lia.
    assert (k = 0) as ->.
    { unfold subsets in Hbi. rewrite En, Nat.div_same, Nat.mod_same in Hbi by lia. simpl in Hbi. lia. }
    eexists _, _, (Walking id n flag (0 + 1)). split; [reflexivity|]. split.
    + split; [|reflexivity]. eexists _, _. split; [reflexivity|]. unfold batchX, batchY. rewrite P2, P3.
      rewrite excl_flag_x, excl_flag_y.
      assert (Esl : slice (seq 0 (cnt S id)) n 0 = seq 0 (cnt S id)).
      { rewrite En, slice_seq, Nat.mul_0_r, Nat.sub_0_r, Nat.min_id. reflexivity. }
      rewrite Esl. split.
      * destruct (flag =? 1); [reflexivity|]. exists (set_x S id). split; [exact EX|]. apply holds_whole; assumption.
      * destruct (flag =? 2); [reflexivity|]. exists (set_y S id). split; [exact EY|]. unfold cnt. rewrite Ecnt.
        apply holds_whole; [assumption| |assumption]. lia.
    + split; [|split; reflexivity]. unfold InvW, in_phase. do 2 (split; [assumption|]). do 2 (split; [lia|]).
      split; [exact I7|]. split; [exact I8|]. split; [exact Hw|]. split; [exact Hid|]. split; [lia|].
      destruct (Nat.ltb_spec n (cnt S id)); [lia|]. auto.
Qed.

Lemma subset_step S fp tb t ph im bi :
  coherent oneA S -> Inv oneA oneB S fp tb t ph -> allowed S t fp tb ph (Subset im bi) ->
  exists b t' ph', step oneA S t (Subset im bi) = Some (b, t') /\
    spec_step oneA oneB S fp tb ph (Subset im bi) b ph' /\ Inv oneA oneB S fp tb t' ph'.
Proof.
  intros HC HI Ha. destruct (subset_stepW S fp tb t ph im bi HC (Inv_W _ _ _ _ _ HI) Ha) as (b & t' & ph' & E & Hs & HW & E1 & E2).
  exists b, t', ph'. split; [exact E|]. split; [exact Hs|]. exact (W_Inv _ _ _ _ _ _ _ HI HW E1 E2).
Qed.

(** ** Initialisation *)
Definition owned t : Prop := s_ext (t_bx t) = false /\ s_ext (t_by t) = false.

Lemma init_batches_ok mx my S t mi fp tb :
  coherent oneA S -> t_fp t = fp -> t_tb t = tb -> empty (t_bx t) = true -> s_ext (t_bx t) = false -> s_ext (t_by t) = false ->
  tb <= fp -> 0 < fp -> (t_mini t = true -> 0 < tb) -> mi = (fp <? biggest S) ->
  exists ok t', initBatches oneA oneB mx my S t mi = Some (ok, t') /\
    (ok = true -> exists bx by_, t' = with_batches t bx by_ /\
    xbuf oneA S fp tb (t_mini t) bx /\ ybuf oneB S fp tb (t_mini t) by_ /\
    empty bx = negb (t_mini t || (mi && negb (s_bir (x0 S))))) /\
    (ok = false -> mx = None \/ my = None).
Proof.
  intros HC Hfp Htb He Hx Hy Hle Hfp0 Htb0 Hmi.
  destruct (coherent_set oneA S 0 HC) as (_ & _ & D0 & _ & _ & _ & _ & _ & _ & HyW); [lia|].
  pose proof D0 as (_ & _ & _ & _ & _ & HxW & _). change (set_x S 0) with (x0 S) in HxW.
  unfold initBatches. rewrite Hfp, Htb.
  destruct (t_mini t || mi) eqn:Em.
  2: { apply orb_false_elim in Em. destruct Em as [Em1 Em2]. exists true, t. split; [reflexivity|]. split; [|discriminate].
       intros _. exists (t_bx t), (t_by t). split; [destruct t; reflexivity|]. rewrite Em2 in Hmi.
       symmetry in Hmi. apply Nat.ltb_ge in Hmi. rewrite Em1, Em2. split; [|split].
       - split; [intros [Q|[_ Q]]; [discriminate|lia]|intros Q; congruence].
       - intros [Q|[_ Q]]; [discriminate|lia].
       - exact He. }
  assert (HX : exists okx bx,
    (if t_mini t || negb (s_bir (x0 S) && mi)
     then d_resize_as_dataset oneA mx (with_bir (with_flag (t_bx t) true) (s_bir (x0 S)))
            (if s_bir (x0 S) && mi then tb else Nat.max tb fp) (xWidth S)
     else Some (true, t_bx t)) = Some (okx, bx) /\
    (okx = true -> xbuf oneA S fp tb (t_mini t) bx /\ empty bx = negb (t_mini t || (mi && negb (s_bir (x0 S))))) /\
    (okx = false -> mx = None)).
  { destruct (t_mini t || negb (s_bir (x0 S) && mi)) eqn:Ex.
    - destruct (resize_buf oneA mx (with_bir (with_flag (t_bx t) true) (s_bir (x0 S)))
        (if s_bir (x0 S) && mi then tb else Nat.max tb fp) (xWidth S)) as (ok & b & E & _ & H1 & H2).
      + exact Hx.
      + destruct (s_bir (x0 S) && mi) eqn:Q; [|lia]. apply Htb0. cbn [negb] in Ex. rewrite orb_false_r in Ex. exact Ex.
      + exact HxW.
      + rewrite E. exists ok, b. split; [reflexivity|]. split; [|intros Q; apply (H2 Q)].
        intros Q. destruct (H1 Q) as [HB _]. cbn [with_bir with_flag s_bir s_bias] in HB. split.
        * split.
          -- intros Hc. eexists. split; [exact HB|]. split; [intros _; destruct (s_bir (x0 S) && mi); lia|].
             intros Hb. rewrite Hb. cbn [andb]. lia.
          -- intros _. destruct (t_mini t); [auto|]. cbn [orb] in *. right. rewrite Em in *.
             rewrite andb_true_r in Ex. destruct (s_bir (x0 S)); [discriminate|]. split; [reflexivity|].
             symmetry in Hmi. apply Nat.ltb_lt in Hmi. exact Hmi.
        * rewrite (buf_empty _ _ _ _ _ _ HB). destruct (t_mini t); [reflexivity|]. cbn [orb] in *. rewrite Em in *.
          rewrite andb_true_r in Ex. rewrite Ex. reflexivity.
    - apply orb_false_elim in Ex. destruct Ex as [Ex1 Ex2]. apply negb_false_iff in Ex2. apply andb_prop in Ex2.
      destruct Ex2 as [Ex2 Ex3]. rewrite Ex1, Ex2, Ex3. exists true, (t_bx t). split; [reflexivity|].
      split; [|discriminate]. intros _. split; [|rewrite He; reflexivity].
      split; [intros [Q|[Q _]]; congruence|intros Q; congruence]. }
  assert (HY : exists oky by_,
    (if t_mini t || negb (s_bir (y0 S) && mi)
     then d_resize_as_dataset oneB my (with_bir (with_flag (t_by t) false) (s_bir (y0 S)))
            (if s_bir (y0 S) && mi then tb else Nat.max tb fp) (yWidth S)
     else Some (true, t_by t)) = Some (oky, by_) /\
    (oky = true -> ybuf oneB S fp tb (t_mini t) by_) /\
    (oky = false -> my = None)).
  { destruct (t_mini t || negb (s_bir (y0 S) && mi)) eqn:Ex.
    - destruct (resize_buf oneB my (with_bir (with_flag (t_by t) false) (s_bir (y0 S)))
        (if s_bir (y0 S) && mi then tb else Nat.max tb fp) (yWidth S)) as (ok & b & E & _ & H1 & H2).
      + exact Hy.
      + destruct (s_bir (y0 S) && mi) eqn:Q; [|lia]. apply Htb0. cbn [negb] in Ex. rewrite orb_false_r in Ex. exact Ex.
      + exact HyW.
      + rewrite E. exists ok, b. split; [reflexivity|]. split; [|intros Q; apply (H2 Q)].
        intros Q. destruct (H1 Q) as [HB _]. cbn [with_bir with_flag s_bir s_bias] in HB.
        intros Hc. eexists. split; [exact HB|]. split; [intros _; destruct (s_bir (y0 S) && mi); lia|].
        intros Hb. rewrite Hb. cbn [andb]. lia.
    - apply orb_false_elim in Ex. destruct Ex as [Ex1 Ex2]. apply negb_false_iff in Ex2. apply andb_prop in Ex2.
      destruct Ex2 as [Ex2 Ex3]. exists true, (t_by t). split; [reflexivity|].
      split; [|discriminate]. intros _ [Q|[Q _]]; congruence. }
  destruct HX as (okx & bx & EX & HX1 & HX2). destruct HY as (oky & by_ & EY & HY1 & HY2).
  rewrite EX. cbn [obind]. destruct okx; cbn [negb].
  - rewrite EY. cbn [obind]. destruct oky; cbn [negb].
    + eexists true, _. split; [reflexivity|]. split; [|discriminate]. intros _. exists bx, by_.
      split; [reflexivity|]. destruct (HX1 eq_refl). auto.
    + eexists false, _. split; [reflexivity|]. split; [discriminate|]. auto.
  - eexists false, _. split; [reflexivity|]. split; [discriminate|]. auto.
Qed.
End R.
