(** Properties of the utility classes: C50 (epoch conditions), C55 (confusion
    matrix), C80 (scores), C81 (black and white lists), C82 (batch size options). *)
From Verif Require Import Base BaseLemmas Util_Model Util_Spec Util_Proofs Util_Proofs2.
From Coq Require Import Reals Lra.
Local Open Scope Z_scope.

(** ** C50.  The constructors of vector_conditions: with a start >= 1 every access is
    inside, and the answer for epoch [e] (from 0) is true exactly when [e + 1] is one of
    start, start + stride, ... or [e] is the last epoch. *)
Theorem C50_stride_partial : forall maxEpoch startsAt stride,
  1 <= maxEpoch -> 1 <= startsAt -> 1 <= stride ->
  exists v, vc_ctor_start maxEpoch startsAt stride = Some v /\
    Z.of_nat (length v) = maxEpoch /\
    forall e, 0 <= e < maxEpoch ->
      exists b, vc_ask v e = Some b /\
        (b = true <-> selected startsAt maxEpoch stride e \/ e = maxEpoch - 1).
Proof. exact vc_ctor_start_ok. Qed.
Print Assumptions C50_stride_partial.

(** The constructor without a start. *)
Theorem C50_every : forall maxEpoch stride, 1 <= maxEpoch -> 1 <= stride ->
  exists v, vc_ctor_stride maxEpoch stride = Some v /\
    Z.of_nat (length v) = maxEpoch /\
    forall e, 0 <= e < maxEpoch ->
      exists b, vc_ask v e = Some b /\
        (b = true <-> (e + 1) mod stride = 0 \/ e = maxEpoch - 1).
Proof.
  intros n s Hn Hs. destruct (vc_ctor_start_ok n s s Hn Hs Hs) as [v [V1 [V2 V3]]].
  exists v; split; [exact V1|split; [exact V2|]]. intros e He.
  destruct (V3 e He) as [b [B1 B2]]. exists b; split; [exact B1|]. rewrite B2.
  rewrite selected_mod by exact Hs.
  assert (Q : (s - 1 <= e < n /\ (e - (s - 1)) mod s = 0) <-> (e + 1) mod s = 0).
  { replace (e - (s - 1)) with (e + 1 + (-1) * s) by lia.
    rewrite Z.mod_add by lia. split; [tauto|]. intros M. split; [|exact M].
    apply Z.mod_divide in M as [k K]; [|lia].
    assert (1 <= k) by nia. assert (1 * s <= k * s) by (apply Z.mul_le_mono_nonneg_r; lia). lia. }
  tauto.
Qed.
Print Assumptions C50_every.

Theorem C50_default : forall maxEpoch d, 1 <= maxEpoch ->
  exists v, vc_ctor_def maxEpoch d = Some v /\ Z.of_nat (length v) = maxEpoch /\
    forall e, 0 <= e < maxEpoch -> vc_ask v e = Some (if e =? maxEpoch - 1 then true else d).
Proof. exact vc_ctor_def_ok. Qed.
Print Assumptions C50_default.

Example C50_example : 
  vc_ctor_start 10 2 3 =
    Some [false; true; false; false; true; false; false; true; false; true].
Proof. reflexivity. Qed.

(** A start of 0 passes the constructor's check (startsAt <= maxEpoch) and writes in
    front of the vector. *)
Theorem C50_start0 : forall maxEpoch stride, 1 <= maxEpoch -> 1 <= stride ->
  vc_ctor_start maxEpoch 0 stride = None.
Proof. exact vc_ctor_start_0. Qed.
Print Assumptions C50_start0.

Theorem C50_start0_refuted : exists maxEpoch stride, 1 <= maxEpoch /\ 1 <= stride /\
  vc_ctor_start maxEpoch 0 stride = None.
Proof. exists 10, 5. repeat split; lia || reflexivity. Qed.
Print Assumptions C50_start0_refuted.

(** epochs_props writes behind the vector exactly when the stride divides the distance
    from the start to maxEpoch. *)
Theorem C50_epochs_props_partial : forall maxEpoch startsAt stride,
  1 <= maxEpoch -> 0 <= startsAt <= maxEpoch -> 1 <= stride ->
  ((exists v, ep_ctor_start maxEpoch startsAt stride = Some v) <->
   (maxEpoch - startsAt) mod stride <> 0) /\
  forall v, ep_ctor_start maxEpoch startsAt stride = Some v ->
    forall e, 0 <= e < maxEpoch ->
      (vc_ask v e = Some true <-> selected (startsAt + 1) maxEpoch stride e).
Proof.
  intros n st s Hn Hst Hs. split; [exact (ep_ctor_iff n st s Hn Hst Hs)|].
  intros v H. exact (ep_ctor_ok n st s v Hn Hst Hs H).
Qed.
Print Assumptions C50_epochs_props_partial.

Theorem C50_epochs_props_refuted : exists maxEpoch stride,
  1 <= maxEpoch /\ 1 <= stride /\ ep_ctor_stride maxEpoch stride = None.
Proof. exists 10, 5. repeat split; lia || reflexivity. Qed.
Print Assumptions C50_epochs_props_refuted.

Example C50_epochs_props_example :
  ep_ctor_stride 10 4 =
    Some [true; false; false; false; true; false; false; false; true; false].
Proof. reflexivity. Qed.

(** Every history of verbose/silence/resize/clear calls whose indices are inside of the
    vector acts as on a map from epochs to booleans; a call with an index outside
    touches other memory. *)
Theorem C50_history : forall ops v n f n' f',
  holds v n f -> ops_inside n ops -> ops_effect n f ops n' f' ->
  exists v', vc_run ops v = Some v' /\
    forall e, (0 <= e < n' -> vc_ask v' e = Some (f' e)) /\
              (~ 0 <= e < n' -> vc_ask v' e = None).
Proof.
  intros ops v n f n' f' H I E. destruct (vc_run_any ops v n f n' f' H I E) as [v' [R H']].
  exists v'; split; [exact R|]. exact (holds_ask v' n' f' H').
Qed.
Print Assumptions C50_history.

Theorem C50_history_defined : forall ops v n f, holds v n f -> ops_inside n ops ->
  exists v' n' f', vc_run ops v = Some v' /\ ops_effect n f ops n' f'.
Proof.
  intros ops v n f H I. destruct (vc_run_ok ops v n f H I) as [v' [n' [f' [A [_ B]]]]].
  exists v', n', f'; split; assumption.
Qed.
Print Assumptions C50_history_defined.

Theorem C50_outside : forall o v n f, holds v n f ->
  (forall b e s, o = OVerboseR b e s \/ o = OSilenceR b e s -> 1 <= s) ->
  (forall m d, o = OResize m d -> 0 <= m) ->
  ~ op_inside n o -> vc_do o v = None.
Proof.
  intros o v n f H A B N. destruct (vc_do o v) as [v'|] eqn:E; [|reflexivity].
  exfalso. exact (N (vc_do_inside o v n f v' H A B E)).
Qed.
Print Assumptions C50_outside.

Example C50_history_example :
  ops_inside 4 [OSilenceR 1 4 1; OVerbose 2; OResize 6 true] /\
  vc_run [OSilenceR 1 4 1; OVerbose 2; OResize 6 true] [true; true; true; true]
    = Some [false; false; true; false; true; true].
Proof.
  split; [|reflexivity]. split; [|split; [|split; [|exact I]]]; cbn [op_inside op_size]; try lia.
  split; [lia|]. intros x [k [K1 [K2 K3]]]. lia.
Qed.

(** ** C55.  After clear() (the constructor initialises nothing) every sequence of less
    than 2^31 updates leaves in each cell the number of its pairs. *)
Theorem C55_counts : forall m l, length m = 4%nat -> Z.of_nat (length l) < 2 ^ 31 ->
  exists m', cm_updates l (cm_clear m) = Some m' /\ counts m' l /\
    cm_All m' = Some (Z.of_nat (length l)).
Proof.
  intros m l Hm Hl. destruct (cm_session_ok m l Hm Hl) as [m' [U C]].
  exists m'; split; [exact U|split; [exact C|]].
  apply counts_of in C. rewrite C. pose proof (occ_total l).
  rewrite cm_All_of by (try apply occ_nonneg; lia). f_equal; lia.
Qed.
Print Assumptions C55_counts.

(** Merging the matrices of the threads equals counting all pairs in one matrix. *)
Theorem C55_reduce : forall ms ls m0 m1,
  Forall2 (fun m l => cm_updates l (cm_clear m0) = Some m) ms ls ->
  length m0 = 4%nat -> length m1 = 4%nat -> ms <> [] -> Z.of_nat (length (concat ls)) < 2 ^ 31 ->
  exists m, cm_reduce ms = Some m /\ cm_updates (concat ls) (cm_clear m1) = Some m.
Proof.
  intros ms ls m0 m1 F H0 H1 N HL.
  assert (F' : Forall2 counts ms ls).
  { clear N. induction F as [|m l ms ls C F IH]; constructor.
    - cbn [concat] in HL. rewrite app_length in HL.
      destruct (cm_session_ok m0 l H0 ltac:(lia)) as [m' [U Q]]. congruence.
    - apply IH. cbn [concat] in HL. rewrite app_length in HL. lia. }
  destruct (cm_reduce_ok ms ls F' N HL) as [m [R C]].
  exists m; split; [exact R|].
  destruct (cm_session_ok m1 (concat ls) H1 HL) as [m' [U C']].
  apply counts_of in C, C'. congruence.
Qed.
Print Assumptions C55_reduce.

(** Without clear() the first update reads an indeterminate value. *)
Theorem C55_no_clear : forall t p, cm_update t p cm_ctor = None.
Proof. intros [|] [|]; reflexivity. Qed.
Print Assumptions C55_no_clear.

Example C55_example :
  cm_updates [(true, true); (true, false); (false, false); (true, true); (false, true)]
             (cm_clear cm_ctor)
    = Some [Some 1; Some 1; Some 1; Some 2]
  /\ cm_reduce [[Some 1; Some 0; Some 1; Some 1]; [Some 0; Some 1; Some 0; Some 1]]
     = Some [Some 1; Some 1; Some 1; Some 2].
Proof. split; reflexivity. Qed.

(** ** C80.  The scores of a matrix with counters tp, fn, fp, tn (sum below 2^31). *)
Theorem C80_scores : forall m tp fn fp tn, shows m tp fn fp tn ->
  0 <= tp -> 0 <= fn -> 0 <= fp -> 0 <= tn -> tp + fn + fp + tn < 2 ^ 31 ->
  (0 < tp + fn -> cm_Sensitivity m = Some (IZR tp / IZR (tp + fn))%R) /\
  (0 < tn + fp -> cm_Specificity m = Some (IZR tn / IZR (tn + fp))%R) /\
  (0 < tp + fp -> cm_Precision m = Some (IZR tp / IZR (tp + fp))%R) /\
  (0 < tn + fn -> cm_NPV m = Some (IZR tn / IZR (tn + fn))%R) /\
  (0 < tp + fn + fp + tn -> cm_Accuracy m = Some (IZR (tp + tn) / IZR (tp + fn + fp + tn))%R) /\
  (0 < tp + fn + fp -> cm_Jaccard m = Some (IZR tp / IZR (tp + fn + fp))%R) /\
  (0 < tp + fn -> 0 < tn + fp ->
     cm_Informedness m = Some (IZR tp / IZR (tp + fn) + IZR tn / IZR (tn + fp) - 1)%R) /\
  (0 < tp + fp -> 0 < tn + fn ->
     cm_Markedness m = Some (IZR tp / IZR (tp + fp) + IZR tn / IZR (tn + fn) - 1)%R) /\
  (0 < tp -> 2 * tp + fp + fn < 2 ^ 31 ->
     exists p r f, cm_Precision m = Some p /\ cm_Sensitivity m = Some r /\ cm_F1 m = Some f /\
       f = (2 / (1 / p + 1 / r))%R).
Proof.
  intros m tp fn fp tn S H1 H2 H3 H4 HT.
  split; [exact (sens_ok tp fn fp tn m S H1 H2 H3 H4 HT)|].
  split; [exact (spec_ok tp fn fp tn m S H1 H2 H3 H4 HT)|].
  split; [exact (prec_ok tp fn fp tn m S H1 H2 H3 H4 HT)|].
  split; [exact (npv_ok tp fn fp tn m S H1 H2 H3 H4 HT)|].
  split; [exact (acc_ok tp fn fp tn m S H1 H2 H3 H4 HT)|].
  split; [exact (jac_ok tp fn fp tn m S H1 H2 H3 H4 HT)|].
  split.
  { intros A B. unfold cm_Informedness.
    rewrite (sens_ok tp fn fp tn m S H1 H2 H3 H4 HT A), (spec_ok tp fn fp tn m S H1 H2 H3 H4 HT B).
    reflexivity. }
  split.
  { intros A B. unfold cm_Markedness.
    rewrite (prec_ok tp fn fp tn m S H1 H2 H3 H4 HT A), (npv_ok tp fn fp tn m S H1 H2 H3 H4 HT B).
    reflexivity. }
  exact (f1_ok tp fn fp tn m S H1 H2 H3 H4 HT).
Qed.
Print Assumptions C80_scores.

(** The Matthews correlation coefficient, while the product of the four marginal sums
    is below 2^31, is the defined one and lies in [-1, 1]. *)
Theorem C80_mcc_partial : forall m tp fn fp tn, shows m tp fn fp tn ->
  0 <= tp -> 0 <= fn -> 0 <= fp -> 0 <= tn -> tp + fn + fp + tn < 2 ^ 31 ->
  let den := (tp + fp) * (tp + fn) * (tn + fp) * (tn + fn) in
  (0 < den < 2 ^ 31 ->
     exists r, cm_MCC m = Some r /\ (-1 <= r <= 1)%R /\
       (r = IZR (tp * tn - fp * fn) / sqrt (IZR den))%R) /\
  (den = 0 -> tp + fn + fp + tn <= 1290 -> cm_MCC m = Some 0%R) /\
  (2 ^ 31 <= den -> cm_MCC m = None).
Proof.
  intros m tp fn fp tn S H1 H2 H3 H4 HT den. split; [|split].
  - intros [D1 D2]. eexists; split; [|split].
    + destruct (mcc_ok tp fn fp tn m S H1 H2 H3 H4 HT D2) as [E|[E _]].
      * rewrite E. unfold mcc_den. fold den. destruct (Z.eqb_spec den 0); [lia|]. reflexivity.
      * unfold mcc_den in E; fold den in E; lia.
    + exact (mcc_range tp fn fp tn H1 H2 H3 H4 D1).
    + reflexivity.
  - exact (mcc_zero tp fn fp tn m S H1 H2 H3 H4).
  - exact (mcc_overflow tp fn fp tn m S H1 H2 H3 H4 HT).
Qed.
Print Assumptions C80_mcc_partial.

(** From 216 samples per row and column on it overflows (432 balanced samples are
    enough), whatever the classifier does. *)
Theorem C80_mcc_overflow : forall m tp fn fp tn, shows m tp fn fp tn ->
  0 <= tp -> 0 <= fn -> 0 <= fp -> 0 <= tn -> tp + fn + fp + tn < 2 ^ 31 ->
  216 <= tp + fp -> 216 <= tp + fn -> 216 <= tn + fp -> 216 <= tn + fn ->
  cm_MCC m = None.
Proof. intros m tp fn fp tn S H1 H2 H3 H4 HT. exact (mcc_marginals tp fn fp tn m S H1 H2 H3 H4 HT). Qed.
Print Assumptions C80_mcc_overflow.

Theorem C80_mcc_refuted : exists m l, Z.of_nat (length l) = 432 /\
  cm_updates l (cm_clear cm_ctor) = Some m /\ shows m 200 16 16 200 /\ cm_MCC m = None.
Proof.
  exists [Some 200; Some 16; Some 16; Some 200].
  exists (repeat (true, true) 200 ++ repeat (true, false) 16 ++ repeat (false, true) 16
          ++ repeat (false, false) 200).
  split; [vm_compute; reflexivity|]. split; [vm_compute; reflexivity|].
  split; [repeat split|]. vm_compute. reflexivity.
Qed.
Print Assumptions C80_mcc_refuted.

Example C80_example2 : exists r, cm_MCC [Some 5; Some 1; Some 2; Some 4] = Some r /\ (0 < r)%R.
Proof.
  destruct (C80_mcc_partial [Some 5; Some 1; Some 2; Some 4] 4 1 2 5) as [A _]; try lia.
  { repeat split. }
  destruct A as [r [R1 [R2 R3]]]; [lia|].
  exists r; split; [exact R1|]. rewrite R3.
  apply Rdiv_lt_0_compat; [apply IZR_lt; lia|]. apply sqrt_lt_R0. apply IZR_lt; lia.
Qed.

(** ** C81.  After any sequence of calls that build the list, a network session of
    layers with distinct indices allows, in the white list mode, exactly the listed
    layers (by index or type) and, in the black list mode, exactly the others. *)
Theorem C81_lists : forall white ops total ls,
  let l := fold_left list_op ops (mkL white [] []) in
  0 <= total ->
  (forall i ty, In (i, ty) ls -> 0 <= i < total) ->
  NoDup (map fst ls) ->
  exists w, bw_session total ls (fold_left (fun w o => bw_do o w) ops (bw_ctor white)) = Some w /\
    forall i ty, In (i, ty) ls ->
      exists b, bw_allowed w i = Some b /\
        (b = true <-> (if l_white l then listed l i ty else ~ listed l i ty)).
Proof. exact bw_session_ok. Qed.
Print Assumptions C81_lists.

Example C81_example :
  option_map bw_cond
    (bw_session 4 [(0, 7); (1, 8); (2, 7); (3, 9)]
      (fold_left (fun w o => bw_do o w) [BListType false 9; BListType true 8; BListIdx true 3]
         (bw_ctor false)))
  = Some [false; true; false; true].
Proof. reflexivity. Qed.

(** ** C82.  Whatever sequence of batchSize / maxFpropSize calls is accepted, both sizes
    are non-negative and a limit on the forward batch is never below the batch size. *)
Theorem C82_sizes : forall ps o, to_run ps to_ctor = Some o ->
  0 <= to_batch o /\ 0 <= to_fprop o /\ (to_fprop o = 0 \/ to_batch o <= to_fprop o).
Proof.
  intros ps o H. apply (to_run_inv ps to_ctor o H); cbn; lia.
Qed.
Print Assumptions C82_sizes.

(** A pair of sizes 0 < batch <= fprop is always accepted from the constructor on when the
    batch size is set first, and the other order terminates the process. *)
Theorem C82_order : forall b f, 0 < b <= f ->
  to_run [TBatch b; TFprop f] to_ctor = Some (mkTo b f) /\
  to_run [TFprop f; TBatch b] to_ctor = None.
Proof.
  intros b f H. cbn [to_run to_do]. unfold to_setBatch, to_setFprop, to_ctor; cbn [to_batch to_fprop].
  replace ((b <? 0) || negb (0 =? 0) && (b >? 0)) with false by lia.
  cbn [obind to_batch to_fprop].
  replace ((f <? 0) || (f >? 0) && (0 =? b) || (f >? 0) && (f <? b)) with false by lia.
  replace ((f <? 0) || (f >? 0) && (0 =? 0) || (f >? 0) && (f <? 0)) with true by lia.
  split; reflexivity.
Qed.
Print Assumptions C82_order.

(** The rule "a limit needs a non-zero batch size" is only checked by one setter: full
    batch mode can be restored afterwards. *)
Theorem C82_full_batch_with_limit : exists ps o, to_run ps to_ctor = Some o /\
  to_batch o = 0 /\ 0 < to_fprop o.
Proof. exists [TBatch 5; TFprop 10; TBatch 0], (mkTo 0 10). repeat split. Qed.
Print Assumptions C82_full_batch_with_limit.

Example C82_example : to_run [TBatch 5; TFprop 10; TBatch 7; TBatch 10] to_ctor = Some (mkTo 10 10)
  /\ to_run [TBatch 5; TFprop 10; TBatch 11] to_ctor = None.
Proof. split; reflexivity. Qed.
