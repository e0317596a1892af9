(** Proofs about the thread pool model, continued: steps of the calling thread,
    reachable states, progress and termination. *)
From Coq Require Import Permutation.
From Verif Require Import Base BaseLemmas Workers_Model Workers_Spec Workers_Proofs.

Lemma zip_nth_asg j W ws rs' working :
  length rs' = length ws ->
  working <= W -> length ws = W ->
  map r_tid rs' = map r_tid (map w_rng ws) ->
  (forall i w, nth_error ws i = Some w -> r_tid (w_rng w) = i + 1) ->
  (forall k r, nth_error rs' k = Some r ->
     r_cnt r = if working <=? k then 0
               else j_cnt j / (working + 1) + (if k <? j_cnt j mod (working + 1) then 1 else 0)) ->
  0 < j_cnt j / (working + 1) ->
  (forall i w, nth_error (zip_ranges ws rs') i = Some w ->
     r_tid (w_rng w) = i + 1 /\
     (r_cnt (w_rng w) <> 0 -> w_asg w = [w_rng w]) /\
     (if i <? working then exists r, w_asg w = [r] /\ r_tid r = i + 1 else w_asg w = [])) /\
  flat_map idxs (asg_all (zip_ranges ws rs')) = flat_map idxs rs' /\
  sum_of owes (zip_ranges ws rs') = working + 
     sum_of (fun w => match w_pc w with WDec => 1 | _ => 0 end) (skipn working ws).
Proof.
  intros HL HkW HW Htid Hwt Hcnt Hq.
  assert (forall i w, nth_error (zip_ranges ws rs') i = Some w ->
     exists w0 r, nth_error ws i = Some w0 /\ nth_error rs' i = Some r /\ w = give_range w0 r
        /\ r_tid r = i + 1) as Hz.
  { intros i w Hi. destruct (zip_ranges_nth _ _ _ _ (eq_sym HL) Hi) as (w0 & r & A & B & C).
    exists w0, r. repeat split; auto.
    assert (nth_error (map r_tid rs') i = Some (r_tid r)) as E1 by (apply map_nth_error; exact B).
    rewrite Htid, map_map in E1.
    rewrite (map_nth_error (fun x => r_tid (w_rng x)) _ _ A) in E1. injection E1 as <-. auto. }
  split; [|split].
  - intros i w Hi. destruct (Hz i w Hi) as (w0 & r & A & B & -> & Ht). simpl.
    specialize (Hcnt i r B).
    split; [exact Ht|]. split.
    + intros Hn. destruct (Nat.eqb_spec (r_cnt r) 0); [contradiction|reflexivity].
    + destruct (Nat.leb_spec working i) as [Hle|Hlt]; destruct (Nat.ltb_spec i working); try lia.
      * rewrite Hcnt. reflexivity.
      * destruct (Nat.eqb_spec (r_cnt r) 0) as [E|E]; [lia|]. exists r. auto.
  - clear -HL. revert rs' HL. induction ws as [|w ws IH]; intros [|r rs] HL; simpl in *; auto; try discriminate.
    unfold asg_all in *. simpl. rewrite flat_map_app, IH by lia. f_equal.
    destruct (Nat.eqb_spec (r_cnt r) 0) as [E|E]; simpl.
    + unfold idxs. rewrite E. reflexivity.
    + apply app_nil_r.
  - clear -HL HW HkW Hcnt Hq. subst W.
    assert (forall ws rs base, length rs = length ws -> working <= base + length ws ->
      (forall k r, nth_error rs k = Some r -> r_cnt r = if working <=? base + k then 0
         else j_cnt j / (working + 1) + (if base + k <? j_cnt j mod (working + 1) then 1 else 0)) ->
      sum_of owes (zip_ranges ws rs) = (working - base) +
        sum_of (fun w => match w_pc w with WDec => 1 | _ => 0 end) (skipn (working - base) ws)) as G.
    { clear -Hq. induction ws as [|w ws IH]; intros [|r rs] base HL Hk Hc; simpl in *; try discriminate.
      - replace (working - base) with 0 by lia. reflexivity.
      - rewrite sum_of_cons. rewrite (IH rs (S base)); [|lia|lia|].
        2:{ intros k x Hx. specialize (Hc (S k) x Hx). rewrite Nat.add_succ_r in Hc. exact Hc. }
        specialize (Hc 0 r eq_refl). rewrite Nat.add_0_r in Hc.
        destruct (Nat.leb_spec working base) as [Hle|Hlt].
        + replace (working - base) with 0 by lia. replace (working - S base) with 0 by lia.
          simpl. rewrite sum_of_cons. unfold owes, give_range; simpl. rewrite Hc. simpl. reflexivity.
        + replace (working - base) with (S (working - S base)) by lia. simpl.
          unfold owes at 1, give_range; simpl.
          destruct (Nat.eqb_spec (r_cnt r) 0); [lia|]. simpl. lia. }
    specialize (G ws rs' 0). rewrite Nat.sub_0_r in G. apply G; [exact HL|lia|exact Hcnt].
Qed.

Lemma quiet_worker W s i w :
  Inv W s -> m_active (s_mpc s) = false -> nth_error (s_workers s) i = Some w ->
  r_cnt (w_rng w) = 0 /\ exec_pc (w_pc w) = false /\ w_pc w <> WDec.
Proof.
  intros HI Hq Hi. pose proof (I_quiet _ _ HI Hq) as Hz. rewrite sum_of_zero in Hz.
  specialize (Hz i w Hi). pose proof (I_w _ _ HI i w Hi) as (_ & Hw & _). unfold owes in Hz.
  destruct (Nat.eqb_spec (r_cnt (w_rng w)) 0) as [E|E]; [|discriminate]. simpl in Hz.
  split; [exact E|]. split.
  - destruct (w_pc w); simpl; auto; try (exfalso; apply Hw; exact E).
  - intros Ep. rewrite Ep in Hz. discriminate.
Qed.

Lemma wake_worker_facts w :
  w_rng (wake_worker w) = w_rng w /\ w_asg (wake_worker w) = w_asg w /\
  owes (wake_worker w) = owes w /\ is_notify (wake_worker w) = is_notify w /\
  w_begun (wake_worker w) = w_begun w /\ w_ended (wake_worker w) = w_ended w /\
  w_holds (w_pc (wake_worker w)) = w_holds (w_pc w).
Proof.
  unfold wake_worker, owes, is_notify, w_begun, w_ended.
  destruct (w_pc w) eqn:E; simpl; rewrite ?E; repeat split; reflexivity.
Qed.

Lemma sum_of_map {A B} (f : B -> nat) (g : A -> B) l : sum_of f (map g l) = sum_of (fun x => f (g x)) l.
Proof. unfold sum_of. rewrite map_map. reflexivity. Qed.

Lemma flat_map_map {A B C} (f : B -> list C) (g : A -> B) l :
  flat_map f (map g l) = flat_map (fun x => f (g x)) l.
Proof. induction l as [|x l IH]; simpl; congruence. Qed.

Lemma no_shared_wake ws : no_shared (map wake_worker ws) = no_shared ws.
Proof.
  unfold no_shared. induction ws as [|w ws IH]; [reflexivity|]. simpl. rewrite IH.
  destruct (wake_worker_facts w) as (_ & _ & _ & _ & _ & _ & ->). reflexivity.
Qed.

Lemma nth_error_map_inv {A B} (f : A -> B) l i y :
  nth_error (map f l) i = Some y -> exists x, nth_error l i = Some x /\ y = f x.
Proof.
  revert i. induction l as [|x l IH]; intros [|i] H; simpl in *; try discriminate.
  - injection H as <-. eauto.
  - eauto.
Qed.

(** waking all sleepers *)
Lemma wake_all_inv W s m' :
  Inv W s ->
  m_active m' = m_active (s_mpc s) ->
  (m_holds m' = true -> m_holds (s_mpc s) = true) ->
  m_stopping m' = m_stopping (s_mpc s) ->
  m_begun m' = m_begun (s_mpc s) -> m_ended m' = m_ended (s_mpc s) ->
  m_ofs m' = m_ofs (s_mpc s) ->
  m' <> MSleep -> m' <> MPreSleep -> m' <> MWaitUnlock -> m' <> MSubmit ->
  Inv W (set_mpc (set_workers s (map wake_worker (s_workers s))) m').
Proof.
  intros HI Ha Hh Hs Hb He Ho N1 N2 N3 N4. destruct HI.
  assert (sum_of owes (map wake_worker (s_workers s)) = sum_of owes (s_workers s)) as So.
  { rewrite sum_of_map. apply sum_of_ext. intros w _. apply wake_worker_facts. }
  constructor; simpl; auto.
  - rewrite map_length. exact I_len.
  - intros i y Hy. apply nth_error_map_inv in Hy. destruct Hy as (w & Hi & ->).
    specialize (I_w i w Hi). unfold winv in *. unfold wake_worker.
    destruct (w_pc w) eqn:E; simpl; rewrite ?E; try exact I_w.
    destruct I_w as (A & B & C). auto.
  - rewrite So. exact I_cnt.
  - rewrite Ha, So. auto.
  - intros H. rewrite no_shared_wake. auto.
  - intros; contradiction.
  - intros; contradiction.
  - intros; contradiction.
  - congruence.
  - intros [H|H]; [|contradiction]. apply I_nodirect. left. congruence.
  - rewrite Ha, Hb, He, Ho. intros H. destruct (I_pub H) as (P1 & P2 & o & [P3 P3'] & P4 & P5 & P6 & P7).
    split; [exact P1|]. split; [exact P2|]. exists o.
    assert (forall {C} (f : worker -> list C), (forall w, f (wake_worker w) = f w) ->
       flat_map f (map wake_worker (s_workers s)) = flat_map f (s_workers s)) as Fm.
    { intros C f Hf. rewrite flat_map_map. apply flat_map_ext. exact Hf. }
    split; [|split; [exact P4|]; split; [|split]].
    + split.
      * unfold asg_all. rewrite Fm by (intros w; apply wake_worker_facts). exact P3.
      * intros i y Hy. apply nth_error_map_inv in Hy. destruct Hy as (w & Hi & ->).
        specialize (P3' i w Hi). destruct (wake_worker_facts w) as (_ & -> & _). exact P3'.
    + rewrite Fm; [exact P5|]. intros w. unfold begun_of.
      destruct (wake_worker_facts w) as (_ & -> & _ & _ & -> & _). reflexivity.
    + rewrite Fm; [exact P6|]. intros w. unfold ended_of.
      destruct (wake_worker_facts w) as (_ & -> & _ & _ & _ & -> & _). reflexivity.
    + intros Hk. destruct (P7 Hk) as [P8 P9]. split; [exact P8|].
      intros i y r Hy. apply nth_error_map_inv in Hy. destruct Hy as (w & Hi & ->).
      destruct (wake_worker_facts w) as (_ & -> & _ & _ & _ & -> & _). apply P9. exact Hi.
Qed.

(** [set_mpc] only *)
Lemma set_mpc_inv W s m' :
  Inv W s ->
  (forall o, s_mpc s <> MNotify o) ->
  m_active m' = m_active (s_mpc s) ->
  (m_holds m' = true -> no_shared (s_workers s) = true) ->
  m_stopping m' = m_stopping (s_mpc s) ->
  m_begun m' = m_begun (s_mpc s) -> m_ended m' = m_ended (s_mpc s) ->
  (forall o, m_ofs m' = Some o -> m_ofs (s_mpc s) = Some o) ->
  (m' = MSleep -> 0 < sum_of owes (s_workers s)) ->
  (m' = MPreSleep -> 0 < sum_of owes (s_workers s)) ->
  (m' = MWaitUnlock -> sum_of owes (s_workers s) = 0) ->
  m' <> MSubmit ->
  Inv W (set_mpc s m').
Proof.
  intros HI Hn Ha Hh Hs Hb He Ho N1 N2 N3 N4. destruct HI.
  constructor; simpl; auto.
  - intros i w Hi. eapply winv_wake; eauto.
  - rewrite Ha. auto.
  - congruence.
  - intros [H|H]; [|contradiction]. apply I_nodirect. left. congruence.
  - rewrite Ha, Hb, He. intros H. destruct (I_pub H) as (P1 & P2 & o & P3 & P4 & P5).
    split; [exact P1|]. split; [exact P2|]. exists o. split; [exact P3|]. split; [|exact P5].
    intros o' Ho'. auto.
Qed.

(** Return to idle. *)
Lemma to_idle_inv W s l m' :
  Inv W s -> sum_of owes (s_workers s) = 0 -> (forall o, s_mpc s <> MNotify o) ->
  s_bstop s = m_stopping m' -> m_active m' = false -> m_holds m' = false -> m' <> MSubmit ->
  Inv W (mkS m' (s_mjob s) (s_pub s) (s_wcnt s) (s_nred s) (s_workers s) (s_cache s)
           (s_bstop s) (s_todo s) (s_nxt s) l).
Proof.
  intros HI Hz Hn Hb Ha Hh Hns. destruct HI. constructor; simpl; auto; try congruence.
  - intros i w Hi. eapply winv_wake; eauto.
  - intros ->. discriminate.
  - intros ->. discriminate.
  - intros [H|H]; congruence.
Qed.

Lemma step_main_inv W jobs s s' :
  Inv W s -> Hist jobs s -> step_main s = Some s' -> Inv W s'.
Proof.
  intros HI HH H. unfold step_main in H. destruct (s_mjob s) as [n j] eqn:Ej.
  destruct (s_mpc s) eqn:Hm.
  - (* MIdle *)
    assert (sum_of owes (s_workers s) = 0) as Hz by (apply (I_quiet _ _ HI); rewrite Hm; reflexivity).
    destruct (s_todo s) as [|jb rest]; injection H as <-.
    + destruct HI. constructor; simpl; auto; try discriminate.
      * intros i w Hi. specialize (I_w i w Hi). rewrite Hm in I_w.
        unfold winv in *. destruct I_w as (A & B & C). split; [exact A|]. split; [|exact C].
        destruct (w_pc w); auto. destruct B as [B|[o B]]; [auto|discriminate].
      * intros [E|E]; discriminate.
    + destruct HI. constructor; simpl; auto; try solve [destruct (is_direct jb); discriminate].
      * intros i w Hi. eapply winv_wake; [eauto|]. rewrite Hm. discriminate.
      * rewrite I_stop, Hm. destruct (is_direct jb); reflexivity.
      * destruct (is_direct jb) eqn:E; [intros [F|F]; discriminate|reflexivity].
  - (* MDirect *)
    injection H as <-.
    assert (sum_of owes (s_workers s) = 0) as Hz by (apply (I_quiet _ _ HI); rewrite Hm; reflexivity).
    apply (to_idle_inv W s); auto; try congruence. rewrite (I_stop _ _ HI), Hm. reflexivity.
  - (* MDirectCalled *)
    injection H as <-.
    assert (sum_of owes (s_workers s) = 0) as Hz by (apply (I_quiet _ _ HI); rewrite Hm; reflexivity).
    apply (to_idle_inv W s); auto; try congruence. rewrite (I_stop _ _ HI), Hm. reflexivity.
  - (* MSubmit *)
    destruct (no_shared (s_workers s)) eqn:Hns; [|discriminate].
    destruct (partition (j_cnt j) (j_req j) (map w_rng (s_workers s))) as [[working rs] ofs] eqn:Ep.
    injection H as <-.
    assert (is_direct j = false) as Hd.
    { pose proof (I_nodirect _ _ HI (or_intror Hm)) as Hd. rewrite Ej in Hd. exact Hd. }
    assert (1 < j_cnt j) as Hc.
    { unfold is_direct in Hd. destruct (j_kind j); [|apply orb_false_iff in Hd; destruct Hd as [Hd _]];
        apply Nat.leb_gt in Hd; exact Hd. }
    destruct (partition_facts _ _ _ _ _ _ Hc Ep) as (F1 & F2 & F3 & F4 & F5 & F6 & F7).
    rewrite map_length in F1, F2. pose proof (I_len _ _ HI) as HL. rewrite HL in F1.
    assert (working <= W) as HkW by (rewrite F1; apply working_cnt_le).
    assert (0 < j_cnt j / (working + 1)) as Hq by lia.
    destruct (zip_nth_asg j W (s_workers s) rs working F2 HkW HL F3) as (Z1 & Z2 & Z3);
      [intros i w Hi; apply (I_w _ _ HI i w Hi)|exact F7|exact Hq|].
    assert (sum_of (fun w => match w_pc w with WDec => 1 | _ => 0 end)
              (skipn working (s_workers s)) = 0) as Zd.
    { apply sum_of_zero. intros i w Hi.
      assert (In w (s_workers s)) as Hin.
      { rewrite <- (firstn_skipn working (s_workers s)). apply in_or_app. right.
        eapply nth_error_In; eauto. }
      apply In_nth_error in Hin. destruct Hin as [k Hk].
      destruct (quiet_worker _ _ _ _ HI ltac:(rewrite Hm; reflexivity) Hk) as (_ & _ & Q3).
      destruct (w_pc w); auto; congruence. }
    rewrite Zd, Nat.add_0_r in Z3.
    assert (forall i w, nth_error (zip_ranges (s_workers s) rs) i = Some w ->
       exists w0, nth_error (s_workers s) i = Some w0 /\ w_pc w = w_pc w0) as Zp.
    { intros i w Hi. destruct (zip_ranges_nth _ _ _ _ (eq_sym F2) Hi) as (w0 & r & A & _ & ->).
      exists w0. auto. }
    pose proof (H_sub _ _ HH (or_introl Hm)) as [Hs1 Hs2]. rewrite Ej in Hs1, Hs2. simpl in Hs1, Hs2.
    constructor; simpl; auto; try discriminate.
    + rewrite zip_ranges_length by lia. exact HL.
    + apply (I_clen _ _ HI).
    + intros i w Hi. destruct (Z1 i w Hi) as (A & B & C). destruct (Zp i w Hi) as (w0 & Hi0 & Epc).
      destruct (quiet_worker _ _ _ _ HI ltac:(rewrite Hm; reflexivity) Hi0) as (Q1 & Q2 & Q3).
      pose proof (no_shared_nth _ _ _ Hns Hi0) as Q4.
      pose proof (I_w _ _ HI i w0 Hi0) as (_ & Hw0 & _).
      pose proof (I_stop _ _ HI) as Hbs. rewrite Hm in Hbs. simpl in Hbs.
      unfold winv. split; [exact A|]. split; [|exact B].
      rewrite Epc. destruct (w_pc w0); simpl in *; auto; try discriminate; try contradiction.
      * right. eauto.
      * rewrite Hbs in Hw0. destruct Hw0; [contradiction|discriminate].
    + intros _. unfold no_shared. apply forallb_forall. intros w Hw. apply In_nth_error in Hw.
      destruct Hw as [i Hi]. destruct (Zp i w Hi) as (w0 & Hi0 & ->).
      rewrite (no_shared_nth _ _ _ Hns Hi0). reflexivity.
    + rewrite (I_stop _ _ HI), Hm. reflexivity.
    + intros _. split; [reflexivity|]. split; [rewrite F1; reflexivity|].
      exists ofs. split; [|split; [intros o' Ho'; congruence|]].
      * split.
        -- rewrite flat_map_app, Z2, <- flat_map_app. exact F5.
        -- intros i w Hi. destruct (Z1 i w Hi) as (A & B & C). rewrite <- F1. exact C.
      * rewrite Hs1, Hs2.
        assert (forall i w, nth_error (zip_ranges (s_workers s) rs) i = Some w ->
                 begun_of w = [] /\ ended_of w = [] /\ (w_ended w = true -> w_asg w = [])) as Hbe.
        { intros i w Hi. destruct (Z1 i w Hi) as (A & B & C). destruct (Zp i w Hi) as (w0 & Hi0 & Epc).
          destruct (quiet_worker _ _ _ _ HI ltac:(rewrite Hm; reflexivity) Hi0) as (Q1 & Q2 & Q3).
          destruct (zip_ranges_nth _ _ _ _ (eq_sym F2) Hi) as (w1 & r & A1 & A2 & Ew).
          unfold begun_of, ended_of, w_begun, w_ended. rewrite Epc.
          destruct (Nat.eqb_spec (r_cnt (w_rng w)) 0) as [E|E].
          - subst w. simpl in E. simpl. rewrite E. simpl. auto.
          - simpl. destruct (w_pc w0); simpl in *; try discriminate; repeat split; auto; discriminate. }
        assert (forall f, (forall i w, nth_error (zip_ranges (s_workers s) rs) i = Some w -> f w = [])
                -> flat_map f (zip_ranges (s_workers s) rs) = @nil (nat * prange)) as Hfm.
        { intros f. generalize (zip_ranges (s_workers s) rs) as zl. clear. induction zl as [|x l IH]; intros Hf; [reflexivity|].
          simpl. rewrite (Hf 0 x eq_refl), IH; [reflexivity|]. intros i w Hi. apply (Hf (S i) w Hi). }
        rewrite !Hfm by (intros i w Hi; apply (Hbe i w Hi)).
        split; [constructor|]. split; [constructor|].
        intros _. split; [discriminate|].
        intros i w r Hi Hr He. destruct (Hbe i w Hi) as (_ & _ & Hx). rewrite (Hx He) in Hr. discriminate.
  - (* MNotify *)
    injection H as <-. apply wake_all_inv; rewrite ?Hm; auto; discriminate.
  - (* MUnlock *)
    injection H as <-. apply set_mpc_inv; rewrite ?Hm; auto; discriminate.
  - (* MCall *)
    injection H as <-.
    pose proof (I_pub _ _ HI) as IP. pose proof (I_nodirect _ _ HI) as IN. destruct HI.
    rewrite Hm, Ej in *. constructor; simpl; rewrite ?Ej; auto; try discriminate.
    + intros i w Hi. eapply winv_wake; [eauto|discriminate].
    + intros _. destruct (IP eq_refl) as (P1 & P2 & o & P3 & P4 & P5 & P6 & P7).
      split; [exact P1|]. split; [exact P2|]. exists o. split; [exact P3|].
      simpl in P4. pose proof (P4 _ eq_refl) as ->.
      split; [exact P4|]. simpl in *.
      split; [|split].
      * rewrite calls_begun_app. simpl. rewrite Nat.eqb_refl.
        rewrite P5. rewrite Permutation_app_comm. reflexivity.
      * rewrite calls_ended_app. simpl. rewrite app_nil_r. exact P6.
      * exact P7.
  - (* MCalled *)
    set (c' := match j_kind j with JRun => s_cache s
               | JReduce => upd (s_cache s) 0 (Some (n, main_range (j_cnt j) ofs)) end).
    assert (s' = mkS MCheck (s_mjob s) (s_pub s) (s_wcnt s) (s_nred s) (s_workers s) c'
              (s_bstop s) (s_todo s) (s_nxt s)
              (s_log s ++ [EvEnd n 0 (main_range (j_cnt j) ofs)])) as ->.
    { injection H as <-. unfold c'. destruct (j_kind j); reflexivity. }
    clear H.
    pose proof (I_pub _ _ HI) as IP. pose proof (I_nodirect _ _ HI) as IN.
    pose proof (I_clen _ _ HI) as Hcl. destruct HI.
    rewrite Hm, Ej in *. constructor; simpl; rewrite ?Ej; auto; try discriminate.
    + unfold c'. destruct (j_kind j); [exact Hcl|]. rewrite upd_length. exact Hcl.
    + intros i w Hi. eapply winv_wake; [eauto|discriminate].
    + intros _. destruct (IP eq_refl) as (P1 & P2 & o & P3 & P4 & P5 & P6 & P7).
      split; [exact P1|]. split; [exact P2|]. exists o. split; [exact P3|].
      simpl in P4. pose proof (P4 _ eq_refl) as ->.
      split; [discriminate|]. simpl in *.
      split; [|split].
      * rewrite calls_begun_app. simpl. rewrite app_nil_r. exact P5.
      * rewrite calls_ended_app. simpl. rewrite Nat.eqb_refl.
        rewrite P6. rewrite Permutation_app_comm. reflexivity.
      * intros Hk. destruct (P7 Hk) as [P8 P9]. unfold c'. rewrite Hk. split.
        -- intros _. destruct (s_cache s); [simpl in Hcl; lia|]. reflexivity.
        -- intros i w r Hi Hr He. rewrite upd_nth_other by lia. eapply P9; eauto.
  - (* MCheck *)
    destruct (Z.ltb_spec 0 (s_wcnt s)) as [Hlt|Hge]; injection H as <-.
    + apply set_mpc_inv; rewrite ?Hm; auto; discriminate.
    + unfold m_return. rewrite Ej.
      rewrite (I_cnt _ _ HI) in Hge.
      apply (to_idle_inv W s); auto; try congruence; try lia. rewrite (I_stop _ _ HI), Hm. reflexivity.
  - (* MWantLock *)
    destruct (no_shared (s_workers s)) eqn:Hns; [|discriminate]. injection H as <-.
    apply set_mpc_inv; rewrite ?Hm; auto; discriminate.
  - (* MPred *)
    destruct (Z.leb_spec (s_wcnt s) 0) as [Hle|Hgt]; injection H as <-;
      rewrite (I_cnt _ _ HI) in *.
    + apply set_mpc_inv; rewrite ?Hm; auto; try discriminate; try lia.
      intros _. apply (I_lock _ _ HI). rewrite Hm. reflexivity.
    + apply set_mpc_inv; rewrite ?Hm; auto; try discriminate; try lia.
      intros _. apply (I_lock _ _ HI). rewrite Hm. reflexivity.
  - (* MPreSleep *)
    injection H as <-.
    apply set_mpc_inv; rewrite ?Hm; auto; try discriminate.
    intros _. apply (I_presleep _ _ HI Hm).
  - discriminate.
  - (* MWaitUnlock *)
    injection H as <-. unfold m_return. rewrite Ej.
    pose proof (I_wu _ _ HI Hm).
    apply (to_idle_inv W s); auto; try congruence. rewrite (I_stop _ _ HI), Hm. reflexivity.
  - (* MStopNotify *)
    injection H as <-. apply wake_all_inv; rewrite ?Hm; auto; discriminate.
  - (* MJoin *)
    destruct (forallb _ (s_workers s)); [|discriminate]. injection H as <-.
    apply set_mpc_inv; rewrite ?Hm; auto; discriminate.
  - discriminate.
Qed.

(** ** Return events *)

Lemma Hist_return jobs s v :
  Hist jobs s -> m_busy (s_mpc s) = true ->
  ran_exactly_once (fst (s_mjob s)) (j_cnt (snd (s_mjob s))) (s_log s) ->
  return_ok (fst (s_mjob s)) (snd (s_mjob s)) v (s_log s) ->
  Hist jobs (set_mpc (emit s (EvReturn (fst (s_mjob s)) v)) MIdle).
Proof.
  intros HH Hb Hr Ho. destruct HH. destruct (H_job Hb) as [Hj Hn].
  set (n := fst (s_mjob s)) in *. set (j := snd (s_mjob s)) in *.
  constructor; simpl; auto; try discriminate.
  - intros m Hm. destruct (H_future m Hm) as (F1 & F2 & F3). unfold no_events.
    rewrite calls_begun_app, calls_ended_app, F1, F2. simpl. repeat split; auto.
    intros v' Hv. apply in_app_or in Hv. destruct Hv as [Hv|[Hv|[]]]; [eapply F3; eauto|].
    injection Hv as E _. lia.
  - intros [E|E]; discriminate.
  - intros L1 m v' L2 HL. apply app_one_inv in HL. destruct HL as [(E & -> & ->)|(L2' & -> & HL)].
    + injection E as <- <-. exists j. split; [exact Hj|]. split; [exact Hr|]. split; [exact Ho|].
      split; [split; reflexivity|]. split; [apply H_noret; exact Hb|]. intros v'' [].
    + destruct (H_done _ _ _ _ HL) as (j' & D1 & D2 & D3 & (D4 & D5) & D6 & D7).
      assert (n <> m) as Hne.
      { intros E. eapply (H_noret Hb v'). rewrite E, HL. apply in_or_app. right. left. reflexivity. }
      exists j'. split; [exact D1|]. split; [exact D2|]. split; [exact D3|].
      split; [|split; [exact D6|]].
      * unfold quiet_after. rewrite calls_begun_app, calls_ended_app, D4, D5. auto.
      * intros v'' Hv. apply in_app_or in Hv. destruct Hv as [Hv|[Hv|[]]]; [eapply D7; eauto|].
        injection Hv as E _. contradiction.
  - intros m Hm _. destruct (Nat.eq_dec m n) as [->|Hne].
    + exists v. apply in_or_app. right. left. reflexivity.
    + destruct (H_all m Hm) as [v' Hv']; [auto|]. exists v'. apply in_or_app. auto.
Qed.

Lemma m_return_eq s :
  m_return s = set_mpc (emit s (EvReturn (fst (s_mjob s))
    (match j_kind (snd (s_mjob s)) with JRun => RRun
     | JReduce => RReduced (firstn (s_nred s) (s_cache s)) end))) MIdle.
Proof. unfold m_return. destruct (s_mjob s) as [n j]. reflexivity. Qed.

Definition direct_pc (p : mpc) : bool := match p with MDirect | MDirectCalled => true | _ => false end.

(** The direct path is taken only by direct jobs. *)
Definition Dinv (s : state) : Prop := direct_pc (s_mpc s) = true -> is_direct (snd (s_mjob s)) = true.

Lemma step_dinv s l s' : Dinv s -> step s l = Some s' -> Dinv s'.
Proof.
  unfold Dinv. intros HD H. destruct l; simpl in H.
  - unfold step_main in H. destruct (s_mjob s) as [n j] eqn:Ej. destruct (s_mpc s) eqn:Hm;
    try discriminate; try (injection H as <-; simpl; rewrite ?Ej; auto; discriminate).
    + destruct (s_todo s) as [|jb rest]; injection H as <-; simpl; [discriminate|].
      destruct (is_direct jb); auto.
    + destruct (no_shared (s_workers s)); [|discriminate].
      destruct (partition _ _ _) as [[? ?] ?]. injection H as <-. simpl. discriminate.
    + destruct (0 <? s_wcnt s)%Z; injection H as <-; [simpl; discriminate|].
      rewrite m_return_eq. simpl. discriminate.
    + destruct (no_shared (s_workers s)); [|discriminate]. injection H as <-. simpl. discriminate.
    + destruct (s_wcnt s <=? 0)%Z; injection H as <-; simpl; discriminate.
    + injection H as <-. rewrite m_return_eq. simpl. discriminate.
    + destruct (forallb _ _); [|discriminate]. injection H as <-. simpl. discriminate.
  - unfold step_worker in H. destruct (nth_error (s_workers s) i) as [w|]; [|discriminate].
    assert (direct_pc (wake_main (s_mpc s)) = direct_pc (s_mpc s)) as Hw by (destruct (s_mpc s); reflexivity).
    destruct (w_pc w); try discriminate;
      repeat match type of H with (if ?b then _ else _) = _ => destruct b end; try discriminate;
      injection H as <-; simpl; rewrite ?Hw; auto.
    destruct (snd (s_pub s)); simpl; auto.
  - unfold spurious_main in H. destruct (s_mpc s) eqn:Hm; try discriminate. injection H as <-. simpl. discriminate.
  - unfold spurious_worker in H. destruct (nth_error (s_workers s) i) as [w|]; [|discriminate].
    destruct (w_pc w); try discriminate. injection H as <-. simpl. auto.
Qed.

Lemma step_main_hist W jobs s s' :
  Inv W s -> Hist jobs s -> Dinv s -> step_main s = Some s' -> Hist jobs s'.
Proof.
  intros HI HH HD H. unfold step_main in H. destruct (s_mjob s) as [n j] eqn:Ej.
  destruct (s_mpc s) eqn:Hm.
  - (* MIdle *)
    destruct HH. rewrite Hm in *. destruct (s_todo s) as [|jb rest] eqn:Et; injection H as <-.
    + constructor; simpl; auto; try discriminate.
      * intros [E|E]; discriminate.
      * intros m Hlt _. apply H_all; [exact Hlt|discriminate].
    + assert (nth_error jobs (s_nxt s) = Some jb /\ rest = skipn (s_nxt s + 1) jobs) as [N1 N2].
      { clear -H_todo. revert H_todo. generalize (s_nxt s) as k. induction jobs as [|x l IH]; intros [|k] H; simpl in *; try discriminate.
        - injection H as -> ->. auto.
        - apply IH. exact H. }
      constructor; simpl; auto; try discriminate.
      * intros m Hge. apply H_future. lia.
      * intros _. destruct (H_future (s_nxt s) (le_n _)) as (F1 & F2 & _). auto.
      * destruct (is_direct jb); discriminate.
      * intros _. apply H_future. lia.
      * intros m Hlt Hb. destruct (Nat.eq_dec m (s_nxt s)) as [->|Hne].
        -- exfalso. destruct (is_direct jb); apply Hb; reflexivity.
        -- apply H_all; [lia|discriminate].
  - (* MDirect *)
    injection H as <-. pose proof (H_sub _ _ HH (or_intror Hm)) as [S1 S2]. rewrite Ej in S1, S2. simpl in *.
    eapply (Hist_call_event jobs s _ n (EvBegin n 0 (mkR 0 (j_cnt j) 0))); simpl; rewrite ?Hm, ?Ej; auto; try discriminate.
    + left. eauto.
    + intros _. rewrite calls_begun_app, calls_ended_app, S1, S2. simpl. rewrite Nat.eqb_refl. auto.
  - (* MDirectCalled *)
    injection H as <-. pose proof (H_dc _ _ HH Hm) as [S1 S2]. rewrite Ej in S1, S2. simpl in *.
    set (r := mkR 0 (j_cnt j) 0) in *.
    set (v := match j_kind j with JRun => RRun | JReduce => RDirect (Some (n, r)) end).
    set (s1 := set_mpc (emit s (EvEnd n 0 r)) MCheck).
    assert (Hist jobs s1) as HH1.
    { eapply (Hist_call_event jobs s _ n (EvEnd n 0 r)); simpl; rewrite ?Hm, ?Ej; auto; try discriminate.
      right. eauto. }
    pose proof (Hist_return jobs s1 v HH1 eq_refl) as HR. simpl in HR. rewrite Ej in HR. simpl in HR.
    assert (calls_begun n (s_log s ++ [EvEnd n 0 r]) = [(0, r)]) as B1.
    { rewrite calls_begun_app, S1. reflexivity. }
    assert (calls_ended n (s_log s ++ [EvEnd n 0 r]) = [(0, r)]) as B2.
    { rewrite calls_ended_app, S2. simpl. rewrite Nat.eqb_refl. reflexivity. }
    unfold set_mpc, emit in *. simpl in *. rewrite Ej in *. apply HR.
    + split; [|split; [|split]]; rewrite ?B1, ?B2.
      * reflexivity.
      * simpl. unfold idxs; simpl. rewrite app_nil_r. reflexivity.
      * simpl. constructor; [intros []|constructor].
      * intros t x [E|[]]. injection E as <- <-. reflexivity.
    + unfold return_ok, v. destruct (j_kind j); auto.
  - (* MSubmit *)
    destruct (no_shared (s_workers s)); [|discriminate].
    destruct (partition _ _ _) as [[? ?] ?]. injection H as <-.
    eapply Hist_silent; [exact HH|..]; simpl; rewrite ?Hm; auto; try discriminate.
    intros [E|E]; discriminate.
  - injection H as <-. eapply Hist_silent; [exact HH|..]; simpl; rewrite ?Hm; auto; try discriminate. intros [E|E]; discriminate.
  - injection H as <-. eapply Hist_silent; [exact HH|..]; simpl; rewrite ?Hm; auto; try discriminate. intros [E|E]; discriminate.
  - (* MCall *)
    injection H as <-.
    eapply (Hist_call_event jobs s _ n (EvBegin n 0 (main_range (j_cnt j) ofs))); simpl; rewrite ?Hm, ?Ej; auto; try discriminate.
    left. eauto.
  - (* MCalled *)
    eapply (Hist_call_event jobs s _ n (EvEnd n 0 (main_range (j_cnt j) ofs)));
      [exact HH|rewrite Hm; reflexivity|rewrite Ej; reflexivity|right; eauto|..];
      injection H as <-; destruct (j_kind j); simpl; rewrite ?Ej; auto; discriminate.
  - (* MCheck *)
    destruct (Z.ltb_spec 0 (s_wcnt s)) as [Hlt|Hge]; injection H as <-.
    + eapply Hist_silent; [exact HH|..]; simpl; rewrite ?Hm; auto; try discriminate. intros [E|E]; discriminate.
    + rewrite (I_cnt _ _ HI) in Hge.
      destruct (return_facts W s HI) as [R1 R2]; rewrite ?Hm; auto; [lia|].
      rewrite m_return_eq. apply Hist_return; auto. rewrite Hm; reflexivity.
  - destruct (no_shared (s_workers s)); [|discriminate]. injection H as <-.
    eapply Hist_silent; [exact HH|..]; simpl; rewrite ?Hm; auto; try discriminate. intros [E|E]; discriminate.
  - destruct (s_wcnt s <=? 0)%Z; injection H as <-;
    (eapply Hist_silent; [exact HH|..]; simpl; rewrite ?Hm; auto; try discriminate; intros [E|E]; discriminate).
  - injection H as <-. eapply Hist_silent; [exact HH|..]; simpl; rewrite ?Hm; auto; try discriminate. intros [E|E]; discriminate.
  - discriminate.
  - (* MWaitUnlock *)
    injection H as <-. pose proof (I_wu _ _ HI Hm).
    destruct (return_facts W s HI) as [R1 R2]; rewrite ?Hm; auto.
    rewrite m_return_eq. apply Hist_return; auto. rewrite Hm; reflexivity.
  - injection H as <-. eapply Hist_silent; [exact HH|..]; simpl; rewrite ?Hm; auto; try discriminate. intros [E|E]; discriminate.
  - destruct (forallb _ _); [|discriminate]. injection H as <-.
    eapply Hist_silent; [exact HH|..]; simpl; rewrite ?Hm; auto; try discriminate. intros [E|E]; discriminate.
  - discriminate.
Qed.

(** * Reachable states *)

Definition Good (W : nat) (jobs : list job) (s : state) : Prop := Inv W s /\ Hist jobs s /\ Dinv s.

Lemma init_nth W i w : nth_error (map init_worker (seq 0 W)) i = Some w -> w = init_worker i.
Proof.
  intros H. apply nth_error_map_inv in H. destruct H as (x & Hx & ->).
  assert (i < W) as Hi.
  {
    assert (nth_error (seq 0 W) i <> None) as Hn by congruence.
    apply nth_error_Some in Hn. rewrite seq_length in Hn. exact Hn. }
  assert (nth i (seq 0 W) 0 = x) as E by (apply nth_error_nth; exact Hx).
  rewrite seq_nth in E by exact Hi. subst x. reflexivity.
Qed.

Lemma init_good W jobs : Good W jobs (init W jobs).
Proof.
  split; [|split].
  - assert (sum_of owes (map init_worker (seq 0 W)) = 0) as Hz.
    { apply sum_of_zero. intros i w Hi. apply init_nth in Hi. subst w. reflexivity. }
    constructor; simpl; auto; try discriminate.
    + rewrite map_length, seq_length. reflexivity.
    + rewrite repeat_length. reflexivity.
    + intros i w Hi. apply init_nth in Hi. subst w. unfold winv, init_worker; simpl.
      repeat split; auto. lia.
    + rewrite Hz. reflexivity.
    + intros [E|E]; discriminate.
  - constructor; simpl; auto; try discriminate.
    + intros n _. repeat split; auto.
    + intros L1 n v L2 H. destruct L1; discriminate.
    + intros n Hn. lia.
  - unfold Dinv. simpl. discriminate.
Qed.

Lemma step_good W jobs s l s' : Good W jobs s -> step s l = Some s' -> Good W jobs s'.
Proof.
  intros (HI & HH & HD) H. split; [|split].
  - destruct l; simpl in H.
    + eapply step_main_inv; eauto.
    + eapply step_worker_inv; eauto.
    + eapply spurious_main_inv; eauto.
    + eapply spurious_worker_inv; eauto.
  - destruct l; simpl in H.
    + eapply step_main_hist; eauto.
    + eapply step_worker_hist; eauto.
    + eapply (spurious_hist jobs s LSpurMain); eauto.
    + eapply (spurious_hist jobs s (LSpurWorker i)); eauto.
  - eapply step_dinv; eauto.
Qed.

Lemma exec_good W jobs ls : forall s s', Good W jobs s -> exec s ls = Some s' -> Good W jobs s'.
Proof.
  induction ls as [|l ls IH]; simpl; intros s s' HG H.
  - injection H as <-. exact HG.
  - destruct (step s l) as [s1|] eqn:E; simpl in H; [|discriminate].
    eapply IH; [|exact H]. eapply step_good; eauto.
Qed.
