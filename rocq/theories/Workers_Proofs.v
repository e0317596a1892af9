(** Proofs about the thread pool model. *)
From Coq Require Import Permutation.
From Verif Require Import Base BaseLemmas Workers_Model Workers_Spec.

(** * Partitioning *)

Lemma assign_ranges_spec working each residual rs : forall i prev rs' ofs,
  assign_ranges working each residual i prev rs = (rs', ofs) ->
  length rs' = length rs /\
  prev <= ofs /\
  flat_map idxs rs' = seq prev (ofs - prev) /\
  map r_tid rs' = map r_tid rs /\
  (forall k r, nth_error rs' k = Some r ->
     r_cnt r = if working <=? i + k then 0 else each + (if i + k <? residual then 1 else 0)) /\
  (i <= working -> working <= i + length rs -> 
     ofs = prev + (working - i) * each + (Nat.min residual working - Nat.min residual i)).
Proof.
  induction rs as [|r rs IH]; simpl; intros i prev rs' ofs H.
  - injection H as <- <-. repeat split; simpl; auto.
    + rewrite Nat.sub_diag. reflexivity.
    + intros [|k] r Hr; discriminate.
    + intros. replace (working - i) with 0 by lia. lia.
  - destruct (Nat.leb_spec working i) as [Hw|Hw].
    + destruct (assign_ranges working each residual (S i) prev rs) as [t o] eqn:E.
      injection H as <- <-. destruct (IH _ _ _ _ E) as (H1 & H2 & H3 & H4 & H5 & H6).
      repeat split; simpl; auto.
      * rewrite H4. reflexivity.
      * intros [|k] r' Hr'; simpl in Hr'.
        -- injection Hr' as <-. simpl. destruct (Nat.leb_spec working (i + 0)); lia.
        -- rewrite (H5 _ _ Hr'). replace (S i + k) with (i + S k) by lia. reflexivity.
      * intros Ha Hb. assert (working = i) by lia. subst working.
        assert (forall rs j p, i <= j -> snd (assign_ranges i each residual j p rs) = p) as Hx.
        { clear. induction rs as [|r rs IH]; simpl; intros j p Hj; [reflexivity|].
          destruct (Nat.leb_spec i j); [|lia].
          destruct (assign_ranges i each residual (S j) p rs) as [t o] eqn:E.
          simpl. specialize (IH (S j) p). rewrite E in IH. apply IH. lia. }
        specialize (Hx rs (S i) prev). rewrite E in Hx. simpl in Hx. rewrite Hx by lia.
        rewrite Nat.sub_diag. simpl. lia.
    + set (n := each + (if i <? residual then 1 else 0)) in *.
      destruct (assign_ranges working each residual (S i) (prev + n) rs) as [t o] eqn:E.
      injection H as <- <-. destruct (IH _ _ _ _ E) as (H1 & H2 & H3 & H4 & H5 & H6).
      repeat split; simpl; auto.
      * lia.
      * rewrite H3. unfold idxs; simpl. rewrite <- seq_app. f_equal. lia.
      * rewrite H4. reflexivity.
      * intros [|k] r' Hr'; simpl in Hr'.
        -- injection Hr' as <-. simpl. rewrite Nat.add_0_r.
           destruct (Nat.leb_spec working i); [lia|reflexivity].
        -- rewrite (H5 _ _ Hr'). replace (S i + k) with (i + S k) by lia. reflexivity.
      * intros Ha Hb. rewrite H6 by lia. unfold n.
        replace (working - i) with (S (working - S i)) by lia.
        destruct (Nat.ltb_spec i residual); simpl; lia.
Qed.

Lemma use_n_threads_le W req : use_n_threads W req <= W.
Proof. unfold use_n_threads. destruct (_ && _)%bool eqn:E; lia. Qed.

Lemma working_cnt_le W cnt req : working_cnt W cnt req <= W.
Proof.
  unfold working_cnt. pose proof (use_n_threads_le W req).
  destruct (Nat.ltb_spec (use_n_threads W req) cnt); lia.
Qed.

Lemma working_cnt_lt W cnt req : 1 < cnt -> working_cnt W cnt req < cnt.
Proof.
  unfold working_cnt. intros H.
  destruct (Nat.ltb_spec (use_n_threads W req) cnt); lia.
Qed.

Lemma working_threads W cnt req : 1 < cnt ->
  working_cnt W cnt req + 1 = Nat.min cnt (max_threads W req).
Proof.
  intros H. unfold working_cnt, use_n_threads, max_threads.
  destruct ((1 <? req)%Z && (req <=? Z.of_nat W + 1)%Z)%bool eqn:E1;
  destruct ((2 <=? req)%Z && (req <=? Z.of_nat (W + 1))%Z)%bool eqn:E2; try lia.
  - destruct (Nat.ltb_spec (Z.to_nat (req - 1)) cnt); lia.
  - destruct (Nat.ltb_spec W cnt); lia.
Qed.

(** Everything about one partitioning. *)
Lemma partition_facts cnt req rs working rs' ofs :
  1 < cnt ->
  partition cnt req rs = (working, rs', ofs) ->
  working = working_cnt (length rs) cnt req /\
  length rs' = length rs /\
  map r_tid rs' = map r_tid rs /\
  ofs < cnt /\
  flat_map idxs (rs' ++ [main_range cnt ofs]) = seq 0 cnt /\
  cnt - ofs = cnt / (working + 1) /\
  (forall k r, nth_error rs' k = Some r ->
     r_cnt r = if working <=? k then 0
               else cnt / (working + 1) + (if k <? cnt mod (working + 1) then 1 else 0)).
Proof.
  intros Hc H. unfold partition in H.
  set (w := working_cnt (length rs) cnt req) in *.
  destruct (assign_ranges w (cnt / (w + 1)) (cnt mod (w + 1)) 0 0 rs) as [t o] eqn:E.
  injection H as <- <- <-.
  destruct (assign_ranges_spec _ _ _ _ _ _ _ _ E) as (H1 & H2 & H3 & H4 & H5 & H6).
  pose proof (working_cnt_le (length rs) cnt req) as Hw. fold w in Hw.
  pose proof (working_cnt_lt (length rs) cnt req Hc) as Hw2. fold w in Hw2.
  specialize (H6 ltac:(lia) ltac:(lia)).
  pose proof (Nat.div_mod cnt (w + 1) ltac:(lia)) as Hdm.
  pose proof (Nat.mod_upper_bound cnt (w + 1) ltac:(lia)) as Hmod.
  assert (1 <= cnt / (w + 1)) as Hq by (apply Nat.div_le_lower_bound; lia).
  set (q := cnt / (w + 1)) in *. set (m := cnt mod (w + 1)) in *.
  assert (o = w * q + m) as Ho by (rewrite H6, Nat.min_0_r; lia).
  assert (cnt = o + q) as Hcq by nia.
  repeat split; auto.
  - lia.
  - rewrite flat_map_app, H3. simpl. rewrite app_nil_r. unfold idxs, main_range; simpl.
    rewrite Nat.sub_0_r. rewrite <- seq_app. f_equal. lia.
  - lia.
Qed.

(** * Lists of workers *)

Lemma zip_ranges_length ws : forall rs, length ws = length rs -> length (zip_ranges ws rs) = length ws.
Proof. induction ws as [|w ws IH]; intros [|r rs] H; simpl in *; auto. Qed.

Lemma zip_ranges_nth ws : forall rs i w,
  length ws = length rs ->
  nth_error (zip_ranges ws rs) i = Some w ->
  exists w0 r, nth_error ws i = Some w0 /\ nth_error rs i = Some r /\ w = give_range w0 r.
Proof.
  induction ws as [|w0 ws IH]; intros [|r rs] [|i] w HL H; simpl in *; try discriminate.
  - injection H as <-. eauto.
  - apply (IH rs i w); [lia|exact H].
Qed.

(** Contribution of a worker: outstanding decrements of [m_workingCnt]. *)
Definition owes (w : worker) : nat :=
  if negb (r_cnt (w_rng w) =? 0) then 1
  else match w_pc w with WDec => 1 | _ => 0 end.

Definition exec_pc (p : wpc) : bool :=
  match p with WCall | WCalled _ | WFinLock | WClear => true | _ => false end.

Definition post_pc (p : wpc) : bool :=
  match p with WDec | WNotify | WFinUnlock => true | _ => false end.

(** Has this worker begun / ended its part of the current job? *)
Definition w_begun (w : worker) : bool :=
  (r_cnt (w_rng w) =? 0) || match w_pc w with WCalled _ | WFinLock | WClear => true | _ => false end.
Definition w_ended (w : worker) : bool :=
  (r_cnt (w_rng w) =? 0) || match w_pc w with WFinLock | WClear => true | _ => false end.

Definition tagged (r : prange) : nat * prange := (r_tid r, r).
Definition begun_of (w : worker) : list (nat * prange) :=
  if w_begun w then map tagged (w_asg w) else [].
Definition ended_of (w : worker) : list (nat * prange) :=
  if w_ended w then map tagged (w_asg w) else [].

(** Is the caller between publishing a job and returning? *)
Definition m_active (p : mpc) : bool :=
  match p with
  | MNotify _ | MUnlock _ | MCall _ | MCalled _ | MCheck | MWantLock | MPred
  | MPreSleep | MSleep | MWaitUnlock => true
  | _ => false
  end.

(** The caller's part of the current job *)
Definition m_begun (p : mpc) : bool :=
  match p with MNotify _ | MUnlock _ | MCall _ => false | _ => true end.
Definition m_ended (p : mpc) : bool :=
  match p with MNotify _ | MUnlock _ | MCall _ | MCalled _ => false | _ => true end.
Definition m_ofs (p : mpc) : option nat :=
  match p with MNotify o | MUnlock o | MCall o | MCalled o => Some o | _ => None end.

Definition m_stopping (p : mpc) : bool :=
  match p with MStopNotify | MJoin | MJoined => true | _ => false end.

(** Local invariant of a worker. *)
Definition winv (bs : bool) (m : mpc) (pub : nat) (i : nat) (w : worker) : Prop :=
  r_tid (w_rng w) = i + 1 /\
  match w_pc w with
  | WUnlock | WChk => r_cnt (w_rng w) <> 0 \/ bs = true
  | WCall | WFinLock | WClear => r_cnt (w_rng w) <> 0
  | WCalled n => r_cnt (w_rng w) <> 0 /\ n = pub
  | WDec | WNotify | WFinUnlock | WPreSleep => r_cnt (w_rng w) = 0
  | WSleep => r_cnt (w_rng w) = 0 \/ (exists o, m = MNotify o)
  | WExit => bs = true
  | WLock | WPred => True
  end /\
  (r_cnt (w_rng w) <> 0 -> w_asg w = [w_rng w]).

Definition is_notify (w : worker) : nat := match w_pc w with WNotify => 1 | _ => 0 end.

(** Structure of the current assignment. *)
Definition asg_all (ws : list worker) : list prange := flat_map w_asg ws.

Definition asg_ok (j : job) (W : nat) (ws : list worker) (o : nat) : Prop :=
  let k := working_cnt W (j_cnt j) (j_req j) in
  flat_map idxs (asg_all ws ++ [main_range (j_cnt j) o]) = seq 0 (j_cnt j) /\
  (forall i w, nth_error ws i = Some w ->
     if i <? k then exists r, w_asg w = [r] /\ r_tid r = i + 1 else w_asg w = []).

Record Inv (W : nat) (s : state) : Prop := {
  I_len : length (s_workers s) = W;
  I_clen : length (s_cache s) = W + 1;
  I_w : forall i w, nth_error (s_workers s) i = Some w ->
        winv (s_bstop s) (s_mpc s) (fst (s_pub s)) i w;
  I_cnt : s_wcnt s = Z.of_nat (sum_of owes (s_workers s));
  I_quiet : m_active (s_mpc s) = false -> sum_of owes (s_workers s) = 0;
  I_lock : m_holds (s_mpc s) = true -> no_shared (s_workers s) = true;
  I_sleep : s_mpc s = MSleep ->
            0 < sum_of owes (s_workers s) \/ 0 < sum_of is_notify (s_workers s);
  I_presleep : s_mpc s = MPreSleep -> 0 < sum_of owes (s_workers s);
  I_wu : s_mpc s = MWaitUnlock -> sum_of owes (s_workers s) = 0;
  I_stop : s_bstop s = m_stopping (s_mpc s);
  I_nodirect : m_active (s_mpc s) = true \/ s_mpc s = MSubmit -> is_direct (snd (s_mjob s)) = false;
  I_pub : m_active (s_mpc s) = true ->
          s_pub s = (fst (s_mjob s), j_kind (snd (s_mjob s))) /\
          s_nred s = working_cnt W (j_cnt (snd (s_mjob s))) (j_req (snd (s_mjob s))) + 1 /\
          exists o, asg_ok (snd (s_mjob s)) W (s_workers s) o /\
            (forall o', m_ofs (s_mpc s) = Some o' -> o' = o) /\
            let mr := (0, main_range (j_cnt (snd (s_mjob s))) o) in
            let n := fst (s_mjob s) in
            Permutation (calls_begun n (s_log s))
              ((if m_begun (s_mpc s) then [mr] else []) ++ flat_map begun_of (s_workers s)) /\
            Permutation (calls_ended n (s_log s))
              ((if m_ended (s_mpc s) then [mr] else []) ++ flat_map ended_of (s_workers s)) /\
            (j_kind (snd (s_mjob s)) = JReduce ->
               (m_ended (s_mpc s) = true -> nth_error (s_cache s) 0 = Some (Some (n, snd mr))) /\
               (forall i w r, nth_error (s_workers s) i = Some w -> w_asg w = [r] ->
                  w_ended w = true -> nth_error (s_cache s) (i + 1) = Some (Some (n, r))))
}.

(** ** Small facts *)

Lemma calls_begun_app n l1 l2 : calls_begun n (l1 ++ l2) = calls_begun n l1 ++ calls_begun n l2.
Proof.
  induction l1 as [|e l1 IH]; [reflexivity|]. simpl.
  destruct e as [m t r|m t r|m v]; rewrite ?IH; auto.
  destruct (m =? n); reflexivity.
Qed.

Lemma calls_ended_app n l1 l2 : calls_ended n (l1 ++ l2) = calls_ended n l1 ++ calls_ended n l2.
Proof.
  induction l1 as [|e l1 IH]; [reflexivity|]. simpl.
  destruct e as [m t r|m t r|m v]; rewrite ?IH; auto.
  destruct (m =? n); reflexivity.
Qed.

Lemma no_shared_nth ws i w :
  no_shared ws = true -> nth_error ws i = Some w -> w_holds (w_pc w) = false.
Proof.
  unfold no_shared. rewrite forallb_forall. intros H Hi.
  apply nth_error_In in Hi. specialize (H _ Hi). destruct (w_holds (w_pc w)); [discriminate|reflexivity].
Qed.

Lemma no_shared_upd ws i w :
  no_shared ws = true -> w_holds (w_pc w) = false -> no_shared (upd ws i w) = true.
Proof.
  unfold no_shared. intros H Hw. revert i. induction ws as [|x ws IH]; intros [|i]; simpl in *; auto.
  - rewrite Hw. simpl. apply andb_true_iff in H. tauto.
  - apply andb_true_iff in H. destruct H as [H1 H2]. rewrite H1. simpl. auto.
Qed.

Lemma no_shared_false ws :
  no_shared ws = false -> exists i w, nth_error ws i = Some w /\ w_holds (w_pc w) = true.
Proof.
  unfold no_shared. induction ws as [|x ws IH]; simpl; [discriminate|].
  destruct (w_holds (w_pc x)) eqn:E; simpl.
  - intros _. exists 0, x. auto.
  - intros H. destruct (IH H) as (i & w & Hi & Hw). exists (S i), w. auto.
Qed.

Lemma flat_map_upd_same {B} (f : worker -> list B) ws i w w' :
  nth_error ws i = Some w -> f w' = f w -> flat_map f (upd ws i w') = flat_map f ws.
Proof.
  revert i. induction ws as [|x ws IH]; intros [|i] H Hf; simpl in *; try discriminate.
  - injection H as ->. rewrite Hf. reflexivity.
  - rewrite (IH i); auto.
Qed.

Lemma flat_map_upd_add {B} (f : worker -> list B) ws i w w' l :
  nth_error ws i = Some w -> f w = [] -> f w' = l ->
  Permutation (flat_map f (upd ws i w')) (flat_map f ws ++ l).
Proof.
  revert i. induction ws as [|x ws IH]; intros [|i] H Hf Hf'; simpl in *; try discriminate.
  - injection H as ->. rewrite Hf, Hf'. simpl. apply Permutation_app_comm.
  - rewrite <- app_assoc. apply Permutation_app_head. auto.
Qed.

(** * Preservation of [Inv] *)

Lemma winv_other s i w w' m p :
  (forall j x, nth_error (s_workers s) j = Some x -> winv (s_bstop s) m p j x) ->
  nth_error (s_workers s) i = Some w ->
  winv (s_bstop s) m p i w' ->
  forall j x, nth_error (upd (s_workers s) i w') j = Some x -> winv (s_bstop s) m p j x.
Proof.
  intros H Hi Hw j x Hx. destruct (Nat.eq_dec j i) as [->|Hn].
  - rewrite (upd_nth_same _ _ _ _ Hi) in Hx. injection Hx as <-. exact Hw.
  - rewrite upd_nth_other in Hx by assumption. eauto.
Qed.

Lemma asg_ok_upd j W ws o i w w' :
  nth_error ws i = Some w -> w_asg w' = w_asg w -> asg_ok j W ws o -> asg_ok j W (upd ws i w') o.
Proof.
  intros Hi Ha [H1 H2]. split.
  - unfold asg_all. rewrite (flat_map_upd_same _ _ _ _ _ Hi Ha). exact H1.
  - intros k x Hx. destruct (Nat.eq_dec k i) as [->|Hn].
    + rewrite (upd_nth_same _ _ _ _ Hi) in Hx. injection Hx as <-. rewrite Ha. apply H2. exact Hi.
    + rewrite upd_nth_other in Hx by assumption. apply H2. exact Hx.
Qed.

Lemma upd_worker_pure W s i w w' :
  Inv W s -> nth_error (s_workers s) i = Some w ->
  winv (s_bstop s) (s_mpc s) (fst (s_pub s)) i w' ->
  (m_holds (s_mpc s) = true -> w_holds (w_pc w') = false) ->
  owes w' = owes w -> is_notify w' = is_notify w -> w_asg w' = w_asg w ->
  w_begun w' = w_begun w -> w_ended w' = w_ended w ->
  Inv W (upd_worker s i w').
Proof.
  intros HI Hi Hw Hh Ho Hn Ha Hb He. destruct HI.
  pose proof (sum_of_upd owes _ _ w' _ Hi) as So.
  pose proof (sum_of_upd is_notify _ _ w' _ Hi) as Sn.
  constructor; simpl; auto.
  - rewrite upd_length; assumption.
  - eapply winv_other; eauto.
  - rewrite I_cnt0. f_equal. lia.
  - intros H. specialize (I_quiet0 H). lia.
  - intros H. apply no_shared_upd; auto.
  - intros H. destruct (I_sleep0 H); [left|right]; lia.
  - intros H. specialize (I_presleep0 H). lia.
  - intros H. specialize (I_wu0 H). lia.
  - intros H. destruct (I_pub0 H) as (P1 & P2 & o & P3 & P4 & P5 & P6 & P7).
    split; [exact P1|]. split; [exact P2|]. exists o.
    split; [eapply asg_ok_upd; eauto|]. split; [exact P4|].
    split; [|split].
    + rewrite (flat_map_upd_same _ _ _ _ _ Hi); [exact P5|]. unfold begun_of. rewrite Hb, Ha. reflexivity.
    + rewrite (flat_map_upd_same _ _ _ _ _ Hi); [exact P6|]. unfold ended_of. rewrite He, Ha. reflexivity.
    + intros Hk. destruct (P7 Hk) as [P8 P9]. split; [exact P8|].
      intros k x r Hx Hr Hex. destruct (Nat.eq_dec k i) as [->|Hne].
      * rewrite (upd_nth_same _ _ _ _ Hi) in Hx. injection Hx as <-.
        apply (P9 i w); congruence.
      * rewrite upd_nth_other in Hx by assumption. eapply P9; eauto.
Qed.

Lemma owes_exec w : exec_pc (w_pc w) = true -> r_cnt (w_rng w) <> 0 -> owes w = 1.
Proof. unfold owes. intros _ H. destruct (Nat.eqb_spec (r_cnt (w_rng w)) 0); [lia|reflexivity]. Qed.

Lemma active_of_owes W s i w :
  Inv W s -> nth_error (s_workers s) i = Some w -> owes w = 1 -> m_active (s_mpc s) = true.
Proof.
  intros HI Hi Ho. destruct (m_active (s_mpc s)) eqn:E; [reflexivity|].
  pose proof (I_quiet _ _ HI E). pose proof (sum_of_le owes _ _ _ Hi). lia.
Qed.

Lemma active_not_stopping p : m_active p = true -> m_stopping p = false.
Proof. destruct p; simpl; congruence. Qed.

Lemma winv_wake bs m m' p i w :
  winv bs m p i w -> (forall o, m <> MNotify o) -> winv bs m' p i w.
Proof.
  unfold winv. intros (H1 & H2 & H3) Hm. split; [exact H1|]. split; [|exact H3].
  destruct (w_pc w); auto. destruct H2 as [H2|[o H2]]; [left; exact H2|]. destruct (Hm o H2).
Qed.

Ltac wcase HI Hi w Hpc :=
  let H := fresh "Hw" in
  pose proof (I_w _ _ HI _ _ Hi) as H; unfold winv in H; rewrite Hpc in H;
  destruct H as (Htid & Hst & Hasg).

Ltac pure_tac HI Hi Hpc Hhold :=
  eapply upd_worker_pure; [exact HI|exact Hi| | | | | | |];
  unfold winv, owes, is_notify, w_begun, w_ended; simpl; rewrite ?Hpc; simpl; auto.

Lemma holds_free W s i w :
  Inv W s -> nth_error (s_workers s) i = Some w -> w_holds (w_pc w) = true -> m_holds (s_mpc s) = false.
Proof.
  intros HI Hi Hh. destruct (m_holds (s_mpc s)) eqn:E; [|reflexivity].
  pose proof (no_shared_nth _ _ _ (I_lock _ _ HI E) Hi). congruence.
Qed.

Lemma step_worker_inv W s i s' : Inv W s -> step_worker s i = Some s' -> Inv W s'.
Proof.
  intros HI H. unfold step_worker in H.
  destruct (nth_error (s_workers s) i) as [w|] eqn:Hi; [|discriminate].
  destruct (w_pc w) eqn:Hpc; wcase HI Hi w Hpc.
  - (* WLock *)
    destruct (m_holds (s_mpc s)) eqn:Hh; [discriminate|]. injection H as <-.
    pure_tac HI Hi Hpc Hh. congruence.
  - (* WPred *)
    assert (m_holds (s_mpc s) = false) as Hh by (eapply holds_free; eauto; rewrite Hpc; reflexivity).
    destruct (s_bstop s || negb (r_cnt (w_rng w) =? 0))%bool eqn:Hp; injection H as <-.
    + pure_tac HI Hi Hpc Hh; [|congruence].
      split; [exact Htid|]. split; [|exact Hasg].
      apply orb_true_iff in Hp. destruct Hp as [Hp|Hp]; [right; exact Hp|left].
      destruct (Nat.eqb_spec (r_cnt (w_rng w)) 0); [discriminate|assumption].
    + pure_tac HI Hi Hpc Hh; [|congruence].
      split; [exact Htid|]. split; [|exact Hasg].
      apply orb_false_iff in Hp. destruct Hp as [_ Hp].
      destruct (Nat.eqb_spec (r_cnt (w_rng w)) 0); [assumption|discriminate].
  - (* WPreSleep *)
    injection H as <-. pure_tac HI Hi Hpc Hh.
  - discriminate.
  - (* WUnlock *)
    injection H as <-. pure_tac HI Hi Hpc Hh.
  - (* WChk *)
    injection H as <-. destruct (s_bstop s) eqn:Hb.
    + eapply upd_worker_pure; [exact HI|exact Hi| | | | | | |];
      unfold winv, owes, is_notify, w_begun, w_ended; simpl; rewrite ?Hpc; simpl; auto.
    + destruct Hst as [Hst|Hst]; [|congruence]. pure_tac HI Hi Hpc Hh.
  - (* WCall *)
    assert (owes w = 1) as Ho by (apply owes_exec; [rewrite Hpc; reflexivity|exact Hst]).
    pose proof (active_of_owes _ _ _ _ HI Hi Ho) as Hact.
    injection H as <-.
    set (w' := mkW (WCalled (fst (s_pub s))) (w_rng w) (w_asg w)).
    assert (owes w' = owes w) as Hoo by (unfold owes; simpl; rewrite Hpc; reflexivity).
    assert (is_notify w' = is_notify w) as Hnn by (unfold is_notify; simpl; rewrite Hpc; reflexivity).
    pose proof (sum_of_upd owes _ _ w' _ Hi) as So.
    pose proof (sum_of_upd is_notify _ _ w' _ Hi) as Sn.
    pose proof HI as HI0. destruct HI.
    constructor; simpl; auto.
    + rewrite upd_length; assumption.
    + eapply winv_other; eauto. unfold winv; simpl. auto.
    + rewrite I_cnt0. f_equal. fold w'. lia.
    + congruence.
    + intros Hx. apply no_shared_upd; auto.
    + intros Hx. fold w'. destruct (I_sleep0 Hx); [left|right]; lia.
    + intros Hx. specialize (I_presleep0 Hx). fold w'; lia.
    + intros Hx. specialize (I_wu0 Hx). fold w'; lia.
    + intros _. destruct (I_pub0 Hact) as (P1 & P2 & o & P3 & P4 & P5 & P6 & P7).
      split; [exact P1|]. split; [exact P2|]. exists o.
      split; [eapply asg_ok_upd; eauto|]. split; [exact P4|].
      assert (r_cnt (w_rng w) =? 0 = false) as Hz by (apply Nat.eqb_neq; exact Hst).
      split; [|split].
      * rewrite calls_begun_app. simpl. rewrite P1. simpl. rewrite Nat.eqb_refl.
        fold w'.
        assert (begun_of w = []) as B0 by (unfold begun_of, w_begun; rewrite Hz, Hpc; reflexivity).
        assert (begun_of w' = [(i + 1, w_rng w)]) as B1.
        { unfold begun_of, w_begun; simpl. rewrite Hz; simpl. rewrite (Hasg Hst). simpl.
          unfold tagged. rewrite Htid. reflexivity. }
        rewrite (flat_map_upd_add _ _ _ _ _ _ Hi B0 B1). rewrite app_assoc.
        apply Permutation_app_tail. exact P5.
      * rewrite calls_ended_app. simpl. rewrite app_nil_r.
        fold w'. rewrite (flat_map_upd_same ended_of _ _ _ w' Hi); [exact P6|].
        unfold ended_of, w_ended; simpl. rewrite Hz, Hpc. reflexivity.
      * intros Hk. destruct (P7 Hk) as [P8 P9]. split; [exact P8|].
        intros k x r Hx Hr Hex. destruct (Nat.eq_dec k i) as [->|Hne].
        -- rewrite (upd_nth_same _ _ _ _ Hi) in Hx. injection Hx as <-.
           unfold w_ended in Hex; simpl in Hex. rewrite Hz in Hex. discriminate.
        -- rewrite upd_nth_other in Hx by assumption. eapply P9; eauto.
  - (* WCalled *)
    destruct Hst as [Hst Hpub].
    assert (owes w = 1) as Ho by (apply owes_exec; [rewrite Hpc; reflexivity|exact Hst]).
    pose proof (active_of_owes _ _ _ _ HI Hi Ho) as Hact.
    set (w' := mkW WFinLock (w_rng w) (w_asg w)) in *.
    assert (owes w' = owes w) as Hoo by (unfold owes; simpl; rewrite Hpc; reflexivity).
    assert (is_notify w' = is_notify w) as Hnn by (unfold is_notify; simpl; rewrite Hpc; reflexivity).
    pose proof (sum_of_upd owes _ _ w' _ Hi) as So.
    pose proof (sum_of_upd is_notify _ _ w' _ Hi) as Sn.
    assert (r_cnt (w_rng w) =? 0 = false) as Hz by (apply Nat.eqb_neq; exact Hst).
    assert (i < W) as HiW.
    { rewrite <- (I_len _ _ HI). apply nth_error_Some. congruence. }
    set (c' := match snd (s_pub s) with JRun => s_cache s
               | JReduce => upd (s_cache s) (i + 1) (Some (n, w_rng w)) end).
    assert (s' = mkS (s_mpc s) (s_mjob s) (s_pub s) (s_wcnt s) (s_nred s)
              (upd (s_workers s) i w') c' (s_bstop s) (s_todo s) (s_nxt s)
              (s_log s ++ [EvEnd n (i + 1) (w_rng w)])) as ->.
    { injection H as <-. unfold c'. destruct (snd (s_pub s)); reflexivity. }
    clear H.
    destruct HI. constructor; simpl; auto.
    + rewrite upd_length; assumption.
    + unfold c'. destruct (snd (s_pub s)); [assumption|]. rewrite upd_length. assumption.
    + eapply winv_other; eauto. unfold winv; simpl. auto.
    + rewrite I_cnt0. f_equal. lia.
    + congruence.
    + intros Hx. apply no_shared_upd; auto.
    + intros Hx. destruct (I_sleep0 Hx); [left|right]; lia.
    + intros Hx. specialize (I_presleep0 Hx). lia.
    + intros Hx. specialize (I_wu0 Hx). lia.
    + intros _. destruct (I_pub0 Hact) as (P1 & P2 & o & P3 & P4 & P5 & P6 & P7).
      split; [exact P1|]. split; [exact P2|]. exists o.
      split; [eapply asg_ok_upd; eauto|]. split; [exact P4|].
      split; [|split].
      * rewrite calls_begun_app. simpl. rewrite app_nil_r.
        rewrite (flat_map_upd_same begun_of _ _ _ w' Hi); [exact P5|].
        unfold begun_of, w_begun; simpl. rewrite Hz, Hpc. reflexivity.
      * rewrite calls_ended_app. simpl. rewrite Hpub, P1. simpl. rewrite Nat.eqb_refl.
        assert (ended_of w = []) as B0 by (unfold ended_of, w_ended; rewrite Hz, Hpc; reflexivity).
        assert (ended_of w' = [(i + 1, w_rng w)]) as B1.
        { unfold ended_of, w_ended; simpl. rewrite Hz; simpl. rewrite (Hasg Hst). simpl.
          unfold tagged. rewrite Htid. reflexivity. }
        rewrite (flat_map_upd_add _ _ _ _ _ _ Hi B0 B1). rewrite app_assoc.
        apply Permutation_app_tail. exact P6.
      * intros Hk. destruct (P7 Hk) as [P8 P9].
        assert (c' = upd (s_cache s) (i + 1) (Some (n, w_rng w))) as Ec.
        { unfold c'. rewrite P1. simpl. rewrite Hk. reflexivity. }
        rewrite Ec. split.
        -- intros Hm. specialize (P8 Hm). rewrite Nat.add_1_r. destruct (s_cache s); simpl in *; auto.
        -- intros k x r Hx Hr Hex. destruct (Nat.eq_dec k i) as [->|Hne].
           ++ rewrite (upd_nth_same _ _ _ _ Hi) in Hx. injection Hx as <-. simpl in Hr.
              rewrite (Hasg Hst) in Hr. injection Hr as <-.
              rewrite upd_nth, Nat.eqb_refl. rewrite I_clen0.
              destruct (Nat.ltb_spec (i + 1) (W + 1)); [|lia].
              rewrite Hpub, P1. reflexivity.
           ++ rewrite upd_nth_other in Hx by assumption.
              rewrite upd_nth_other by lia. eapply P9; eauto.
  - (* WFinLock *)
    destruct (m_holds (s_mpc s)) eqn:Hh; [discriminate|]. injection H as <-.
    pure_tac HI Hi Hpc Hh. congruence.
  - (* WClear *)
    assert (m_holds (s_mpc s) = false) as Hh by (eapply holds_free; eauto; rewrite Hpc; reflexivity).
    injection H as <-.
    assert (r_cnt (w_rng w) =? 0 = false) as Hz by (apply Nat.eqb_neq; exact Hst).
    pure_tac HI Hi Hpc Hh; rewrite ?Hz; simpl; auto; try congruence.
    split; [exact Htid|]. split; [reflexivity|]. intros; lia.
  - (* WDec *)
    injection H as <-.
    assert (m_holds (s_mpc s) = false) as Hh by (eapply holds_free; eauto; rewrite Hpc; reflexivity).
    set (w' := mkW WNotify (w_rng w) (w_asg w)).
    assert (r_cnt (w_rng w) =? 0 = true) as Hz by (apply Nat.eqb_eq; exact Hst).
    assert (owes w = 1) as Ho by (unfold owes; rewrite Hz, Hpc; reflexivity).
    assert (owes w' = 0) as Ho' by (unfold owes; simpl; rewrite Hz; reflexivity).
    assert (is_notify w' = 1) as Hn' by reflexivity.
    assert (is_notify w = 0) as Hn0 by (unfold is_notify; rewrite Hpc; reflexivity).
    pose proof (active_of_owes _ _ _ _ HI Hi Ho) as Hact.
    pose proof (sum_of_upd owes _ _ w' _ Hi) as So.
    pose proof (sum_of_upd is_notify _ _ w' _ Hi) as Sn.
    destruct HI. constructor; simpl; auto; fold w'.
    + rewrite upd_length; assumption.
    + eapply winv_other; eauto. unfold winv; simpl. auto.
    + rewrite I_cnt0. lia.
    + congruence.
    + congruence.
    + intros _. right. lia.
    + intros Hx. rewrite Hx in Hh. discriminate.
    + intros Hx. rewrite Hx in Hh. discriminate.
    + intros _. destruct (I_pub0 Hact) as (P1 & P2 & o & P3 & P4 & P5 & P6 & P7).
      split; [exact P1|]. split; [exact P2|]. exists o.
      split; [eapply asg_ok_upd; eauto|]. split; [exact P4|].
      split; [|split].
      * rewrite (flat_map_upd_same begun_of _ _ _ w' Hi); [exact P5|].
        unfold begun_of, w_begun; simpl. rewrite Hz. reflexivity.
      * rewrite (flat_map_upd_same ended_of _ _ _ w' Hi); [exact P6|].
        unfold ended_of, w_ended; simpl. rewrite Hz. reflexivity.
      * intros Hk. destruct (P7 Hk) as [P8 P9]. split; [exact P8|].
        intros k x r Hx Hr Hex. destruct (Nat.eq_dec k i) as [->|Hne].
        -- rewrite (upd_nth_same _ _ _ _ Hi) in Hx. injection Hx as <-.
           apply (P9 i w); auto. unfold w_ended. rewrite Hz. reflexivity.
        -- rewrite upd_nth_other in Hx by assumption. eapply P9; eauto.
  - (* WNotify *)
    injection H as <-.
    assert (m_holds (s_mpc s) = false) as Hh by (eapply holds_free; eauto; rewrite Hpc; reflexivity).
    set (w' := mkW WFinUnlock (w_rng w) (w_asg w)).
    assert (r_cnt (w_rng w) =? 0 = true) as Hz by (apply Nat.eqb_eq; exact Hst).
    assert (owes w' = owes w) as Hoo by (unfold owes; simpl; rewrite Hz, Hpc; reflexivity).
    pose proof (sum_of_upd owes _ _ w' _ Hi) as So.
    assert (m_active (wake_main (s_mpc s)) = m_active (s_mpc s)) as Ma by (destruct (s_mpc s); reflexivity).
    assert (m_holds (wake_main (s_mpc s)) = false) as Mh by (destruct (s_mpc s); simpl in *; auto).
    assert (m_begun (wake_main (s_mpc s)) = m_begun (s_mpc s)) as Mb by (destruct (s_mpc s); reflexivity).
    assert (m_ended (wake_main (s_mpc s)) = m_ended (s_mpc s)) as Me by (destruct (s_mpc s); reflexivity).
    assert (m_ofs (wake_main (s_mpc s)) = m_ofs (s_mpc s)) as Mo by (destruct (s_mpc s); reflexivity).
    destruct HI. constructor; simpl; auto; fold w'.
    + rewrite upd_length; assumption.
    + intros j x Hx.
      assert (winv (s_bstop s) (s_mpc s) (fst (s_pub s)) j x) as Hwx.
      { refine (winv_other s i w w' _ _ I_w0 Hi _ j x Hx). unfold winv; simpl. auto. }
      destruct (s_mpc s); simpl in *; try exact Hwx.
      eapply winv_wake; [exact Hwx|]. intros; discriminate.
    + rewrite I_cnt0. lia.
    + rewrite Ma. intros Hx. specialize (I_quiet0 Hx). lia.
    + congruence.
    + destruct (s_mpc s); simpl; discriminate.
    + intros Hx. rewrite Hx in Mh. discriminate.
    + intros Hx. rewrite Hx in Mh. discriminate.
    + rewrite I_stop0. destruct (s_mpc s); reflexivity.
    + intros Hx. apply I_nodirect0. rewrite Ma in Hx. destruct Hx as [Hx|Hx]; auto.
      destruct (s_mpc s); simpl in *; auto; discriminate.
    + rewrite Ma, Mb, Me, Mo. intros Hact. destruct (I_pub0 Hact) as (P1 & P2 & o & P3 & P4 & P5 & P6 & P7).
      split; [exact P1|]. split; [exact P2|]. exists o.
      split; [eapply asg_ok_upd; eauto|]. split; [exact P4|].
      split; [|split].
      * rewrite (flat_map_upd_same begun_of _ _ _ w' Hi); [exact P5|].
        unfold begun_of, w_begun; simpl. rewrite Hz. reflexivity.
      * rewrite (flat_map_upd_same ended_of _ _ _ w' Hi); [exact P6|].
        unfold ended_of, w_ended; simpl. rewrite Hz. reflexivity.
      * intros Hk. destruct (P7 Hk) as [P8 P9]. split; [exact P8|].
        intros k x r Hx Hr Hex. destruct (Nat.eq_dec k i) as [->|Hne].
        -- rewrite (upd_nth_same _ _ _ _ Hi) in Hx. injection Hx as <-.
           apply (P9 i w); auto. unfold w_ended. rewrite Hz. reflexivity.
        -- rewrite upd_nth_other in Hx by assumption. eapply P9; eauto.
  - (* WFinUnlock *)
    injection H as <-. pure_tac HI Hi Hpc Hh.
  - discriminate.
Qed.

Lemma spurious_worker_inv W s i s' : Inv W s -> spurious_worker s i = Some s' -> Inv W s'.
Proof.
  intros HI H. unfold spurious_worker in H.
  destruct (nth_error (s_workers s) i) as [w|] eqn:Hi; [|discriminate].
  destruct (w_pc w) eqn:Hpc; try discriminate. wcase HI Hi w Hpc.
  injection H as <-. pure_tac HI Hi Hpc Hh.
Qed.

Lemma spurious_main_inv W s s' : Inv W s -> spurious_main s = Some s' -> Inv W s'.
Proof.
  intros HI H. unfold spurious_main in H. destruct (s_mpc s) eqn:Hm; try discriminate.
  injection H as <-. destruct HI. rewrite Hm in *. constructor; simpl; auto; try discriminate.
  - intros i w Hw. eapply winv_wake; [eauto|discriminate].
Qed.

(** ** History *)

Definition no_events (n : nat) (l : list event) : Prop :=
  calls_begun n l = [] /\ calls_ended n l = [] /\ forall v, ~ In (EvReturn n v) l.

Definition m_busy (p : mpc) : bool :=
  match p with MIdle | MStopNotify | MJoin | MJoined => false | _ => true end.

Record Hist (jobs : list job) (s : state) : Prop := {
  H_job : m_busy (s_mpc s) = true ->
          nth_error jobs (fst (s_mjob s)) = Some (snd (s_mjob s)) /\ fst (s_mjob s) + 1 = s_nxt s;
  H_todo : s_todo s = skipn (s_nxt s) jobs;
  H_future : forall n, s_nxt s <= n -> no_events n (s_log s);
  H_sub : s_mpc s = MSubmit \/ s_mpc s = MDirect ->
          calls_begun (fst (s_mjob s)) (s_log s) = [] /\ calls_ended (fst (s_mjob s)) (s_log s) = [];
  H_dc : s_mpc s = MDirectCalled ->
          calls_begun (fst (s_mjob s)) (s_log s) = [(0, mkR 0 (j_cnt (snd (s_mjob s))) 0)] /\
          calls_ended (fst (s_mjob s)) (s_log s) = [];
  H_noret : m_busy (s_mpc s) = true -> forall v, ~ In (EvReturn (fst (s_mjob s)) v) (s_log s);
  H_done : forall L1 n v L2, s_log s = L1 ++ EvReturn n v :: L2 ->
          exists j, nth_error jobs n = Some j /\ ran_exactly_once n (j_cnt j) L1 /\
                    return_ok n j v L1 /\ quiet_after n L2 /\
                    (forall v', ~ In (EvReturn n v') L1) /\ (forall v', ~ In (EvReturn n v') L2);
  H_all : forall n, n < s_nxt s -> (m_busy (s_mpc s) = true -> n <> fst (s_mjob s)) ->
          exists v, In (EvReturn n v) (s_log s)
}.

Lemma app_one_inv (log L1 : list event) e n v L2 :
  log ++ [e] = L1 ++ EvReturn n v :: L2 ->
  (e = EvReturn n v /\ L1 = log /\ L2 = []) \/
  (exists L2', L2 = L2' ++ [e] /\ log = L1 ++ EvReturn n v :: L2').
Proof.
  destruct (@exists_last _ (EvReturn n v :: L2) ltac:(discriminate)) as (l & x & E).
  rewrite E, app_assoc. intros H. apply app_inj_tail in H. destruct H as [H1 H2]. subst x.
  destruct l as [|y l].
  - left. simpl in E. injection E as E1 E2. subst. rewrite app_nil_r. auto.
  - right. simpl in E. injection E as E1 E2. subst. exists l. auto.
Qed.

(** Appending a begin/end event of the running job. *)
Lemma Hist_call_event jobs s (s' : state) n e :
  Hist jobs s -> m_busy (s_mpc s) = true -> n = fst (s_mjob s) ->
  ((exists t r, e = EvBegin n t r) \/ (exists t r, e = EvEnd n t r)) ->
  s_log s' = s_log s ++ [e] -> s_mjob s' = s_mjob s -> s_nxt s' = s_nxt s ->
  s_todo s' = s_todo s -> m_busy (s_mpc s') = true ->
  s_mpc s' <> MSubmit -> s_mpc s' <> MDirect ->
  (s_mpc s' = MDirectCalled -> 
     calls_begun n (s_log s') = [(0, mkR 0 (j_cnt (snd (s_mjob s))) 0)] /\
     calls_ended n (s_log s') = []) ->
  Hist jobs s'.
Proof.
  intros HH Hb -> He El Ej En Et Hb' Hns Hnd Hdc. destruct HH.
  destruct (H_job0 Hb) as [Hj Hnx].
  constructor; rewrite ?Ej, ?En, ?Et; auto.
  - intros n Hn. rewrite El. destruct (H_future0 n Hn) as (F1 & F2 & F3).
    assert (fst (s_mjob s) =? n = false) as Hne by (apply Nat.eqb_neq; lia).
    unfold no_events. rewrite calls_begun_app, calls_ended_app, F1, F2.
    destruct He as [(t & r & ->)|(t & r & ->)]; simpl; rewrite Hne; repeat split; auto;
      intros v Hv; apply in_app_or in Hv; destruct Hv as [Hv|[Hv|[]]]; try discriminate; eapply F3; eauto.
  - intros [Hx|Hx]; contradiction.
  - intros _ v Hv. rewrite El in Hv. apply in_app_or in Hv. destruct Hv as [Hv|Hv].
    + eapply H_noret0; eauto.
    + destruct He as [(t & r & ->)|(t & r & ->)]; destruct Hv as [Hv|[]]; discriminate.
  - intros L1 n v L2 HL. rewrite El in HL. apply app_one_inv in HL.
    destruct HL as [(E1 & _ & _)|(L2' & -> & HL)].
    + destruct He as [(t & r & ->)|(t & r & ->)]; discriminate.
    + destruct (H_done0 _ _ _ _ HL) as (j & D1 & D2 & D3 & (D4 & D5) & D6 & D7).
      exists j. split; [exact D1|]. split; [exact D2|]. split; [exact D3|].
      assert (fst (s_mjob s) <> n) as Hne.
      { intros <-. eapply (H_noret0 Hb v). rewrite HL. apply in_or_app. right. left. reflexivity. }
      apply Nat.eqb_neq in Hne.
      split; [|split; [exact D6|]].
      * unfold quiet_after. rewrite calls_begun_app, calls_ended_app, D4, D5.
        destruct He as [(t & r & ->)|(t & r & ->)]; simpl; rewrite Hne; auto.
      * intros v' Hv'. apply in_app_or in Hv'. destruct Hv' as [Hv'|Hv']; [eapply D7; eauto|].
        destruct He as [(t & r & ->)|(t & r & ->)]; destruct Hv' as [Hv'|[]]; discriminate.
  - intros n Hn Hx. rewrite El. destruct (H_all0 n Hn) as [v Hv]; [auto|].
    exists v. apply in_or_app. auto.
Qed.

(** Steps that do not touch the log. *)
Lemma Hist_silent jobs s (s' : state) :
  Hist jobs s -> s_log s' = s_log s -> s_mjob s' = s_mjob s -> s_nxt s' = s_nxt s ->
  s_todo s' = s_todo s -> m_busy (s_mpc s') = m_busy (s_mpc s) ->
  (s_mpc s' = MSubmit \/ s_mpc s' = MDirect -> s_mpc s' = s_mpc s) ->
  (s_mpc s' = MDirectCalled -> s_mpc s' = s_mpc s) ->
  Hist jobs s'.
Proof.
  intros HH El Ej En Et Hb Hs Hd. destruct HH.
  constructor; rewrite ?El, ?Ej, ?En, ?Et, ?Hb; auto.
  - intros Hx. pose proof (Hs Hx) as E. apply H_sub0. rewrite <- E. exact Hx.
  - intros Hx. pose proof (Hd Hx) as E. apply H_dc0. rewrite <- E. exact Hx.
Qed.

Lemma active_busy p : m_active p = true -> m_busy p = true.
Proof. destruct p; simpl; congruence. Qed.

Lemma wake_main_busy p : m_busy (wake_main p) = m_busy p.
Proof. destruct p; reflexivity. Qed.

Lemma step_worker_hist W jobs s i s' :
  Inv W s -> Hist jobs s -> step_worker s i = Some s' -> Hist jobs s'.
Proof.
  intros HI HH H. unfold step_worker in H.
  destruct (nth_error (s_workers s) i) as [w|] eqn:Hi; [|discriminate].
  destruct (w_pc w) eqn:Hpc; wcase HI Hi w Hpc; try discriminate;
    try (injection H as <-; eapply Hist_silent; [exact HH|reflexivity..| | |]; auto; fail).
  - destruct (m_holds (s_mpc s)); [discriminate|]. injection H as <-.
    eapply Hist_silent; [exact HH|reflexivity..| | |]; auto.
  - destruct (s_bstop s || negb (r_cnt (w_rng w) =? 0))%bool; injection H as <-;
    (eapply Hist_silent; [exact HH|reflexivity..| | |]; auto).
  - (* WCall *)
    assert (owes w = 1) as Ho by (apply owes_exec; [rewrite Hpc; reflexivity|exact Hst]).
    pose proof (active_of_owes _ _ _ _ HI Hi Ho) as Hact.
    destruct (I_pub _ _ HI Hact) as (P1 & _).
    injection H as <-.
    eapply (Hist_call_event jobs s _ (fst (s_pub s)));
      [exact HH|apply active_busy; exact Hact|rewrite P1; reflexivity| |reflexivity..| | | |]; simpl.
    + left. eauto.
    + apply active_busy. exact Hact.
    + intros E; rewrite E in Hact; discriminate.
    + intros E; rewrite E in Hact; discriminate.
    + intros E; rewrite E in Hact; discriminate.
  - (* WCalled *)
    destruct Hst as [Hst Hpub].
    assert (owes w = 1) as Ho by (apply owes_exec; [rewrite Hpc; reflexivity|exact Hst]).
    pose proof (active_of_owes _ _ _ _ HI Hi Ho) as Hact.
    destruct (I_pub _ _ HI Hact) as (P1 & _).
    eapply (Hist_call_event jobs s _ n (EvEnd n (i + 1) (w_rng w)));
      [exact HH|apply active_busy; exact Hact|rewrite Hpub, P1; reflexivity|right; eauto| | | | | | | |];
      injection H as <-; destruct (snd (s_pub s)); simpl; auto using active_busy;
      intros E; rewrite E in Hact; discriminate.
  - destruct (m_holds (s_mpc s)); [discriminate|]. injection H as <-.
    eapply Hist_silent; [exact HH|reflexivity..| | |]; auto.
  - injection H as <-. eapply Hist_silent; [exact HH|reflexivity..| | |]; simpl.
    + apply wake_main_busy.
    + intros [E|E]; destruct (s_mpc s); simpl in *; auto; discriminate.
    + intros E; destruct (s_mpc s); simpl in *; auto; discriminate.
Qed.

Lemma spurious_hist jobs s l s' :
  Hist jobs s -> no_spurious l = false -> step s l = Some s' -> Hist jobs s'.
Proof.
  intros HH Hl H. destruct l; simpl in *; try discriminate.
  - unfold spurious_main in H. destruct (s_mpc s) eqn:Hm; try discriminate. injection H as <-.
    eapply Hist_silent; [exact HH|reflexivity..| | |]; simpl; rewrite ?Hm; auto; try discriminate.
    intros [E|E]; discriminate.
  - unfold spurious_worker in H. destruct (nth_error (s_workers s) i) as [w|]; [|discriminate].
    destruct (w_pc w); try discriminate. injection H as <-.
    eapply Hist_silent; [exact HH|reflexivity..| | |]; auto.
Qed.

(** ** Facts at the moment of return *)

Lemma asg_tids k ws : forall base,
  (forall i w, nth_error ws i = Some w ->
     if base + i <? k then exists r, w_asg w = [r] /\ r_tid r = base + i + 1 else w_asg w = []) ->
  map r_tid (flat_map w_asg ws) = seq (base + 1) (Nat.min (length ws) (k - base)).
Proof.
  induction ws as [|w ws IH]; intros base H; [reflexivity|].
  simpl. rewrite map_app.
  rewrite (IH (S base)).
  2:{ intros i x Hx. specialize (H (S i) x Hx). rewrite Nat.add_succ_r in H. exact H. }
  specialize (H 0 w eq_refl). rewrite Nat.add_0_r in H.
  destruct (Nat.ltb_spec base k) as [Hlt|Hge].
  - destruct H as (r & -> & Ht). simpl. rewrite Ht.
    destruct (k - base) as [|d] eqn:Ed; [lia|]. simpl.
    replace (k - S base) with d by lia. f_equal.
  - rewrite H. simpl. replace (k - S base) with 0 by lia. replace (k - base) with 0 by lia.
    rewrite ?Nat.min_0_r. reflexivity.
Qed.

Lemma asg_cells n k ws : forall base (ct : list cell),
  (forall i w, nth_error ws i = Some w ->
     if base + i <? k then exists r, w_asg w = [r] /\ r_tid r = base + i + 1 else w_asg w = []) ->
  (forall i w r, nth_error ws i = Some w -> w_asg w = [r] -> nth_error ct i = Some (Some (n, r))) ->
  k - base <= length ws ->
  firstn (k - base) ct = map (fun r => Some (n, r)) (flat_map w_asg ws).
Proof.
  induction ws as [|w ws IH]; intros base ct H Hc Hl.
  - simpl in *. replace (k - base) with 0 by lia. reflexivity.
  - simpl. rewrite map_app. pose proof (H 0 w eq_refl) as H0. rewrite Nat.add_0_r in H0.
    destruct (Nat.ltb_spec base k) as [Hlt|Hge].
    + destruct H0 as (r & E & Ht). pose proof (Hc 0 w r eq_refl E) as C0.
      destruct ct as [|c ct]; [discriminate|]. simpl in C0. injection C0 as ->.
      rewrite E. destruct (k - base) as [|d] eqn:Ed; [lia|]. simpl. f_equal.
      replace d with (k - S base) by lia. apply IH.
      * intros i x Hx. specialize (H (S i) x Hx). rewrite Nat.add_succ_r in H. exact H.
      * intros i x r' Hx Hr'. apply (Hc (S i) x r' Hx Hr').
      * simpl in Hl. lia.
    + rewrite H0. replace (k - base) with 0 by lia. simpl.
      assert (flat_map w_asg ws = []) as ->; [|reflexivity].
      clear -H Hge. assert (forall w, In w ws -> w_asg w = []) as Hx.
      { intros x Hx. apply In_nth_error in Hx. destruct Hx as [i Hi].
        specialize (H (S i) x Hi). destruct (Nat.ltb_spec (base + S i) k); [lia|exact H]. }
      induction ws as [|y ws IH]; [reflexivity|]. simpl. rewrite (Hx y) by (left; reflexivity).
      simpl. apply IH.
      * intros [|i] x Hi; [apply (H 0 x Hi)|].
        destruct (Nat.ltb_spec (base + S i) k); [lia|].
        apply Hx. right. eapply nth_error_In. exact Hi.
      * intros x Hxx. apply Hx. right. exact Hxx.
Qed.

Lemma flat_map_map_tagged (l : list prange) :
  flat_map (fun c => idxs (snd c)) (map tagged l) = flat_map idxs l.
Proof. induction l as [|r l IH]; simpl; [reflexivity|]. rewrite IH. reflexivity. Qed.

Lemma Permutation_flat_map' {A B} (f : A -> list B) l1 l2 :
  Permutation l1 l2 -> Permutation (flat_map f l1) (flat_map f l2).
Proof. apply Permutation_flat_map. Qed.

Lemma return_facts W s :
  Inv W s -> m_active (s_mpc s) = true -> m_ended (s_mpc s) = true ->
  sum_of owes (s_workers s) = 0 ->
  let n := fst (s_mjob s) in let j := snd (s_mjob s) in
  ran_exactly_once n (j_cnt j) (s_log s) /\
  return_ok n j (match j_kind j with JRun => RRun
                 | JReduce => RReduced (firstn (s_nred s) (s_cache s)) end) (s_log s).
Proof.
  intros HI Hact Hend Hz. cbv zeta.
  destruct (I_pub _ _ HI Hact) as (P1 & P2 & o & [P3a P3b] & P4 & P5 & P6 & P7).
  set (n := fst (s_mjob s)) in *. set (j := snd (s_mjob s)) in *. cbv zeta in *.
  assert (m_begun (s_mpc s) = true) as Hbeg by (destruct (s_mpc s); simpl in *; congruence).
  rewrite Hend, Hbeg in *.
  rewrite sum_of_zero in Hz.
  assert (forall w, In w (s_workers s) -> r_cnt (w_rng w) =? 0 = true) as Hr0.
  { intros w Hw. apply In_nth_error in Hw. destruct Hw as [i Hi]. specialize (Hz i w Hi).
    unfold owes in Hz. destruct (r_cnt (w_rng w) =? 0); [reflexivity|discriminate]. }
  assert (flat_map begun_of (s_workers s) = map tagged (asg_all (s_workers s))) as Eb.
  { unfold asg_all. clear -Hr0. induction (s_workers s) as [|w ws IH]; [reflexivity|].
    simpl. rewrite map_app, <- IH by (intros; apply Hr0; right; assumption).
    unfold begun_of at 1, w_begun. rewrite (Hr0 w) by (left; reflexivity). reflexivity. }
  assert (flat_map ended_of (s_workers s) = map tagged (asg_all (s_workers s))) as Ee.
  { unfold asg_all. clear -Hr0. induction (s_workers s) as [|w ws IH]; [reflexivity|].
    simpl. rewrite map_app, <- IH by (intros; apply Hr0; right; assumption).
    unfold ended_of at 1, w_ended. rewrite (Hr0 w) by (left; reflexivity). reflexivity. }
  rewrite Eb in P5. rewrite Ee in P6.
  set (k := working_cnt W (j_cnt j) (j_req j)) in *.
  pose proof (working_cnt_le W (j_cnt j) (j_req j)) as HkW. fold k in HkW.
  pose proof (asg_tids k (s_workers s) 0 P3b) as Htids. fold (asg_all (s_workers s)) in Htids.
  rewrite (I_len _ _ HI), Nat.sub_0_r, Nat.min_r in Htids by lia.
  set (mr := main_range (j_cnt j) o) in *.
  assert (([(0, mr)] ++ map tagged (asg_all (s_workers s)))%list
          = map tagged (mr :: asg_all (s_workers s))) as Em by reflexivity.
  rewrite Em in P5, P6.
  split.
  - split; [|split; [|split]].
    + rewrite P5, P6. reflexivity.
    + rewrite P6, flat_map_map_tagged. rewrite <- P3a.
      apply Permutation_flat_map'. apply (Permutation_app_comm [mr]).
    + eapply Permutation_NoDup; [apply Permutation_map; symmetry; exact P6|].
      rewrite map_map. change (NoDup (0 :: map r_tid (asg_all (s_workers s)))). rewrite Htids. change (NoDup (seq 0 (S k))). apply seq_NoDup.
    + intros t r Hin. eapply Permutation_in in Hin; [|exact P6].
      apply in_map_iff in Hin. destruct Hin as (x & E & _). unfold tagged in E.
      injection E as <- <-. reflexivity.
  - unfold return_ok. destruct (j_kind j) eqn:Hk; [exact I|].
    destruct (P7 eq_refl) as [P8 P9]. specialize (P8 eq_refl).
    exists mr, (asg_all (s_workers s)).
    split; [|split; [|split]].
    + rewrite P2. simpl. destruct (s_cache s) as [|c0 ct] eqn:Ec; [discriminate|].
      simpl in P8. injection P8 as ->. rewrite Nat.add_1_r. simpl. f_equal.
      replace k with (k - 0) by lia. apply asg_cells.
      * exact P3b.
      * intros i w r Hi Hr. specialize (P9 i w r Hi Hr). rewrite Nat.add_1_r in P9. simpl in P9.
        apply P9. unfold w_ended. rewrite Hr0; [reflexivity|]. eapply nth_error_In; eauto.
      * rewrite (I_len _ _ HI). lia.
    + simpl. rewrite Htids. f_equal.
      assert (length (asg_all (s_workers s)) = k) as ->; [|reflexivity].
      erewrite <- map_length, Htids. apply seq_length.
    + exact P3a.
    + rewrite P6. reflexivity.
Qed.
