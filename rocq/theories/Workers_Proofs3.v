(** Proofs about the thread pool model: progress, termination, the destructor. *)
From Coq Require Import Permutation.
From Verif Require Import Base BaseLemmas Workers_Model Workers_Spec Workers_Proofs Workers_Proofs2.

Definition wcost (w : worker) : nat :=
  if r_cnt (w_rng w) =? 0 then
    match w_pc w with
    | WDec => 12 | WNotify => 11 | WFinUnlock => 7 | WLock => 3 | WPred => 2
    | WPreSleep => 1 | WSleep => 0 | _ => 20
    end
  else
    match w_pc w with
    | WPred => 19 | WUnlock => 18 | WChk => 17 | WCall => 16 | WCalled _ => 15
    | WFinLock => 14 | WClear => 13 | _ => 20
    end.

Definition mcost (W : nat) (p : mpc) : nat :=
  match p with
  | MIdle => 0 | MDirect => 2 | MDirectCalled => 1
  | MSubmit => 30 * W + 20 | MNotify _ => 5 * W + 10 | MUnlock _ => 9 | MCall _ => 8
  | MCalled _ => 7 | MCheck => 6 | MWantLock => 5 | MPred => 4 | MPreSleep => 3
  | MSleep => 2 | MWaitUnlock => 1
  | _ => 0
  end.

Definition measure (W : nat) (s : state) : nat :=
  mcost W (s_mpc s) + sum_of wcost (s_workers s) + length (s_todo s) * (30 * W + 21).

Lemma sum_of_mono2 {A B} (f : A -> nat) (g : B -> nat) c : forall (l : list A) (l' : list B),
  length l = length l' ->
  (forall i x y, nth_error l i = Some x -> nth_error l' i = Some y -> f x <= g y + c) ->
  sum_of f l <= sum_of g l' + c * length l.
Proof.
  induction l as [|x l IH]; intros [|y l'] HL H; simpl in *; try discriminate.
  - unfold sum_of; simpl; lia.
  - rewrite !sum_of_cons. specialize (IH l' ltac:(lia)).
    pose proof (H 0 x y eq_refl eq_refl).
    assert (sum_of f l <= sum_of g l' + c * length l).
    { apply IH. intros i a b Ha Hb. apply (H (S i)); assumption. }
    rewrite Nat.mul_succ_r. lia.
Qed.

Lemma wcost_le w : wcost w <= 20.
Proof. unfold wcost. destruct (r_cnt (w_rng w) =? 0); destruct (w_pc w); lia. Qed.

Lemma upd_worker_cost s i w w' :
  nth_error (s_workers s) i = Some w ->
  sum_of wcost (upd (s_workers s) i w') + wcost w = sum_of wcost (s_workers s) + wcost w'.
Proof. intros Hi. apply sum_of_upd. exact Hi. Qed.

Lemma step_worker_dec W s i s' :
  Inv W s -> s_bstop s = false -> step_worker s i = Some s' -> measure W s' + 1 <= measure W s.
Proof.
  intros HI Hb H. unfold step_worker in H.
  destruct (nth_error (s_workers s) i) as [w|] eqn:Hi; [|discriminate].
  pose proof (fun w' => upd_worker_cost s i w w' Hi) as Hu.
  assert (mcost W (wake_main (s_mpc s)) <= mcost W (s_mpc s) + 3) as Hwk by (destruct (s_mpc s); simpl; lia).
  destruct (w_pc w) eqn:Hpc; wcase HI Hi w Hpc; try discriminate;
  unfold measure;
    repeat match type of H with (if ?b then _ else _) = _ => destruct b eqn:?E end; try discriminate;
    injection H as <-.
  all: try (destruct (snd (s_pub s))).
  all: cbn [s_mpc s_workers s_todo upd_worker set_workers set_wcnt set_mpc set_cache emit].
  all: match type of Hu with forall x, sum_of _ (upd ?ws ?k _) + _ = _ => match goal with |- context [upd ws k ?w'] =>
         specialize (Hu w'); set (S1 := sum_of wcost (upd ws k w')) in *;
         set (S0 := sum_of wcost ws) in * end end.
  all: unfold wcost in Hu; cbn [w_pc w_rng r_cnt] in Hu; rewrite ?Hpc in Hu.
  all: destruct (Nat.eqb_spec (r_cnt (w_rng w)) 0) as [Er|Er]; try (exfalso; tauto); try congruence; try lia.
  all: rewrite ?Hb in *; cbn [orb negb] in *; try discriminate; try lia.
  all: cbn [Nat.eqb] in Hu; try lia.
Qed.

Lemma wake_worker_cost w : wcost (wake_worker w) <= wcost w + 3.
Proof.
  unfold wcost, wake_worker. destruct (w_pc w) eqn:E; simpl; rewrite ?E;
    destruct (r_cnt (w_rng w) =? 0); lia.
Qed.

Lemma step_main_dec W jobs s s' :
  Inv W s -> Hist jobs s -> s_bstop s' = false -> step_main s = Some s' ->
  measure W s' + 1 <= measure W s.
Proof.
  intros HI HH Hb H. unfold step_main in H. destruct (s_mjob s) as [n j] eqn:Ej.
  pose proof (I_len _ _ HI) as HL.
  assert (s_bstop s' = true -> False) as Hb' by congruence.
  unfold measure.
  destruct (s_mpc s) eqn:Hm; try discriminate.
  - destruct (s_todo s) as [|jb rest]; injection H as <-; [discriminate|].
    simpl. destruct (is_direct jb); simpl; lia.
  - injection H as <-. simpl. lia.
  - injection H as <-. simpl. lia.
  - destruct (no_shared (s_workers s)) eqn:Hns; [|discriminate].
    destruct (partition (j_cnt j) (j_req j) (map w_rng (s_workers s))) as [[working rs] ofs] eqn:Ep.
    injection H as <-. simpl.
    assert (length rs = length (s_workers s)) as Hrl.
    { unfold partition in Ep. destruct (assign_ranges _ _ _ _ _ _) as [t o] eqn:Ea.
      injection Ep as _ <- _. apply assign_ranges_spec in Ea. destruct Ea as [Ea _].
      rewrite map_length in Ea. exact Ea. }
    pose proof (zip_ranges_length (s_workers s) rs (eq_sym Hrl)) as Hzl.
    assert (sum_of wcost (zip_ranges (s_workers s) rs)
            <= sum_of wcost (s_workers s) + 20 * length (zip_ranges (s_workers s) rs)) as Hc.
    { apply sum_of_mono2; [exact Hzl|]. intros i x y _ _. pose proof (wcost_le x). lia. }
    rewrite Hzl, HL in Hc. lia.
  - injection H as <-. simpl.
    assert (sum_of wcost (map wake_worker (s_workers s))
            <= sum_of wcost (s_workers s) + 3 * length (map wake_worker (s_workers s))) as Hc.
    { apply sum_of_mono2; [apply map_length|]. intros i x y Hx Hy.
      apply nth_error_map_inv in Hx. destruct Hx as (y' & Hy' & ->).
      assert (y' = y) by congruence. subst y'. apply wake_worker_cost. }
    rewrite map_length, HL in Hc. lia.
  - injection H as <-. simpl. lia.
  - injection H as <-. simpl. lia.
  - injection H as <-. destruct (j_kind j); simpl; lia.
  - destruct (0 <? s_wcnt s)%Z; injection H as <-; [simpl; lia|].
    rewrite m_return_eq. simpl. lia.
  - destruct (no_shared (s_workers s)); [|discriminate]. injection H as <-. simpl. lia.
  - destruct (s_wcnt s <=? 0)%Z; injection H as <-; simpl; lia.
  - injection H as <-. simpl. lia.
  - injection H as <-. rewrite m_return_eq. simpl. lia.
  - injection H as <-. simpl in Hb. rewrite (I_stop _ _ HI), Hm in Hb. discriminate.
  - destruct (forallb _ _); [|discriminate]. injection H as <-. simpl in Hb.
    rewrite (I_stop _ _ HI), Hm in Hb. discriminate.
Qed.

Lemma bstop_mono s l s' : step s l = Some s' -> s_bstop s' = false -> s_bstop s = false.
Proof.
  intros H Hb. destruct l; simpl in H.
  - unfold step_main in H. destruct (s_mjob s) as [n j] eqn:Ej. destruct (s_mpc s) eqn:Hm;
      try discriminate; try (injection H as <-; exact Hb).
    + destruct (s_todo s); injection H as <-; [discriminate|exact Hb].
    + destruct (no_shared (s_workers s)); [|discriminate].
      destruct (partition _ _ _) as [[? ?] ?]. injection H as <-. exact Hb.
    + destruct (j_kind j); injection H as <-; exact Hb.
    + destruct (0 <? s_wcnt s)%Z; injection H as <-; [exact Hb|]. rewrite m_return_eq in Hb. exact Hb.
    + destruct (no_shared (s_workers s)); [|discriminate]. injection H as <-. exact Hb.
    + destruct (s_wcnt s <=? 0)%Z; injection H as <-; exact Hb.
    + injection H as <-. rewrite m_return_eq in Hb. exact Hb.
    + destruct (forallb _ _); [|discriminate]. injection H as <-. exact Hb.
  - unfold step_worker in H. destruct (nth_error (s_workers s) i) as [w|]; [|discriminate].
    destruct (w_pc w); try discriminate;
      repeat match type of H with (if ?b then _ else _) = _ => destruct b end; try discriminate;
      injection H as <-; try exact Hb.
    destruct (snd (s_pub s)); exact Hb.
  - unfold spurious_main in H. destruct (s_mpc s); try discriminate. injection H as <-. exact Hb.
  - unfold spurious_worker in H. destruct (nth_error (s_workers s) i) as [w|]; [|discriminate].
    destruct (w_pc w); try discriminate. injection H as <-. exact Hb.
Qed.

Lemma spurious_cost W s l s' :
  step s l = Some s' -> no_spurious l = false -> measure W s' + 1 <= measure W s + 4.
Proof.
  intros H Hl. destruct l; try discriminate; simpl in H.
  - unfold spurious_main in H. destruct (s_mpc s) eqn:Hm; try discriminate. injection H as <-.
    unfold measure. rewrite Hm. simpl. lia.
  - unfold spurious_worker in H. destruct (nth_error (s_workers s) i) as [w|] eqn:Hi; [|discriminate].
    destruct (w_pc w) eqn:Hpc; try discriminate. injection H as <-.
    pose proof (upd_worker_cost s i w (mkW WLock (w_rng w) (w_asg w)) Hi) as Hu.
    unfold measure. simpl.
    set (S1 := sum_of wcost (upd _ _ _)) in *. set (S0 := sum_of wcost (s_workers s)) in *.
    unfold wcost in Hu. simpl in Hu. rewrite Hpc in Hu.
    destruct (r_cnt (w_rng w) =? 0); lia.
Qed.

Lemma exec_bound W jobs ls : forall s s',
  Good W jobs s -> exec s ls = Some s' -> s_bstop s' = false ->
  length ls + measure W s' <= measure W s + 4 * spurious_count ls.
Proof.
  induction ls as [|l ls IH]; simpl; intros s s' HG H Hb.
  - injection H as <-. lia.
  - destruct (step s l) as [s1|] eqn:E; simpl in H; [|discriminate].
    pose proof (step_good _ _ _ _ _ HG E) as HG1.
    specialize (IH s1 s' HG1 H Hb).
    assert (forall l s s', exec s l = Some s' -> s_bstop s' = false -> s_bstop s = false) as Hback.
    { clear. induction l as [|x l IH]; simpl; intros s s' H Hb; [congruence|].
      destruct (step s x) as [s1|] eqn:E; simpl in H; [|discriminate].
      eapply bstop_mono; eauto. }
    pose proof (Hback _ _ _ H Hb) as Hb1.
    destruct HG as (HI & HH & HD).
    unfold spurious_count in *. simpl.
    destruct (no_spurious l) eqn:El; simpl.
    + assert (measure W s1 + 1 <= measure W s).
      { destruct l; try discriminate; simpl in E.
        - eapply step_main_dec; eauto.
        - eapply step_worker_dec; eauto. apply (bstop_mono s (LWorker i) s1 E Hb1). }
      lia.
    + pose proof (spurious_cost W s l s1 E El). lia.
Qed.

Lemma init_measure W jobs : measure W (init W jobs) = 3 * W + length jobs * (30 * W + 21).
Proof.
  unfold measure. simpl.
  assert (forall k, sum_of wcost (map init_worker (seq k W)) = 3 * W) as E.
  { clear. induction W as [|W IH]; intros k; [reflexivity|]. simpl seq. simpl map.
    rewrite sum_of_cons, IH. unfold wcost; simpl. lia. }
  rewrite E. reflexivity.
Qed.

(** * Progress *)

Lemma holding_worker_steps s i w :
  nth_error (s_workers s) i = Some w -> w_holds (w_pc w) = true -> exists s', step_worker s i = Some s'.
Proof.
  intros Hi Hh. unfold step_worker. rewrite Hi.
  destruct (w_pc w); try discriminate; eauto.
  destruct (s_bstop s || negb (r_cnt (w_rng w) =? 0))%bool; eauto.
Qed.

Lemma unlocked_worker_steps s i w :
  m_holds (s_mpc s) = false -> nth_error (s_workers s) i = Some w ->
  w_pc w <> WSleep -> w_pc w <> WExit -> exists s', step_worker s i = Some s'.
Proof.
  intros Hh Hi H1 H2. unfold step_worker. rewrite Hi, Hh.
  destruct (w_pc w); eauto; try congruence.
  destruct (s_bstop s || negb (r_cnt (w_rng w) =? 0))%bool; eauto.
Qed.

Lemma sum_pos {A} (f : A -> nat) l : 0 < sum_of f l -> exists i x, nth_error l i = Some x /\ 0 < f x.
Proof.
  induction l as [|x l IH]; [unfold sum_of; simpl; lia|].
  rewrite sum_of_cons. intros H. destruct (Nat.eq_dec (f x) 0) as [E|E].
  - destruct IH as (i & y & Hi & Hy); [lia|]. exists (S i), y. auto.
  - exists 0, x. split; [reflexivity|lia].
Qed.

Lemma progress W jobs s :
  Good W jobs s -> s_bstop s = false -> ~ all_returned s -> can_step s.
Proof.
  intros (HI & HH & HD) Hb Hn.
  assert (no_shared (s_workers s) = true \/ can_step s) as Hsh.
  { destruct (no_shared (s_workers s)) eqn:E; [auto|right].
    apply no_shared_false in E. destruct E as (i & w & Hi & Hw).
    destruct (holding_worker_steps s i w Hi Hw) as [s' Hs].
    exists (LWorker i), s'. auto. }
  assert (forall s', step_main s = Some s' -> can_step s) as Hmain.
  { intros s' H. exists LMain, s'. auto. }
  pose proof (I_stop _ _ HI) as Hst. rewrite Hb in Hst.
  unfold step_main in Hmain. destruct (s_mjob s) as [n j].
  destruct (s_mpc s) eqn:Hm; try discriminate;
    try (eapply Hmain; reflexivity).
  - destruct (s_todo s) as [|jb rest] eqn:Et; [|eapply Hmain; reflexivity].
    exfalso. apply Hn. split; assumption.
  - destruct Hsh as [Hsh|Hsh]; [|exact Hsh]. rewrite Hsh in Hmain.
    destruct (partition _ _ _) as [[? ?] ?]. eapply Hmain; reflexivity.
  - destruct (0 <? s_wcnt s)%Z; eapply Hmain; reflexivity.
  - destruct Hsh as [Hsh|Hsh]; [|exact Hsh]. rewrite Hsh in Hmain. eapply Hmain; reflexivity.
  - destruct (s_wcnt s <=? 0)%Z; eapply Hmain; reflexivity.
  - (* MSleep *)
    assert (exists i w, nth_error (s_workers s) i = Some w /\ w_pc w <> WSleep /\ w_pc w <> WExit)
      as (i & w & Hi & W1 & W2).
    { destruct (I_sleep _ _ HI Hm) as [Hs|Hs]; apply sum_pos in Hs; destruct Hs as (i & w & Hi & Hw);
        exists i, w; split; try exact Hi; pose proof (I_w _ _ HI i w Hi) as (_ & Hwp & _).
      - split; intros E; rewrite E in Hwp.
        + rewrite Hm in Hwp. destruct Hwp as [Hwp|[o Hwp]]; [|discriminate].
          unfold owes in Hw. rewrite Hwp, E in Hw. simpl in Hw. lia.
        + congruence.
      - unfold is_notify in Hw. split; intros E; rewrite E in Hw; lia. }
    destruct (unlocked_worker_steps s i w) as [s' Hs']; auto; [rewrite Hm; reflexivity|].
    exists (LWorker i), s'. auto.
Qed.

(** * The destructor *)

Definition dcost (w : worker) : nat :=
  match w_pc w with
  | WNotify => 7 | WFinUnlock => 6 | WLock => 5 | WPred => 4 | WUnlock => 3 | WChk => 2
  | WExit => 0 | _ => 8
  end.

Definition awake (w : worker) : Prop := w_pc w <> WSleep /\ w_pc w <> WPreSleep.

Definition DJoin (s : state) : Prop :=
  s_bstop s = true /\ (s_mpc s = MJoin \/ s_mpc s = MJoined) /\
  forall i w, nth_error (s_workers s) i = Some w -> awake w.

Definition dmeasure (s : state) : nat :=
  sum_of dcost (s_workers s) + match s_mpc s with MJoined => 0 | _ => 1 end.

Lemma djoin_step W jobs s l s' :
  Good W jobs s -> DJoin s -> step s l = Some s' -> DJoin s' /\ dmeasure s' + 1 <= dmeasure s.
Proof.
  intros (HI & HH & HD) (Hb & Hm & Ha) H. unfold dmeasure.
  assert (m_active (s_mpc s) = false) as Hq by (destruct Hm as [Hm|Hm]; rewrite Hm; reflexivity).
  assert (m_holds (s_mpc s) = false) as Hh by (destruct Hm as [Hm|Hm]; rewrite Hm; reflexivity).
  destruct l; simpl in H.
  - unfold step_main in H. destruct (s_mjob s) as [n j]. destruct Hm as [Hm|Hm]; rewrite Hm in *; [|discriminate].
    destruct (forallb _ _); [|discriminate]. injection H as <-. simpl. split; [|lia].
    split; [exact Hb|]. split; [right; reflexivity|exact Ha].
  - unfold step_worker in H. destruct (nth_error (s_workers s) i) as [w|] eqn:Hi; [|discriminate].
    destruct (quiet_worker _ _ _ _ HI Hq Hi) as (Q1 & Q2 & Q3).
    pose proof (Ha i w Hi) as [A1 A2].
    assert (forall w', awake w' -> forall j x, nth_error (upd (s_workers s) i w') j = Some x -> awake x) as Hupd.
    { intros w' Hw' j x Hx. destruct (Nat.eq_dec j i) as [->|Hne].
      - rewrite (upd_nth_same _ _ _ _ Hi) in Hx. injection Hx as <-. exact Hw'.
      - rewrite upd_nth_other in Hx by assumption. eauto. }
    pose proof (fun w' => sum_of_upd dcost _ _ w' _ Hi) as Hu.
    assert (wake_main (s_mpc s) = s_mpc s) as Hwm by (destruct Hm as [Hm|Hm]; rewrite Hm; reflexivity).
    rewrite Hh, Hb in H. cbn [orb] in H.
    destruct (w_pc w) eqn:Hpc; simpl in Q2; try discriminate; try congruence;
      injection H as <-; cbn [s_mpc s_workers s_bstop upd_worker set_workers set_wcnt set_mpc];
      rewrite ?Hwm;
      match goal with |- context [upd (s_workers s) i ?w'] =>
         specialize (Hu w'); specialize (Hupd w');
         set (S1 := sum_of dcost (upd (s_workers s) i w')) in *;
         set (S0 := sum_of dcost (s_workers s)) in * end;
      unfold dcost in Hu; cbn [w_pc] in Hu; rewrite Hpc in Hu;
      (split; [|lia]); (split; [exact Hb|]); (split; [exact Hm|]); apply Hupd; split; simpl; discriminate.
  - unfold spurious_main in H. destruct Hm as [Hm|Hm]; rewrite Hm in H; discriminate.
  - unfold spurious_worker in H. destruct (nth_error (s_workers s) i) as [w|] eqn:Hi; [|discriminate].
    destruct (Ha i w Hi) as [A1 A2]. destruct (w_pc w); congruence || discriminate.
Qed.

Lemma djoin_exec W jobs ls : forall s s',
  Good W jobs s -> DJoin s -> exec s ls = Some s' ->
  Good W jobs s' /\ DJoin s' /\ length ls + dmeasure s' <= dmeasure s.
Proof.
  induction ls as [|l ls IH]; simpl; intros s s' HG HJ H.
  - injection H as <-. auto.
  - destruct (step s l) as [s1|] eqn:E; simpl in H; [|discriminate].
    destruct (djoin_step _ _ _ _ _ HG HJ E) as [HJ1 Hd].
    destruct (IH s1 s' (step_good _ _ _ _ _ HG E) HJ1 H) as (A & B & C). split; [exact A|]. split; [exact B|]. lia.
Qed.

Lemma djoin_progress W jobs s :
  Good W jobs s -> DJoin s -> s_mpc s <> MJoined -> can_step s.
Proof.
  intros (HI & HH & HD) (Hb & Hm & Ha) Hn. destruct Hm as [Hm|Hm]; [|contradiction].
  destruct (forallb (fun w => match w_pc w with WExit => true | _ => false end) (s_workers s)) eqn:E.
  - exists LMain, (set_mpc s MJoined). split; [reflexivity|]. simpl. unfold step_main.
    destruct (s_mjob s). rewrite Hm, E. reflexivity.
  - assert (exists i w, nth_error (s_workers s) i = Some w /\ w_pc w <> WExit) as (i & w & Hi & Hw).
    { clear -E. induction (s_workers s) as [|x l IH]; simpl in E; [discriminate|].
      destruct (w_pc x) eqn:Ex; try (exists 0, x; split; [reflexivity|congruence]).
      destruct (IH E) as (i & w & Hi & Hw). exists (S i), w. auto. }
    destruct (Ha i w Hi) as [A1 A2].
    destruct (unlocked_worker_steps s i w) as [s' Hs']; auto; [rewrite Hm; reflexivity|].
    exists (LWorker i), s'. auto.
Qed.

(** The destructor started, and no worker stands between the evaluation of its
    (false) predicate and its sleep when [notify_all] is called: it completes. *)
Lemma destructor_ok W jobs s s1 ls s' :
  Good W jobs s -> s_mpc s = MStopNotify ->
  (forall i w, nth_error (s_workers s) i = Some w -> w_pc w <> WPreSleep) ->
  step s LMain = Some s1 -> exec s1 ls = Some s' ->
  length ls <= 8 * W + 1 /\ (s_mpc s' <> MJoined -> can_step s').
Proof.
  intros HG Hm Hp E H. pose proof (step_good _ _ _ _ _ HG E) as HG1.
  assert (DJoin s1 /\ length (s_workers s1) = W) as [HJ HL].
  { simpl in E. unfold step_main in E. destruct (s_mjob s). rewrite Hm in E. injection E as <-.
    destruct HG as (HI & _). split; [split; [|split]|].
    - simpl. rewrite (I_stop _ _ HI), Hm. reflexivity.
    - simpl. auto.
    - simpl. intros i y Hy. apply nth_error_map_inv in Hy. destruct Hy as (w & Hi & ->).
      specialize (Hp i w Hi). unfold awake, wake_worker. destruct (w_pc w) eqn:Ew; simpl; rewrite ?Ew; split; congruence.
    - simpl. rewrite map_length. apply (I_len _ _ HI). }
  destruct (djoin_exec _ _ _ _ _ HG1 HJ H) as (HG' & HJ' & Hb).
  split.
  - assert (dmeasure s1 <= 8 * W + 1) as Hd; [|lia].
    unfold dmeasure. rewrite <- HL. clear. 
    assert (sum_of dcost (s_workers s1) <= 8 * length (s_workers s1)).
    { generalize (s_workers s1) as l. induction l as [|w l IH]; [unfold sum_of; simpl; lia|].
      rewrite sum_of_cons. cbn [length]. assert (dcost w <= 8) by (unfold dcost; destruct (w_pc w); lia). clear -IH H. lia. }
    destruct (s_mpc s1); lia.
  - eapply djoin_progress; eauto.
Qed.

(** * Values of reductions *)

Section Fold.
  Context {A : Type} (op : A -> A -> A) (e : A) (f : nat -> A).
  Hypothesis op_assoc : forall x y z, op x (op y z) = op (op x y) z.
  Hypothesis op_comm : forall x y, op x y = op y x.
  Hypothesis op_e : forall x, op e x = x.

  Definition folded (l : list nat) : A := fold_right op e (map f l).

  Lemma folded_app l1 l2 : folded (l1 ++ l2) = op (folded l1) (folded l2).
  Proof.
    unfold folded. induction l1 as [|x l1 IH]; simpl; [rewrite op_e; reflexivity|].
    rewrite IH, op_assoc. reflexivity.
  Qed.

  Lemma folded_flat_map rs : folded (flat_map idxs rs) = fold_right op e (map (fun r => folded (idxs r)) rs).
  Proof. induction rs as [|r rs IH]; simpl; [reflexivity|]. rewrite folded_app, IH. reflexivity. Qed.

  Lemma folded_rotate r0 rs :
    fold_right op e (map (fun r => folded (idxs r)) (r0 :: rs)) = folded (flat_map idxs (rs ++ [r0])).
  Proof.
    rewrite flat_map_app, folded_app. simpl. rewrite app_nil_r.
    rewrite <- folded_flat_map. apply op_comm.
  Qed.
End Fold.

(** ** A greedy scheduler producing concrete executions for the examples:
    [pick] decides which enabled thread goes first. *)
Fixpoint first_enabled (s : state) (ls : list label) : option (label * state) :=
  match ls with
  | [] => None
  | l :: ls' => match step s l with Some s' => Some (l, s') | None => first_enabled s ls' end
  end.

Fixpoint greedy (fuel : nat) (s : state) (order : list label) : list label * state :=
  match fuel with
  | O => ([], s)
  | S f => match s_mpc s, s_todo s with
           | MIdle, [] => ([], s)
           | _, _ => match first_enabled s order with
                     | None => ([], s)
                     | Some (l, s') => let (t, e) := greedy f s' (tl order ++ [hd LMain order]) in (l :: t, e)
                     end
           end
  end.
