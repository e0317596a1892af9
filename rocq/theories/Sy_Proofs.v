From Verif Require Import Base BaseLemmas Sy_Model Sy_Spec.

Lemma upd_nth {A} (l : list A) i v j : i < length l ->
  nth_error (upd l i v) j = if j =? i then Some v else nth_error l j.
Proof.
  revert i j. induction l as [|a l IH]; intros i j Hi; [cbn in Hi; lia|].
  destruct i as [|i]; destruct j as [|j]; cbn [upd nth_error Nat.eqb]; try reflexivity. apply IH. cbn in Hi. lia.
Qed.
Lemma upd_lgth {A} (l : list A) i v : length (upd l i v) = length l.
Proof. revert i. induction l as [|a l IH]; intros [|i]; cbn; auto. Qed.

(** The flag is set exactly when a thread holds the lock; that thread is unique; the variable
    counts the finished sections *)
Definition pending (p : pc) : nat := match p with Written => 1 | _ => 0 end.
Record sinv (s : sstate) : Prop := {
  i_free : s_flag s = false -> s_x s = s_done s /\ forall j q, at_pc s j q -> ~ holds q;
  i_held : s_flag s = true -> exists i p, at_pc s i p /\ holds p /\ (forall j q, at_pc s j q -> holds q -> j = i) /\
           s_x s = s_done s + pending p /\ (forall r, p = Read r -> r = s_x s)
}.

Lemma inv_init n : sinv (sinit n).
Proof.
  split; [|discriminate]. intros _. split; [reflexivity|]. unfold at_pc. cbn. intros j q Hj. apply nth_error_In in Hj.
  apply repeat_spec in Hj. subst q. cbn. tauto.
Qed.

Lemma inv_step i y s : sinv s -> sinv (sstep i y s).
Proof.
  intros [HF HH]. unfold sstep. destruct (nth_error (s_pcs s) i) as [p|] eqn:Ep; [|split; assumption].
  assert (Hi : i < length (s_pcs s)) by (apply nth_error_Some; congruence).
  assert (U : forall q j q', nth_error (upd (s_pcs s) i q) j = Some q' -> (j = i /\ q' = q) \/ (j <> i /\ at_pc s j q')).
  { intros q j q' H. rewrite upd_nth in H by exact Hi. destruct (Nat.eqb_spec j i); [left; split; congruence|right; split; assumption]. }
  assert (Ui : forall q, nth_error (upd (s_pcs s) i q) i = Some q) by (intros q; rewrite upd_nth by exact Hi; rewrite Nat.eqb_refl; reflexivity).
  assert (Uj : forall q j, j <> i -> nth_error (upd (s_pcs s) i q) j = nth_error (s_pcs s) j).
  { intros q j Hj. rewrite upd_nth by exact Hi. destruct (Nat.eqb_spec j i); [contradiction|reflexivity]. }
  (* a thread that does not hold the lock goes to a place where it does not either *)
  assert (NH : forall q, ~ holds p -> ~ holds q -> sinv (mkS (s_flag s) (s_x s) (s_done s) (upd (s_pcs s) i q))).
  { intros q Hp Hq. split; cbn [s_flag s_x s_done s_pcs]; intros Hf.
    - destruct (HF Hf) as [H1 H2]. split; [exact H1|]. unfold at_pc. cbn [s_pcs]. intros j q' Hj.
      destruct (U _ _ _ Hj) as [[-> ->]|[_ Hj']]; [exact Hq|exact (H2 _ _ Hj')].
    - destruct (HH Hf) as (a & pa & Ha & Hha & Hu & Hx & Hr). exists a, pa. unfold at_pc. cbn [s_pcs].
      assert (a <> i) by (intros ->; unfold at_pc in Ha; rewrite Ep in Ha; injection Ha as <-; contradiction).
      split; [rewrite Uj by assumption; exact Ha|]. split; [exact Hha|]. split; [|split; [exact Hx|exact Hr]].
      intros j q' Hj Hq'. destruct (U _ _ _ Hj) as [[-> ->]|[_ Hj']]; [contradiction|exact (Hu _ _ Hj' Hq')]. }
  (* the holder *)
  assert (HD : holds p -> s_flag s = true /\ (forall j q, at_pc s j q -> holds q -> j = i) /\ s_x s = s_done s + pending p /\ (forall r, p = Read r -> r = s_x s)).
  { intros Hp. destruct (s_flag s) eqn:Ef; [|destruct (HF eq_refl) as [_ H2]; exfalso; exact (H2 i p Ep Hp)].
    split; [reflexivity|]. destruct (HH eq_refl) as (a & pa & Ha & Hha & Hu & Hx & Hr).
    assert (i = a) by (exact (Hu i p Ep Hp)). subst a. unfold at_pc in Ha. rewrite Ep in Ha. injection Ha as <-. auto. }
  destruct p as [|b| | |r|]; cbn zeta.
  - apply NH; cbn; tauto.
  - destruct (s_flag s) eqn:Ef.
    + apply NH; [cbn; tauto|destruct b; cbn; tauto].
    + destruct (HF eq_refl) as [Hx Hn]. split; cbn [s_flag s_x s_done s_pcs]; [discriminate|]. intros _.
      exists i, Locked. unfold at_pc. cbn [s_pcs]. split; [apply Ui|]. split; [exact I|]. split; [|split; [cbn; lia|discriminate]].
      intros j q Hj Hq. destruct (U _ _ _ Hj) as [[-> _]|[_ Hj']]; [reflexivity|]. exfalso. exact (Hn _ _ Hj' Hq).
  - apply NH; cbn; tauto.
  - destruct (HD I) as (Ef & Hu & Hx & _). split; cbn [s_flag s_x s_done s_pcs]; [congruence|]. intros _.
    exists i, (Read (s_x s)). unfold at_pc. cbn [s_pcs]. split; [apply Ui|]. split; [exact I|]. split; [|split; [exact Hx|congruence]].
    intros j q Hj Hq. destruct (U _ _ _ Hj) as [[-> _]|[_ Hj']]; [reflexivity|exact (Hu _ _ Hj' Hq)].
  - destruct (HD I) as (Ef & Hu & Hx & Hr). specialize (Hr r eq_refl). split; cbn [s_flag s_x s_done s_pcs]; [congruence|]. intros _.
    exists i, Written. unfold at_pc. cbn [s_pcs]. split; [apply Ui|]. split; [exact I|]. split; [|split; [cbn in *; lia|discriminate]].
    intros j q Hj Hq. destruct (U _ _ _ Hj) as [[-> _]|[_ Hj']]; [reflexivity|exact (Hu _ _ Hj' Hq)].
  - destruct (HD I) as (Ef & Hu & Hx & Hr). split; cbn [s_flag s_x s_done s_pcs]; [|discriminate]. intros _.
    split; [cbn in Hx; lia|]. unfold at_pc. cbn [s_pcs]. intros j q Hj Hq.
    destruct (U _ _ _ Hj) as [[-> ->]|[Hn Hj']]; [exact Hq|]. exact (Hn (Hu _ _ Hj' Hq)).
Qed.

Lemma inv_run : forall sch s, sinv s -> sinv (srun sch s).
Proof. induction sch as [|[i y] sch IH]; intros s H; [exact H|]. cbn [srun]. apply IH. apply inv_step. exact H. Qed.

(** C123 *)
Theorem lock_excludes n sch :
  let s := srun sch (sinit n) in
  (forall i j p q, at_pc s i p -> at_pc s j q -> holds p -> holds q -> i = j) /\
  ((forall i p, at_pc s i p -> ~ holds p) -> s_x s = s_done s).
Proof.
  cbn zeta. pose proof (inv_run sch _ (inv_init n)) as [HF HH]. set (s := srun sch (sinit n)) in *. split.
  - intros i j p q Hi Hj Hp Hq. destruct (s_flag s) eqn:Ef.
    + destruct (HH eq_refl) as (a & pa & _ & _ & Hu & _). rewrite (Hu _ _ Hi Hp), (Hu _ _ Hj Hq). reflexivity.
    + destruct (HF eq_refl) as [_ H2]. exfalso. exact (H2 _ _ Hi Hp).
  - intros Hn. destruct (s_flag s) eqn:Ef; [|apply HF; reflexivity].
    destruct (HH eq_refl) as (a & pa & Ha & Hh & _). exfalso. exact (Hn _ _ Ha Hh).
Qed.

(** *** Progress *)
Lemma step_at i y s p : at_pc s i p -> forall j q, j <> i -> at_pc s j q -> at_pc (sstep i y s) j q.
Proof.
  unfold at_pc. intros Hi j q Hn Hj. unfold sstep. rewrite Hi.
  assert (Hl : i < length (s_pcs s)) by (apply nth_error_Some; congruence).
  assert (U : forall v, nth_error (upd (s_pcs s) i v) j = Some q).
  { intros v. rewrite upd_nth by exact Hl. destruct (Nat.eqb_spec j i); [contradiction|exact Hj]. }
  destruct p; cbn zeta; try apply U. destruct (s_flag s); apply U.
Qed.
Lemma step_self i y s p : at_pc s i p ->
  at_pc (sstep i y s) i (match p with Idle => Spin y | Spin b => if s_flag s then (if b then Yielding else Spin b) else Locked
                         | Yielding => Spin true | Locked => Read (s_x s) | Read _ => Written | Written => Idle end)
  /\ s_flag (sstep i y s) = (match p with Spin _ => true | Written => false | _ => s_flag s end).
Proof.
  unfold at_pc. intros Hi. unfold sstep. rewrite Hi.
  assert (Hl : i < length (s_pcs s)) by (apply nth_error_Some; congruence).
  destruct p; cbn zeta; try destruct (s_flag s) eqn:Ef; cbn [s_pcs s_flag]; split; try reflexivity; rewrite upd_nth by exact Hl; rewrite Nat.eqb_refl; reflexivity.
Qed.

Lemma release i s p : at_pc s i p -> holds p -> exists n, n <= 3 /\
  s_flag (srun (repeat (i, false) n) s) = false /\ forall j q, j <> i -> at_pc s j q -> at_pc (srun (repeat (i, false) n) s) j q.
Proof.
  assert (W : forall s, at_pc s i Written -> s_flag (sstep i false s) = false /\ forall j q, j <> i -> at_pc s j q -> at_pc (sstep i false s) j q).
  { intros s0 H. destruct (step_self i false s0 _ H) as [_ H1]. split; [exact H1|]. exact (step_at i false s0 _ H). }
  assert (R : forall s r, at_pc s i (Read r) -> s_flag (srun (repeat (i, false) 2) s) = false /\ forall j q, j <> i -> at_pc s j q -> at_pc (srun (repeat (i, false) 2) s) j q).
  { intros s0 r H. cbn [repeat srun]. destruct (step_self i false s0 _ H) as [H1 _]. destruct (W _ H1) as [H2 H3]. split; [exact H2|].
    intros j q Hn Hj. apply H3; [exact Hn|]. exact (step_at i false s0 _ H j q Hn Hj). }
  intros H Hp. destruct p; try contradiction.
  - exists 3. split; [lia|]. cbn [repeat srun]. destruct (step_self i false s _ H) as [H1 _]. destruct (R _ _ H1) as [H2 H3]. split; [exact H2|].
    intros j q Hn Hj. apply H3; [exact Hn|]. exact (step_at i false s _ H j q Hn Hj).
  - exists 2. split; [lia|]. exact (R _ _ H).
  - exists 1. split; [lia|]. exact (W _ H).
Qed.
Lemma acquire i s p : at_pc s i p -> waits p -> s_flag s = false -> exists n, n <= 2 /\ at_pc (srun (repeat (i, false) n) s) i Locked.
Proof.
  intros H Hw Hf. destruct p as [|b| | | |]; try contradiction.
  - exists 1. split; [lia|]. cbn [repeat srun]. destruct (step_self i false s _ H) as [H1 _]. rewrite Hf in H1. exact H1.
  - exists 2. split; [lia|]. cbn [repeat srun]. destruct (step_self i false s _ H) as [H1 H2]. rewrite Hf in H2.
    destruct (step_self i false _ _ H1) as [H3 _]. rewrite H2 in H3. exact H3.
Qed.
Lemma srun_app a b s : srun (a ++ b) s = srun b (srun a s).
Proof. revert s. induction a as [|[i y] a IH]; intros s; [reflexivity|]. cbn. apply IH. Qed.

Theorem lock_progress n sch i p :
  let s := srun sch (sinit n) in
  at_pc s i p -> waits p ->
  exists sch', length sch' <= 5 /\ at_pc (srun sch' s) i Locked.
Proof.
  cbn zeta. intros Hi Hw. pose proof (inv_run sch _ (inv_init n)) as [_ HH]. set (s := srun sch (sinit n)) in *.
  destruct (s_flag s) eqn:Ef.
  - destruct (HH eq_refl) as (a & pa & Ha & Hh & _). destruct (release a s pa Ha Hh) as (k & Hk & Hf & Hk').
    assert (i <> a).
    { intros ->. unfold at_pc in *. rewrite Ha in Hi. injection Hi as <-. destruct pa; cbn in *; contradiction. }
    destruct (acquire i _ p (Hk' i p H Hi) Hw Hf) as (m & Hm & Hl).
    exists (repeat (a, false) k ++ repeat (i, false) m). split; [rewrite app_length, !repeat_length; lia|]. rewrite srun_app. exact Hl.
  - destruct (acquire i s p Hi Hw Ef) as (m & Hm & Hl). exists (repeat (i, false) m). split; [rewrite repeat_length; lia|]. exact Hl.
Qed.

(** *** Starvation *)
Definition starving (k : nat) : nat * bool :=
  match k with
  | 0 => (1, false)
  | S k' => ((if k' mod 6 =? 2 then 1 else 0), false)
  end.
Lemma starving_fair : fair 2 starving.
Proof.
  intros i k Hi. destruct i as [|[|i]]; [| |lia].
  - exists (S (6 * k)). split; [lia|]. unfold starving. rewrite (Nat.mul_comm 6 k), Nat.mod_mul by lia. reflexivity.
  - exists (S (2 + k * 6)). split; [lia|]. unfold starving. rewrite Nat.mod_add by lia. reflexivity.
Qed.
Lemma sat_S f n s : sat f (S n) s = sstep (fst (f n)) (snd (f n)) (sat f n s).
Proof. reflexivity. Qed.
Lemma starving_at q : sat starving (S (q * 6)) (sinit 2) = mkS false q q [Idle; Spin false].
Proof.
  induction q as [|q IH]; [reflexivity|].
  replace (S (S q * 6)) with (S (S (S (S (S (S (S (q * 6)))))))) by lia. do 6 rewrite sat_S. rewrite IH.
  assert (F : forall r, r < 6 -> fst (starving (S (r + q * 6))) = if r =? 2 then 1 else 0).
  { intros r Hr. unfold starving. rewrite Nat.mod_add by lia. rewrite Nat.mod_small by exact Hr. reflexivity. }
  assert (G : forall k, snd (starving k) = false) by (intros [|k]; reflexivity).
  pose proof (F 0 ltac:(lia)) as F0. pose proof (F 1 ltac:(lia)) as F1. pose proof (F 2 ltac:(lia)) as F2.
  pose proof (F 3 ltac:(lia)) as F3. pose proof (F 4 ltac:(lia)) as F4. pose proof (F 5 ltac:(lia)) as F5.
  cbn [Nat.add] in F0, F1, F2, F3, F4, F5. rewrite F0, F1, F2, F3, F4, F5, !G. reflexivity.
Qed.
Lemma starving_all k : nth_error (s_pcs (sat starving (S k) (sinit 2))) 1 = Some (Spin false).
Proof.
  rewrite (Nat.div_mod k 6) by lia. set (q := k / 6). pose proof (Nat.mod_upper_bound k 6 ltac:(lia)) as Hr.
  set (r := k mod 6) in *. clearbody q r.
  assert (F : forall r, r < 6 -> fst (starving (S (r + q * 6))) = if r =? 2 then 1 else 0).
  { intros r' Hr'. unfold starving. rewrite Nat.mod_add by lia. rewrite Nat.mod_small by exact Hr'. reflexivity. }
  assert (G : forall k, snd (starving k) = false) by (intros [|k']; reflexivity).
  replace (6 * q + r) with (r + q * 6) by lia.
  pose proof (F 0 ltac:(lia)) as F0. pose proof (F 1 ltac:(lia)) as F1. pose proof (F 2 ltac:(lia)) as F2.
  pose proof (F 3 ltac:(lia)) as F3. pose proof (F 4 ltac:(lia)) as F4.
  cbn [Nat.add] in F0, F1, F2, F3, F4.
  destruct r as [|[|[|[|[|[|r]]]]]]; cbn [Nat.add]. 7: lia.
  1:{ rewrite starving_at. reflexivity. }
  1:{ rewrite sat_S, starving_at, F0, G. reflexivity. }
  1:{ rewrite 2 sat_S, starving_at, F0, F1, !G. reflexivity. }
  1:{ rewrite 3 sat_S, starving_at, F0, F1, F2, !G. reflexivity. }
  1:{ rewrite 4 sat_S, starving_at, F0, F1, F2, F3, !G. reflexivity. }
  1:{ rewrite 5 sat_S, starving_at, F0, F1, F2, F3, F4, !G. reflexivity. }
Qed.

Theorem lock_starves : exists n f i, fair n f /\ i < n /\ at_pc (sat f 1 (sinit n)) i (Spin false) /\
  (forall k p, at_pc (sat f k (sinit n)) i p -> ~ holds p) /\ (forall b, exists k, b <= s_done (sat f k (sinit n))).
Proof.
  exists 2, starving, 1. split; [exact starving_fair|]. split; [lia|]. split; [reflexivity|]. split.
  - intros k p H. destruct k as [|k]; [cbn in H; injection H as <-; cbn; tauto|].
    unfold at_pc in H. rewrite starving_all in H. injection H as <-. cbn. tauto.
  - intros b. exists (S (b * 6)). rewrite starving_at. cbn. lia.
Qed.

(** *** Timed waits *)
Lemma status_inverted t0 rel t1 : wait_for t0 rel t1 = timeout <-> status_spec t0 rel t1 = no_timeout.
Proof.
  unfold wait_for, status_spec. destruct (Z.ltb_spec t1 (t0 + rel)); destruct (Z.leb_spec (t0 + rel) t1); try lia; split; congruence.
Qed.

Lemma wait_loop_spec pr ev rel : forall fuel k r,
  (forall b m, wait_loop pr ev rel fuel k r = Some (b, m) ->
     b = true /\ k <= m < k + fuel /\ pr m = true /\ forall j, k <= j < m -> pr j = false) /\
  (wait_loop pr ev rel fuel k r = None <-> forall j, k <= j < k + fuel -> pr j = false).
Proof.
  induction fuel as [|fuel IH]; intros k r; cbn [wait_loop].
  - split; [discriminate|]. split; [intros _ j Hj; lia|reflexivity].
  - destruct (pr k) eqn:E.
    + split.
      * intros b m H. assert (b = true /\ m = k) as [-> ->] by (destruct r; injection H as <- <-; auto).
        split; [reflexivity|]. split; [lia|]. split; [exact E|]. intros j Hj. lia.
      * split; [destruct r; discriminate|]. intros H. rewrite (H k) in E by lia. discriminate.
    + destruct (IH (S k) (wait_for (ev k) rel (ev (S k)))) as [H1 H2]. split.
      * intros b m H. destruct (H1 b m H) as (Hb & Hm & Hp & Hj). split; [exact Hb|]. split; [lia|]. split; [exact Hp|].
        intros j Hk. destruct (Nat.eq_dec j k) as [->|]; [exact E|apply Hj; lia].
      * rewrite H2. split; intros H j Hj; [|apply H; lia]. destruct (Nat.eq_dec j k) as [->|]; [exact E|apply H; lia].
Qed.

Theorem wait_pred_spec pr ev rel :
  (forall fuel b m, wait_for_pred pr ev rel fuel = Some (b, m) -> b = true /\ pr m = true /\ forall j, j < m -> pr j = false) /\
  ((exists fuel, wait_for_pred pr ev rel fuel <> None) <-> exists m, pr m = true).
Proof.
  unfold wait_for_pred. split.
  - intros fuel b m H. destruct (wait_loop_spec pr ev rel fuel 0 no_timeout) as [H1 _]. destruct (H1 b m H) as (Hb & _ & Hp & Hj).
    split; [exact Hb|]. split; [exact Hp|]. intros j Hm. apply Hj. lia.
  - split.
    + intros [fuel H]. destruct (wait_loop pr ev rel fuel 0 no_timeout) as [[b m]|] eqn:E; [|congruence].
      destruct (wait_loop_spec pr ev rel fuel 0 no_timeout) as [H1 _]. destruct (H1 b m E) as (_ & _ & Hp & _). exists m. exact Hp.
    + intros [m Hm]. exists (S m). intros E. destruct (wait_loop_spec pr ev rel (S m) 0 no_timeout) as [_ [H2 _]].
      rewrite (H2 E m) in Hm by lia. discriminate.
Qed.

(** C126: the first evaluation after the registration and the deadline *)
Lemma first_after (ev : nat -> Z) (D : Z) : (ev 0%nat <= D)%Z -> forall k, (D < ev k)%Z ->
  exists m, S m <= k /\ (ev m <= D)%Z /\ (D < ev (S m))%Z.
Proof.
  intros H0. induction k as [|k IH]; intros Hk; [lia|]. destruct (Z.leb_spec (ev k) D).
  - exists k. split; [lia|]. split; assumption.
  - destruct (IH ltac:(lia)) as (m & Hm & H1). exists m. split; [lia|exact H1].
Qed.

Theorem worker_latency (reg : Z -> bool) (ev : nat -> Z) (rel late T : Z) :
  (0 < rel)%Z -> (0 <= late)%Z -> (ev 0%nat <= T)%Z ->
  (forall k, (ev k <= ev (S k) <= ev k + rel + late)%Z) ->
  (forall B, exists k, (B < ev k)%Z) ->
  (forall t, (T <= t)%Z -> reg t = true) ->
  exists fuel m, wait_for_pred (worker_pred reg ev rel) ev rel fuel = Some (true, m) /\ (ev m <= T + 2 * rel + late)%Z.
Proof.
  intros Hrel Hlate H0 Hev Hinf Hreg.
  set (D := Z.max T (ev 0%nat + rel)). destruct (Hinf D) as [k Hk].
  destruct (first_after ev D ltac:(lia) k Hk) as (n & _ & Hn1 & Hn2).
  assert (Hp : worker_pred reg ev rel (S n) = true).
  { unfold worker_pred. apply andb_true_intro. split; [apply Z.ltb_lt; lia|apply Hreg; lia]. }
  pose proof (wait_loop_spec (worker_pred reg ev rel) ev rel (S (S n)) 0 no_timeout) as [H1 H2].
  destruct (wait_loop (worker_pred reg ev rel) ev rel (S (S n)) 0 no_timeout) as [[b m]|] eqn:E.
  - destruct (H1 b m eq_refl) as (-> & Hm & _ & _). exists (S (S n)), m. split; [exact E|].
    assert (Hmono : forall a d, (ev a <= ev (a + d)%nat)%Z).
    { intros a. induction d as [|d IH]; [rewrite Nat.add_0_r; lia|]. rewrite Nat.add_succ_r. specialize (Hev (a + d)%nat). lia. }
    pose proof (Hmono m (S n - m)%nat) as Hm2. replace (m + (S n - m))%nat with (S n) in Hm2 by lia.
    specialize (Hev n). lia.
  - exfalso. apply proj1 in H2. rewrite (H2 eq_refl (S n)) in Hp by lia. discriminate.
Qed.
