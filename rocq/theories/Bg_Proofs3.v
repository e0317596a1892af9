(** Task list of the background pool. *)
From Coq Require Import Permutation.
From Verif Require Import Base BaseLemmas Bg_Model Bg_Spec Bg_Proofs Bg_Proofs2.

Lemma task_eqb_eq a b : task_eqb a b = true -> a = b.
Proof.
  unfold task_eqb. intros H. apply andb_true_iff in H. destruct H as [H1 H2].
  apply Nat.eqb_eq in H1. apply Z.eqb_eq in H2. destruct a, b; simpl in *; congruence.
Qed.

Lemma remove_one_perm t : forall b b', remove_one t b = Some b' -> Permutation b (t :: b').
Proof.
  induction b as [|x b IH]; intros b' H; simpl in H; [discriminate|].
  destruct (task_eqb t x) eqn:E.
  - apply task_eqb_eq in E as ->. injection H as ->. reflexivity.
  - destruct (remove_one t b) as [r|]; [|discriminate]. injection H as <-.
    rewrite (IH _ eq_refl). apply perm_swap.
Qed.

Lemma is_perm_perm : forall a b, is_perm a b = true -> Permutation a b.
Proof.
  induction a as [|t a IH]; intros b H; simpl in H.
  - destruct b; [reflexivity|discriminate].
  - destruct (remove_one t b) as [b'|] eqn:E; [|discriminate].
    rewrite (remove_one_perm _ _ _ E). constructor. auto.
Qed.

Lemma sorted_desc_by_priority ts : sorted_desc ts = true -> by_priority ts.
Proof.
  induction ts as [|t ts IH]; intros H i j a b Hij Hi Hj.
  - destruct i; discriminate.
  - assert (sorted_desc ts = true) as Hs.
    { destruct ts; [reflexivity|]. simpl in H. apply andb_true_iff in H. tauto. }
    specialize (IH Hs). destruct j as [|j]; [lia|]. simpl in Hj.
    destruct i as [|i]; simpl in Hi; [|apply (IH i j a b); auto; lia].
    injection Hi as <-. destruct ts as [|u ts]; [destruct j; discriminate|].
    simpl in H. apply andb_true_iff in H. destruct H as [H _]. apply Z.leb_le in H.
    destruct j as [|j]; simpl in Hj; [congruence|].
    pose proof (IH 0 (S j) u b ltac:(lia) eq_refl Hj). lia.
Qed.

Fixpoint adds (os : list op) : nat :=
  match os with [] => 0 | OAdd _ :: os' => S (adds os') | _ :: os' => adds os' end.

Lemma registered_from_add p : forall os k acc,
  registered_from k acc (os ++ [OAdd p]) = registered_from k acc os ++ [mkT (k + adds os) p].
Proof.
  induction os as [|o os IH]; intros k acc; simpl.
  - rewrite Nat.add_0_r. reflexivity.
  - destruct o; simpl; rewrite IH; try reflexivity.
    replace (k + 1 + adds os) with (k + S (adds os)) by lia. reflexivity.
Qed.

Lemma registered_from_del : forall os k acc, registered_from k acc (os ++ [ODelete]) = [].
Proof. induction os as [|o os IH]; intros k acc; simpl; [reflexivity|]. destruct o; simpl; apply IH. Qed.

Lemma adds_app a b : adds (a ++ b) = adds a + adds b.
Proof. induction a as [|o a IH]; [reflexivity|]. destruct o; simpl; rewrite IH; lia. Qed.

Lemma registered_filter : forall os k acc,
  registered_from k acc (filter is_change os) = registered_from k acc os.
Proof. induction os as [|o os IH]; intros k acc; simpl; [reflexivity|]. destruct o; simpl; apply IH. Qed.

Lemma changes_app a b : changes (a ++ b) = changes a + changes b.
Proof. induction a as [|e a IH]; [reflexivity|]. destruct e; simpl; rewrite IH; lia. Qed.

Lemma in_force_app : forall a c b,
  in_force_from c (a ++ b) = in_force_from (in_force_from c a) b.
Proof. induction a as [|e a IH]; intros c b; simpl; [reflexivity|]. destruct e; simpl; apply IH. Qed.

Lemma task_calls_app i a b : task_calls i (a ++ b) = task_calls i a ++ task_calls i b.
Proof.
  induction a as [|e a IH]; [reflexivity|]. destruct e; simpl; auto.
  destruct (_ =? i); simpl; rewrite IH; reflexivity.
Qed.

Lemma serve_app : forall c1 ts c2 rem,
  serve ts c1 = Some rem -> serve ts (c1 ++ c2) = serve rem c2.
Proof.
  induction c1 as [|[id r] c1 IH]; intros ts c2 rem H; simpl in *.
  - injection H as ->. reflexivity.
  - destruct ts as [|t ts]; [discriminate|]. destruct (t_id t =? id); [|discriminate]. auto.
Qed.

Definition pending (p : mpc) : list op :=
  match p with MSetGo o | MWantLock o | MHold o => filter is_change [o] | _ => [] end.

(** Thread [i] is serving the list [ts] with [rem] left, according to the log. *)
Definition serving (i : nat) (l : list event) (ts rem : list task) : Prop :=
  exists L1 L2, l = L1 ++ EvPass i ts :: L2 /\ existsb (starts_pass i) L2 = false /\
                serve ts (task_calls i L2) = Some rem.

Definition passes_ok (l : list event) : Prop :=
  (forall L1 i ts L2, l = L1 ++ EvPass i ts :: L2 -> ts = in_force L1) /\
  (forall L1 i ts L2 L3, l = L1 ++ EvPass i ts :: L2 ++ L3 ->
     existsb (starts_pass i) L2 = false -> serve ts (task_calls i L2) <> None) /\
  (forall L1 i id r L2, l = L1 ++ EvTask i id r :: L2 -> existsb (starts_pass i) L1 = true).

Definition changes_ok (ops : list op) (l : list event) : Prop :=
  forall L1 ts L2, l = L1 ++ EvChange ts :: L2 ->
    Permutation ts (registered (firstn (S (changes L1)) (filter is_change ops))) /\
    sorted_desc ts = true.

Record TInv (ops : list op) (s : state) : Prop := {
  T_done : exists done, filter is_change ops = done ++ pending (s_mpc s) ++ filter is_change (s_todo s) /\
           changes (s_log s) = length done /\ Permutation (s_tasks s) (registered done) /\
           s_nid s = adds done;
  T_sorted : sorted_desc (s_tasks s) = true;
  T_force : in_force (s_log s) = s_tasks s;
  T_log : changes_ok ops (s_log s);
  T_pass : passes_ok (s_log s);
  T_serv : forall i w rem, nth_error (s_workers s) i = Some w -> w_pc w = WTask rem ->
           serving i (s_log s) (s_tasks s) rem
}.

Lemma last_pass_unique i l L1 ts L2 K1 us K2 :
  l = L1 ++ EvPass i ts :: L2 -> existsb (starts_pass i) L2 = false ->
  l = K1 ++ EvPass i us :: K2 -> existsb (starts_pass i) K2 = false ->
  L1 = K1 /\ ts = us /\ L2 = K2.
Proof.
  intros -> HL HK HK2. revert K1 HK. induction L1 as [|e L1 IH]; intros K1 HK; simpl in HK.
  - destruct K1 as [|k K1]; simpl in HK; injection HK as H1 H2; [subst; auto|].
    subst. rewrite existsb_app in HL. simpl in HL. rewrite Nat.eqb_refl in HL.
    rewrite orb_true_r in HL. discriminate.
  - destruct K1 as [|k K1]; simpl in HK; injection HK as H1 H2.
    + subst. rewrite existsb_app in HK2. simpl in HK2. rewrite Nat.eqb_refl in HK2.
      rewrite orb_true_r in HK2. discriminate.
    + destruct (IH _ H2) as (-> & -> & ->). subst. auto.
Qed.

(** Appending an event other than EvPass, EvTask, EvChange. *)
Definition t_neutral (e : event) : bool :=
  match e with EvPass _ _ | EvTask _ _ _ | EvChange _ => false | _ => true end.

Lemma passes_snoc l e :
  passes_ok l ->
  (forall i ts, e = EvPass i ts -> ts = in_force l) ->
  (forall i id r, e = EvTask i id r -> exists ts t rem, serving i l ts (t :: rem) /\ t_id t = id) ->
  passes_ok (l ++ [e]).
Proof.
  intros (P1 & P2 & P3) Hp Ht. split; [|split].
  - intros L1 i ts L2 H. apply app_one_inv in H. destruct H as [(-> & Hx & ->)|(L2' & -> & H)]; eauto.
  - intros L1 i ts L2 L3 H Hs.
    destruct L3 as [|y L3].
    2:{ assert (exists L3', EvPass i ts :: L2 ++ y :: L3 = (EvPass i ts :: L2 ++ L3') ++ [e] /\
                l = L1 ++ EvPass i ts :: L2 ++ L3') as (L3' & _ & E).
        { destruct (exists_last (l := y :: L3)) as (q & z & Hq); [discriminate|].
          exists q. rewrite Hq in *. replace (L1 ++ EvPass i ts :: L2 ++ q ++ [z])
            with ((L1 ++ EvPass i ts :: L2 ++ q) ++ [z]) in H
            by (rewrite <- !app_assoc; simpl; rewrite <- !app_assoc; reflexivity).
          apply app_inj_tail in H. destruct H as [-> ->]. split; [|reflexivity].
          simpl. rewrite <- !app_assoc. reflexivity. }
        eapply P2; eauto. }
    rewrite app_nil_r in H. apply app_one_inv in H.
    destruct H as [(-> & Hx & ->)|(L2' & -> & H)]; [simpl; discriminate|].
    rewrite existsb_app in Hs. apply orb_false_iff in Hs. destruct Hs as [Hs _].
    rewrite task_calls_app.
    assert (serve ts (task_calls i L2') <> None) as Hn by (apply (P2 L1 i ts L2' []); rewrite ?app_nil_r; auto).
    destruct (serve ts (task_calls i L2')) as [rem0|] eqn:E; [|congruence].
    rewrite (serve_app _ _ _ _ E).
    destruct e as [ | | | |j id r| ]; simpl; try discriminate.
    destruct (Nat.eqb_spec j i) as [->|]; [|simpl; discriminate].
    destruct (Ht i id r eq_refl) as (us & t & rem & (K1 & K2 & HK & HKs & HKr) & Hid).
    destruct (last_pass_unique _ _ _ _ _ _ _ _ H Hs HK HKs) as (-> & -> & ->).
    rewrite E in HKr. injection HKr as ->. simpl. rewrite Hid, Nat.eqb_refl. discriminate.
  - intros L1 i id r L2 H. apply app_one_inv in H. destruct H as [(-> & Hx & ->)|(L2' & -> & H)]; eauto.
    destruct (Ht i id r (eq_sym Hx)) as (us & t & rem & (K1 & K2 & HK & _) & _).
    rewrite HK, existsb_app. simpl. rewrite Nat.eqb_refl, orb_true_r. reflexivity.
Qed.

Lemma changes_snoc ops l e :
  changes_ok ops l ->
  (forall ts, e = EvChange ts ->
     Permutation ts (registered (firstn (S (changes l)) (filter is_change ops))) /\ sorted_desc ts = true) ->
  changes_ok ops (l ++ [e]).
Proof.
  intros H He L1 ts L2 HL. apply app_one_inv in HL. destruct HL as [(-> & Hx & ->)|(L2' & -> & HL)]; eauto.
Qed.

Lemma serving_snoc i l ts rem e :
  serving i l ts rem -> starts_pass i e = false -> task_calls i [e] = [] -> serving i (l ++ [e]) ts rem.
Proof.
  intros (L1 & L2 & -> & H1 & H2) He Hc. exists L1, (L2 ++ [e]). split.
  - rewrite <- app_assoc. reflexivity.
  - split; [rewrite existsb_app, H1; simpl; rewrite He; reflexivity|].
    rewrite task_calls_app, Hc, app_nil_r. assumption.
Qed.

Lemma in_force_snoc l e : (forall ts, e <> EvChange ts) -> in_force (l ++ [e]) = in_force l.
Proof. intros H. unfold in_force. rewrite in_force_app. destruct e; simpl; auto. destruct (H ts); auto. Qed.
Lemma changes_snoc0 l e : (forall ts, e <> EvChange ts) -> changes (l ++ [e]) = changes l.
Proof. intros H. rewrite changes_app. destruct e; simpl; auto; try lia. destruct (H ts); auto. Qed.

(** A step that keeps tasks; [ws] may change worker [i] only. *)
Lemma TInv_worker ops s i w w' l' p fn wc :
  TInv ops s -> nth_error (s_workers s) i = Some w ->
  pending p = pending (s_mpc s) ->
  in_force l' = in_force (s_log s) -> changes l' = changes (s_log s) ->
  changes_ok ops l' -> passes_ok l' ->
  (forall j ts rem, j <> i -> serving j (s_log s) ts rem -> serving j l' ts rem) ->
  (forall rem, w_pc w' = WTask rem -> serving i l' (s_tasks s) rem) ->
  TInv ops (mkS p fn (s_go s) (s_stop s) wc (s_tasks s) (s_nid s)
           (upd (s_workers s) i w') (s_todo s) (s_cur s) (s_nxt s) l').
Proof.
  intros HT Hi Hp Hf Hc Hco Hpo Hs Hw. destruct HT. constructor; simpl; auto.
  - rewrite Hp, Hc. assumption.
  - congruence.
  - intros j x rem Hj Hx. destruct (Nat.eq_dec j i) as [->|Hne].
    + rewrite (upd_nth_same _ _ _ _ Hi) in Hj. injection Hj as <-. auto.
    + rewrite upd_nth_other in Hj by assumption. eauto.
Qed.

Ltac tpure HT Hi :=
  apply (TInv_worker _ _ _ _ _ _ _ _ _ HT Hi); simpl; auto; try apply HT; try discriminate.

Lemma step_worker_tinv N ops s i r s' :
  Inv N s -> TInv ops s -> step_worker s i r = Some s' -> TInv ops s'.
Proof.
  intros HI HT H. unfold step_worker in H.
  destruct (nth_error (s_workers s) i) as [w|] eqn:Hi; [|discriminate].
  destruct (w_pc w) as [|to| | | | | | |n| | | | | | |rem| |] eqn:Hpc.
  - destruct (m_holds (s_mpc s)); [discriminate|]. injection H as <-. tpure HT Hi.
  - destruct (s_stop s || (r && negb (s_go s) && negb (length (s_tasks s) =? 0)) || w_flag w)%bool;
      [injection H as <-; tpure HT Hi|].
    destruct (to && r)%bool; injection H as <-; tpure HT Hi.
  - injection H as <-. tpure HT Hi.
  - destruct (m_holds (s_mpc s)); [discriminate|]. injection H as <-. tpure HT Hi.
  - injection H as <-. tpure HT Hi.
  - injection H as <-. destruct (s_stop s) eqn:E; tpure HT Hi.
  - injection H as <-. destruct (w_flag w) eqn:E; tpure HT Hi.
  - destruct (s_fn s); [|discriminate]. injection H as <-. unfold emit; simpl. tpure HT Hi.
    + apply in_force_snoc. discriminate.
    + apply changes_snoc0. discriminate.
    + apply changes_snoc; [apply HT|discriminate].
    + apply passes_snoc; [apply HT|discriminate|discriminate].
    + intros j ts rem Hj Hs. apply serving_snoc; auto.
  - injection H as <-. unfold emit; simpl. tpure HT Hi.
    + apply in_force_snoc. discriminate.
    + apply changes_snoc0. discriminate.
    + apply changes_snoc; [apply HT|discriminate].
    + apply passes_snoc; [apply HT|discriminate|discriminate].
    + intros j ts rem Hj Hs. apply serving_snoc; auto.
  - destruct (m_holds (s_mpc s)); [discriminate|]. injection H as <-. tpure HT Hi.
  - injection H as <-. tpure HT Hi.
  - injection H as <-. tpure HT Hi.
  - injection H as <-. tpure HT Hi. destruct (s_mpc s); reflexivity.
  - injection H as <-. tpure HT Hi.
  - destruct (m_holds (s_mpc s)); [discriminate|]. injection H as <-. unfold emit; simpl. tpure HT Hi.
    + apply in_force_snoc. discriminate.
    + apply changes_snoc0. discriminate.
    + apply changes_snoc; [apply HT|discriminate].
    + apply passes_snoc; [apply HT| |discriminate].
      intros k ts E. injection E as <- <-. symmetry. apply HT.
    + intros j ts rem Hj Hs. apply serving_snoc; auto. simpl. apply Nat.eqb_neq. auto.
    + intros rem E. injection E as <-. exists (s_log s), []. split; [reflexivity|auto].
  - pose proof (T_serv _ _ HT _ _ _ Hi Hpc) as Hsv.
    destruct rem as [|t rem]; [injection H as <-; tpure HT Hi|].
    destruct (s_go s) eqn:Hgo; injection H as <-; [tpure HT Hi|].
    unfold emit; simpl. tpure HT Hi.
    + apply in_force_snoc. discriminate.
    + apply changes_snoc0. discriminate.
    + apply changes_snoc; [apply HT|discriminate].
    + apply passes_snoc; [apply HT|discriminate|].
      intros k id q E. injection E as <- <- <-. eauto 6.
    + intros j ts rm Hj Hs. apply serving_snoc; auto. simpl.
      destruct (Nat.eqb_spec i j); [congruence|reflexivity].
    + intros rm E. injection E as <-. destruct Hsv as (L1 & L2 & HL & H1 & H2).
      exists L1, (L2 ++ [EvTask i (t_id t) r]). rewrite HL. split; [rewrite <- app_assoc; reflexivity|].
      split; [rewrite existsb_app, H1; reflexivity|].
      rewrite task_calls_app. simpl. rewrite Nat.eqb_refl. rewrite (serve_app _ _ _ _ H2). simpl.
      rewrite Nat.eqb_refl. destruct r; reflexivity.
  - injection H as <-. tpure HT Hi.
  - discriminate.
Qed.

Lemma TInv_main ops s p fn g st wc ws c n l' :
  TInv ops s -> pending p = pending (s_mpc s) ->
  (l' = s_log s \/ exists e, l' = s_log s ++ [e] /\ t_neutral e = true) ->
  (forall i w rem, nth_error ws i = Some w -> w_pc w = WTask rem ->
     exists w0, nth_error (s_workers s) i = Some w0 /\ w_pc w0 = WTask rem) ->
  TInv ops (mkS p fn g st wc (s_tasks s) (s_nid s) ws (s_todo s) c n l').
Proof.
  intros HT Hp Hl Hw. destruct HT.
  assert (in_force l' = in_force (s_log s) /\ changes l' = changes (s_log s) /\ changes_ok ops l' /\
          passes_ok l' /\ forall i ts rem, serving i (s_log s) ts rem -> serving i l' ts rem)
    as (A1 & A2 & A3 & A4 & A5).
  { destruct Hl as [->|(e & -> & He)]; [split; [|split; [|split; [|split]]]; auto|].
    split; [apply in_force_snoc; intros ts ->; discriminate|].
    split; [apply changes_snoc0; intros ts ->; discriminate|].
    split; [apply changes_snoc; auto; intros ts ->; discriminate|].
    split; [apply passes_snoc; auto; intros; subst; discriminate|].
    intros i ts rem Hs. apply serving_snoc; auto; destruct e; try discriminate; reflexivity. }
  constructor; simpl; auto.
  - rewrite Hp, A2. assumption.
  - congruence.
  - intros i w rem Hi Hpc. destruct (Hw _ _ _ Hi Hpc) as (w0 & H0 & H1). eauto.
Qed.

Lemma no_shared_no_task ws i w rem :
  no_shared ws = true -> nth_error ws i = Some w -> w_pc w = WTask rem -> False.
Proof. intros H Hi Hp. pose proof (no_shared_nth _ _ _ H Hi) as E. rewrite Hp in E. discriminate. Qed.

Lemma step_main_tinv N ops s so s' :
  Inv N s -> TInv ops s -> step_main s so = Some s' -> TInv ops s'.
Proof.
  intros HI HT H. unfold step_main in H.
  assert (Hself : forall i w rem, nth_error (s_workers s) i = Some w -> w_pc w = WTask rem ->
     exists w0, nth_error (s_workers s) i = Some w0 /\ w_pc w0 = WTask rem) by eauto.
  destruct (s_mpc s) as [|o|o|o|o|o| | | | | | | | | | |] eqn:Hm;
    try (injection H as <-; unfold set_mpc, set_go, emit; simpl; apply TInv_main; auto;
         try (rewrite Hm; reflexivity); right; eexists; split; reflexivity).
  - destruct (s_todo s) as [|o rest] eqn:Ht; injection H as <-.
    + unfold set_mpc. apply TInv_main; auto. rewrite Hm; reflexivity.
    + destruct HT. constructor; simpl; auto.
      destruct T_done0 as (d & D1 & D2 & D3 & D4). exists d. repeat split; auto.
      rewrite D1, Hm, Ht. simpl. destruct (is_change o); reflexivity.
  - destruct (no_shared (s_workers s)) eqn:Hns; [|discriminate]. injection H as <-.
    unfold set_mpc; simpl. apply TInv_main; auto. rewrite Hm; reflexivity.
  - (* MHold *)
    assert (Hns : no_shared (s_workers s) = true) by (apply (I_lock _ _ HI); rewrite Hm; reflexivity).
    destruct o as [|p|].
    + injection H as <-. apply TInv_main; auto; [rewrite Hm; reflexivity|].
      intros i w rem Hi Hw. rewrite nth_error_map in Hi.
      destruct (nth_error (s_workers s) i) as [w0|] eqn:E; [|discriminate]. injection Hi as <-.
      simpl in Hw. eauto.
    + destruct (sort_result_ok _ so) eqn:Hso; [|discriminate]. injection H as <-.
      unfold sort_result_ok in Hso. apply andb_true_iff in Hso. destruct Hso as [S1 S2].
      apply is_perm_perm in S1.
      destruct HT. rewrite Hm in *. simpl in T_done0. destruct T_done0 as (d & D1 & D2 & D3 & D4).
      assert (Permutation so (registered (d ++ [OAdd p]))) as Hpm.
      { unfold registered. rewrite registered_from_add. rewrite <- S1. simpl. rewrite D4.
        apply Permutation_app_tail. assumption. }
      unfold set_mpc, emit, set_tasks. constructor; simpl; auto.
      * exists (d ++ [OAdd p]). split; [rewrite D1, <- app_assoc; reflexivity|].
        split; [rewrite changes_app, app_length, D2; reflexivity|].
        split; [assumption|]. rewrite adds_app, D4. reflexivity.
      * unfold in_force. rewrite in_force_app. reflexivity.
      * apply changes_snoc; auto. intros ts E. injection E as <-. split; [|assumption].
        rewrite D1, D2. change (OAdd p :: filter is_change (s_todo s))
          with ([OAdd p] ++ filter is_change (s_todo s)). rewrite app_assoc.
        replace (S (length d)) with (length (d ++ [OAdd p]) + 0) by (rewrite app_length; simpl; lia).
        rewrite firstn_app_2, firstn_O, app_nil_r. assumption.
      * apply passes_snoc; auto; discriminate.
      * intros i w rem Hi Hw. exfalso. eapply no_shared_no_task; eauto.
    + injection H as <-.
      destruct HT. rewrite Hm in *. simpl in T_done0. destruct T_done0 as (d & D1 & D2 & D3 & D4).
      unfold set_mpc, emit, set_tasks. constructor; simpl; auto.
      * exists (d ++ [ODelete]). split; [rewrite D1, <- app_assoc; reflexivity|].
        split; [rewrite changes_app, app_length, D2; reflexivity|].
        split; [unfold registered; rewrite registered_from_del; reflexivity|].
        rewrite adds_app, D4. simpl. lia.
      * unfold in_force. rewrite in_force_app. reflexivity.
      * apply changes_snoc; auto. intros ts E. injection E as <-. split; [|reflexivity].
        rewrite D1, D2. change (ODelete :: filter is_change (s_todo s))
          with ([ODelete] ++ filter is_change (s_todo s)). rewrite app_assoc.
        replace (S (length d)) with (length (d ++ [ODelete]) + 0) by (rewrite app_length; simpl; lia).
        rewrite firstn_app_2, firstn_O, app_nil_r.
        unfold registered; rewrite registered_from_del; reflexivity.
      * apply passes_snoc; auto; discriminate.
      * intros i w rem Hi Hw. exfalso. eapply no_shared_no_task; eauto.
  - destruct o; injection H as <-; unfold set_mpc, emit; simpl; apply TInv_main; auto;
      try (rewrite Hm; reflexivity); right; eexists; split; reflexivity.
  - destruct (no_shared (s_workers s)) eqn:Hns; [|discriminate]. injection H as <-.
    unfold set_mpc; simpl. apply TInv_main; auto. rewrite Hm; reflexivity.
  - destruct (s_wcnt s <=? 0)%Z; injection H as <-; unfold set_mpc; apply TInv_main; auto; rewrite Hm; reflexivity.
  - discriminate.
  - injection H as <-. unfold set_mpc, set_workers; simpl. apply TInv_main; auto; [rewrite Hm; reflexivity|].
    intros i w rem Hi Hw. rewrite nth_error_map in Hi.
    destruct (nth_error (s_workers s) i) as [w0|] eqn:E; [|discriminate]. injection Hi as <-.
    unfold wake_worker in Hw. exists w0. split; [reflexivity|]. destruct (w_pc w0) eqn:E0; rewrite ?E0 in Hw; auto; discriminate.
  - destruct (forallb _ _); [|discriminate]. injection H as <-. unfold set_mpc; simpl.
    apply TInv_main; auto. rewrite Hm; reflexivity.
  - discriminate.
Qed.

Lemma step_tinv N ops s l s' : Inv N s -> TInv ops s -> step s l = Some s' -> TInv ops s'.
Proof.
  intros HI HT H. destruct l as [so|i r|]; simpl in H.
  - eapply step_main_tinv; eauto.
  - eapply step_worker_tinv; eauto.
  - unfold spurious_main in H. destruct (s_mpc s) eqn:Hm; try discriminate. injection H as <-.
    unfold set_mpc; simpl. apply TInv_main; eauto. rewrite Hm; reflexivity.
Qed.

Lemma init_tinv N ops : TInv ops (init N ops).
Proof.
  constructor; simpl; auto.
  - exists []. repeat split; auto.
  - intros L1 ts L2 H. destruct L1; discriminate.
  - repeat split; intros L1 *; intros H; destruct L1; discriminate.
  - intros i w rem Hi Hw. apply nth_error_repeat_inv in Hi as ->. discriminate.
Qed.

Lemma exec_all N ops : forall ls s s',
  Inv N s -> Hist N ops s -> TInv ops s -> exec s ls = Some s' ->
  Inv N s' /\ Hist N ops s' /\ TInv ops s'.
Proof.
  induction ls as [|l ls IH]; intros s s' HI HH HT H; simpl in H.
  - injection H as <-. auto.
  - destruct (step s l) as [s1|] eqn:E; [|discriminate]. simpl in H.
    destruct (step_both _ _ _ _ _ HI HH E) as [HI1 HH1].
    pose proof (step_tinv _ _ _ _ _ HI HT E). eapply IH; eauto.
Qed.

Lemma reach_all N ops ls s :
  exec (init N ops) ls = Some s -> Inv N s /\ Hist N ops s /\ TInv ops s.
Proof. intros H. destruct (init_inv N ops). eapply exec_all; eauto. apply init_tinv. Qed.

(** Progress: unless the destructor has completed, some thread can move; the
    sort oracle can always answer. *)
Fixpoint insert_desc (t : task) (ts : list task) : list task :=
  match ts with
  | [] => [t]
  | x :: ts' => if (t_prio x <=? t_prio t)%Z then t :: x :: ts' else x :: insert_desc t ts'
  end.

Lemma task_eqb_refl t : task_eqb t t = true.
Proof. unfold task_eqb. rewrite Nat.eqb_refl, Z.eqb_refl. reflexivity. Qed.

Lemma remove_one_app t : forall a b, remove_one t (a ++ t :: b) <> None.
Proof.
  induction a as [|x a IH]; intros b; simpl.
  - rewrite task_eqb_refl. discriminate.
  - destruct (task_eqb t x); [discriminate|]. specialize (IH b).
    destruct (remove_one t (a ++ t :: b)); [discriminate|congruence].
Qed.

Lemma perm_is_perm : forall a b, Permutation a b -> is_perm a b = true.
Proof.
  induction a as [|t a IH]; intros b H; simpl.
  - apply Permutation_nil in H as ->. reflexivity.
  - assert (In t b) as Hin by (eapply Permutation_in; [exact H|left; reflexivity]).
    apply in_split in Hin. destruct Hin as (b1 & b2 & ->).
    pose proof (remove_one_app t b1 b2) as Hr. destruct (remove_one t (b1 ++ t :: b2)) as [b'|] eqn:E; [|congruence].
    apply IH. apply remove_one_perm in E. rewrite E in H. apply Permutation_cons_inv in H. assumption.
Qed.

Lemma insert_desc_perm t ts : Permutation (ts ++ [t]) (insert_desc t ts).
Proof.
  induction ts as [|x ts IH]; simpl; [reflexivity|].
  destruct (_ <=? _)%Z.
  - rewrite Permutation_app_comm. simpl. apply perm_swap.
  - constructor. assumption.
Qed.

Lemma insert_desc_sorted t : forall ts, sorted_desc ts = true -> sorted_desc (insert_desc t ts) = true.
Proof.
  induction ts as [|x ts IH]; intros H; [reflexivity|]. cbn [insert_desc].
  destruct (t_prio x <=? t_prio t)%Z eqn:E.
  - cbn [sorted_desc]. rewrite E. exact H.
  - apply Z.leb_gt in E. destruct ts as [|y ts]; cbn [insert_desc] in *.
    + cbn [sorted_desc]. rewrite andb_true_r. apply Z.leb_le. lia.
    + cbn [sorted_desc] in H. apply andb_true_iff in H. destruct H as [H1 H2]. specialize (IH H2).
      destruct (t_prio y <=? t_prio t)%Z.
      * cbn [sorted_desc] in *. rewrite IH, andb_true_r. apply Z.leb_le. lia.
      * change (sorted_desc (x :: y :: insert_desc t ts)) with
          ((t_prio y <=? t_prio x)%Z && sorted_desc (y :: insert_desc t ts)).
        rewrite H1, IH. reflexivity.
Qed.

Lemma sum_pos {A} (f : A -> nat) l : 0 < sum_of f l -> exists i w, nth_error l i = Some w /\ 0 < f w.
Proof.
  induction l as [|x l IH]; intros H; [simpl in H; unfold sum_of in H; simpl in H; lia|].
  rewrite sum_of_cons in H. destruct (f x) eqn:E.
  - destruct (IH ltac:(lia)) as (i & w & Hi & Hw). exists (S i), w. auto.
  - exists 0, x. split; [reflexivity|lia].
Qed.

Lemma worker_can_step N s i w :
  Inv N s -> nth_error (s_workers s) i = Some w -> w_pc w <> WExit ->
  (m_holds (s_mpc s) = false \/ w_holds (w_pc w) = true) -> can_step s.
Proof.
  intros HI Hi Hx Hh. exists (LWorker i false).
  assert (step_worker s i false <> None) as Hn.
  { unfold step_worker. rewrite Hi.
    destruct (w_pc w) as [|to| | | | | | |n| | | | | | |rem| |] eqn:Hpc; simpl in Hh;
      try discriminate; try congruence;
      try (destruct (m_holds (s_mpc s)) eqn:E; [destruct Hh; discriminate|discriminate]).
    - destruct (_ || _ || _)%bool; [discriminate|]. destruct (to && false)%bool; discriminate.
    - pose proof (I_w _ _ HI _ _ Hi) as W. unfold winv in W. rewrite Hpc in W.
      assert (owes w = 1) as Ho by (unfold owes; rewrite W; reflexivity).
      rewrite (I_fn _ _ HI (active_of_owes _ _ _ _ HI Hi Ho)). discriminate.
    - destruct rem; [discriminate|]. destruct (s_go s); discriminate. }
  destruct (step_worker s i false) as [s'|] eqn:E; [|congruence].
  exists s'. split; [reflexivity|]. exact E.
Qed.

Lemma lock_or_step N s :
  Inv N s -> m_holds (s_mpc s) = false -> can_step s \/ no_shared (s_workers s) = true.
Proof.
  intros HI Hh. destruct (no_shared (s_workers s)) eqn:E; [auto|left].
  destruct (no_shared_false _ E) as (i & w & Hi & Hw).
  eapply worker_can_step; eauto. intros Ex. rewrite Ex in Hw. discriminate.
Qed.

Lemma progress N ops s :
  Inv N s -> TInv ops s -> s_mpc s <> MJoined -> can_step s.
Proof.
  intros HI HT Hj.
  assert (Hmain : forall so, step_main s so <> None -> can_step s).
  { intros so Hn. destruct (step_main s so) as [s'|] eqn:E; [|congruence].
    exists (LMain so), s'. auto. }
  destruct (s_mpc s) as [|o|o|o|o|o| | | | | | | | | | |] eqn:Hm; try congruence;
    try (apply (Hmain []); unfold step_main; rewrite Hm; try discriminate; fail).
  - apply (Hmain []). unfold step_main. rewrite Hm. destruct (s_todo s); discriminate.
  - destruct (lock_or_step _ _ HI) as [|Hns]; [rewrite Hm; reflexivity|assumption|].
    apply (Hmain []). unfold step_main. rewrite Hm, Hns. discriminate.
  - destruct o as [|p|]; try (apply (Hmain []); unfold step_main; rewrite Hm; discriminate).
    apply (Hmain (insert_desc (mkT (s_nid s) p) (s_tasks s))). unfold step_main. rewrite Hm.
    unfold sort_result_ok. rewrite (perm_is_perm _ _ (insert_desc_perm _ _)).
    rewrite insert_desc_sorted by apply HT. discriminate.
  - destruct o; apply (Hmain []); unfold step_main; rewrite Hm; discriminate.
  - destruct (lock_or_step _ _ HI) as [|Hns]; [rewrite Hm; reflexivity|assumption|].
    apply (Hmain []). unfold step_main. rewrite Hm, Hns. discriminate.
  - apply (Hmain []). unfold step_main. rewrite Hm. destruct (_ <=? _)%Z; discriminate.
  - (* MSleep *)
    assert (exists i w, nth_error (s_workers s) i = Some w /\ w_pc w <> WExit) as (i & w & Hi & Hw).
    { pose proof (I_stop _ _ HI) as Hs. rewrite Hm in Hs. simpl in Hs.
      destruct (I_sleep _ _ HI Hm) as [Hp|Hp]; destruct (sum_pos _ _ Hp) as (i & w & Hi & _);
        exists i, w; (split; [assumption|]); intros E; pose proof (I_w _ _ HI _ _ Hi) as W;
        unfold winv in W; rewrite E in W; congruence. }
    eapply worker_can_step; eauto. left. rewrite Hm. reflexivity.
  - destruct (forallb (fun w => match w_pc w with WExit => true | _ => false end) (s_workers s)) eqn:E.
    + apply (Hmain []). unfold step_main. rewrite Hm, E. discriminate.
    + assert (exists i w, nth_error (s_workers s) i = Some w /\ w_pc w <> WExit) as (i & w & Hi & Hw).
      { clear -E. induction (s_workers s) as [|x l IH]; simpl in E; [discriminate|].
        destruct (w_pc x) eqn:Ex;
          try (exists 0, x; split; [reflexivity|rewrite Ex; discriminate]; fail).
        simpl in E. destruct (IH E) as (i & w & Hi & Hw). exists (S i), w. auto. }
      eapply worker_can_step; eauto. left. rewrite Hm. reflexivity.
Qed.

(** ** The destructor terminates: after the stop flag is set every worker needs
    a bounded number of steps to exit, except that a worker inside a task call
    finishes that call. *)
Definition wmeas (w : worker) : nat :=
  match w_pc w with
  | WExit => 0
  | WStop => 1
  | WUnlock => 2
  | WPred _ => 3
  | WLock | WSleep => 4
  | WPreSleep => 5
  | WTUnlock | WFinUnlock => 5
  | WNotify => 6
  | WDec => 7
  | WClear => 8
  | WFinLock => 9
  | WCalled _ => 10
  | WCall => 11
  | WTask _ => 6
  | WTLock => 7
  | WChk => 12
  end.

Definition dmeas (s : state) : nat :=
  sum_of wmeas (s_workers s) +
  match s_mpc s with MStopNotify => 2 | MJoin => 1 | _ => 0 end.

Definition d_phase (s : state) : Prop :=
  s_go s = true /\ s_stop s = true /\ (s_mpc s = MStopNotify \/ s_mpc s = MJoin \/ s_mpc s = MJoined).

Lemma d_step s l s' :
  d_phase s -> step s l = Some s' -> d_phase s' /\ dmeas s' < dmeas s.
Proof.
  intros (Hg & Hs & Hm) H. destruct l as [so|i r|]; simpl in H.
  - unfold step_main in H. destruct Hm as [Hm|[Hm|Hm]]; rewrite Hm in H.
    + injection H as <-. unfold d_phase, dmeas, set_mpc, set_workers; simpl. rewrite Hm.
      split; [auto|].
      assert (sum_of wmeas (map wake_worker (s_workers s)) = sum_of wmeas (s_workers s)).
      { apply sum_wake. intros w. unfold wmeas, wake_worker. destruct (w_pc w) eqn:E; rewrite ?E; reflexivity. }
      lia.
    + destruct (forallb _ _); [|discriminate]. injection H as <-.
      unfold d_phase, dmeas, set_mpc; simpl. rewrite Hm. split; [auto|]. lia.
    + discriminate.
  - unfold step_worker in H. destruct (nth_error (s_workers s) i) as [w|] eqn:Hi; [|discriminate].
    assert (G : forall w' fn wc ts nid lg, wmeas w' < wmeas w ->
        d_phase (mkS (s_mpc s) fn (s_go s) (s_stop s) wc ts nid (upd (s_workers s) i w') (s_todo s) (s_cur s) (s_nxt s) lg) /\
        dmeas (mkS (s_mpc s) fn (s_go s) (s_stop s) wc ts nid (upd (s_workers s) i w') (s_todo s) (s_cur s) (s_nxt s) lg) < dmeas s).
    { intros w' fn wc ts nid lg Hw. split; [split; [|split]; simpl; auto|].
      unfold dmeas; simpl. pose proof (sum_of_upd wmeas _ _ w' _ Hi). lia. }
    assert (wake_main (s_mpc s) = s_mpc s) as Hwm by (destruct Hm as [-> | [-> | ->]]; reflexivity).
    assert (forall p, m_holds (s_mpc s) = p -> p = false) as Hmh by (destruct Hm as [-> | [-> | ->]]; simpl; auto).
    unfold wmeas in G at 2.
    destruct (w_pc w) as [|to| | | | | | |n| | | | | | |rem| |] eqn:Hpc.
    + rewrite (Hmh _ eq_refl) in H. injection H as <-. apply G. unfold wmeas; simpl. lia.
    + rewrite Hs in H. simpl in H. injection H as <-. apply G. unfold wmeas; simpl. lia.
    + injection H as <-. apply G. unfold wmeas; simpl. lia.
    + rewrite (Hmh _ eq_refl) in H. injection H as <-. apply G. unfold wmeas; simpl. lia.
    + injection H as <-. apply G. unfold wmeas; simpl. lia.
    + rewrite Hs in H. injection H as <-. apply G. unfold wmeas; simpl. lia.
    + injection H as <-. destruct (w_flag w); apply G; unfold wmeas; simpl; lia.
    + destruct (s_fn s); [|discriminate]. injection H as <-. apply G. unfold wmeas; simpl. lia.
    + injection H as <-. apply G. unfold wmeas; simpl. lia.
    + rewrite (Hmh _ eq_refl) in H. injection H as <-. apply G. unfold wmeas; simpl. lia.
    + injection H as <-. apply G. unfold wmeas; simpl. lia.
    + injection H as <-. apply G. unfold wmeas; simpl. lia.
    + injection H as <-. unfold set_mpc, set_workers; simpl. rewrite Hwm. apply G. unfold wmeas; simpl. lia.
    + injection H as <-. apply G. unfold wmeas; simpl. lia.
    + rewrite (Hmh _ eq_refl) in H. injection H as <-. apply G. unfold wmeas; simpl. lia.
    + rewrite Hg in H. destruct rem; injection H as <-; apply G; unfold wmeas; simpl; lia.
    + injection H as <-. apply G. unfold wmeas; simpl. lia.
    + discriminate.
  - unfold spurious_main in H. destruct Hm as [Hm|[Hm|Hm]]; rewrite Hm in H; discriminate.
Qed.

Lemma d_exec : forall ls s s', d_phase s -> exec s ls = Some s' -> d_phase s' /\ length ls + dmeas s' <= dmeas s.
Proof.
  induction ls as [|l ls IH]; intros s s' Hd H; simpl in H.
  - injection H as <-. simpl. auto.
  - destruct (step s l) as [s1|] eqn:E; [|discriminate]. simpl in H.
    destruct (d_step _ _ _ Hd E) as [Hd1 Hm1]. destruct (IH _ _ Hd1 H) as [Hd2 Hm2].
    split; [assumption|]. simpl. lia.
Qed.

Lemma sum_bound {A} (f : A -> nat) b l : (forall w, f w <= b) -> sum_of f l <= b * length l.
Proof.
  intros H. induction l as [|x l IH]; [unfold sum_of; simpl; lia|]. rewrite sum_of_cons.
  simpl length. rewrite Nat.mul_succ_r. specialize (H x). lia.
Qed.

Lemma wmeas_le w : wmeas w <= 12.
Proof. unfold wmeas. destruct (w_pc w); lia. Qed.

(** A reachable state in which the destructor has set both flags. *)
Lemma destructor_ends N ops sched s so s1 sched' s' :
  exec (init N ops) sched = Some s -> s_mpc s = MStopGo -> step s (LMain so) = Some s1 ->
  exec s1 sched' = Some s' ->
  length sched' <= 12 * N + 2 /\ (s_mpc s' <> MJoined -> can_step s').
Proof.
  intros H Hm H1 H2. destruct (reach_all _ _ _ _ H) as (HI & HH & HT).
  destruct (step_both _ _ _ _ _ HI HH H1) as [HI1 HH1].
  pose proof (step_tinv _ _ _ _ _ HI HT H1) as HT1.
  destruct (exec_all _ _ _ _ _ HI1 HH1 HT1 H2) as (HI2 & HH2 & HT2).
  assert (d_phase s1) as Hd.
  { simpl in H1. unfold step_main in H1. rewrite Hm in H1. injection H1 as <-.
    pose proof (I_stop _ _ HI) as E. rewrite Hm in E. unfold d_phase; simpl. auto. }
  destruct (d_exec _ _ _ Hd H2) as [_ L]. split.
  - pose proof (sum_bound wmeas 12 (s_workers s1) wmeas_le) as B. rewrite (I_len _ _ HI1) in B.
    unfold dmeas in L at 2. destruct (s_mpc s1); lia.
  - intros Hj. eapply progress; eauto.
Qed.
