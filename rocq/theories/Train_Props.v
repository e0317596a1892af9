(** Theorems about train(): C42 - C45, C77. *)
From Coq Require Import Reals Lra Permutation.
From Verif Require Import Base BaseLemmas Workers_Model Kern_Model Kern_Spec Smx_Model Smx_Spec TData_Model TData_Spec
  TData_Props Train_Model Train_Spec Train_Proofs Train_Proofs2 Train_Proofs3 Train_Proofs4.
Local Open Scope nat_scope.

(** ** C42 *)
(** Every call of train(), at any time in the life of a network and a training data
    object used with the same two sizes, returns and does exactly what the plan of the
    session says; and the layers always know the batch size in effect. *)
Theorem C42_session : forall A B (oneA : A) (oneB : B) S E O fp tb s,
  coherent oneA S -> env_ok E -> life oneA oneB S fp tb s -> asks S O fp tb ->
  exists ec s' new, train oneA oneB S E O s = Some (ec, s') /\ n_h s' = new ++ n_h s /\
    session oneA oneB S O fp tb ec (rev new) /\ informed (n_h s').
Proof.
  intros A B oneA oneB S E O fp tb s HS HE HL HO.
  destruct (session_ok oneA oneB S fp tb HS E O HE HO s (life_live oneA oneB S fp tb HS s HL)) as (ec & s' & new & H1 & _ & H2 & H3 & H4 & _).
  exists ec, s', new. auto.
Qed.
Print Assumptions C42_session.

(** Three training samples in batches of two, two epochs, a report after the second. *)
Definition ex_opts : opts := mkO 2 0 2 (fun e => e =? 1) 0 None false false false true true.
Definition ex_e (loss : list (event nat nat) -> smx nat -> fl) : env nat nat :=
  mkE 1 1 (fun _ => ex_env) (fun _ => ex_env) (fun _ => true) (fun _ => true) (fun _ => true)
    (fun _ => ex_im1) (fun _ k => k - 1) false false (fun _ => Some 0%R) loss (fun _ => true) (fun _ => true) (fun _ _ => true).
Definition ex_nn : nn nat nat := mkNN 0 0 0 false false false (Some 0%R) true ex_none [].
Definition ex_loss1 (_ : list (event nat nat)) (y : smx nat) : fl := Some (INR (batch_size y)).
Lemma ex_e_ok loss : env_ok (ex_e loss).
Proof. intros h. split; [exact ex_im1_ok|]. intros k. cbn. lia. Qed.
Lemma ex_life fp tb : life 1 1 ex_sets fp tb ex_nn.
Proof. apply life_new; reflexivity. Qed.
(** what the calls were, without the data *)
Definition ex_trace (r : option (ecode * nn nat nat)) : option (ecode * list (nat * nat)) :=
  do (ec, s) <- r;
  Some (ec, rev (flat_map (fun v => match v with
    | VFprop true n _ => [(1, n)] | VBprop true n _ => [(2, n)] | VFprop false n _ => [(3, n)] | VBprop false n _ => [(4, n)]
    | VEpoch e n => [(5, n)] | VReport _ _ _ => [(6, 0)] | VEnd => [(7, 0)] | VStart tb fp => [(8, tb); (8, fp)] | _ => [] end) (n_h s))).
Example C42_example :
  coherent 1 ex_sets /\ env_ok (ex_e ex_loss1) /\ life 1 1 ex_sets 3 2 ex_nn /\ asks ex_sets ex_opts 3 2 /\
  ex_trace (train 1 1 ex_sets (ex_e ex_loss1) ex_opts ex_nn) = Some (ESuccess,
    [(8, 3); (8, 2); (3, 3); (3, 2); (6, 0); (5, 1); (1, 2); (2, 2); (5, 1); (1, 2); (2, 2); (3, 3); (3, 2); (6, 0); (7, 0)]).
Proof.
  split; [exact (proj1 ex_coherent)|]. split; [apply ex_e_ok|]. split; [apply ex_life|]. split; [split; reflexivity|]. vm_compute. reflexivity.
Qed.

(** ** C43 *)
(** Divergence is reported iff the training loss of a checked epoch is a number that
    reaches the threshold. *)
Theorem C43_divergence_partial : forall A B (oneA : A) (oneB : B) S E O s ec s' new,
  train oneA oneB S E O s = Some (ec, s') -> n_h s' = new ++ n_h s ->
  (ec = EDiverged <->
   exists e v w t, In (VReport (Z.of_nat e) (Some v) w) new /\ (Z.of_nat e < o_last O)%Z /\ o_thr O = Some t /\ (v >= t)%R).
Proof.
  intros A B oneA oneB S E O s ec s' new H Hn. destruct (exits oneA oneB S E O s ec s' H) as [[-> Hc]|(_ & new2 & Hn2 & _ & _ & _ & _ & Ha)].
  - assert (new = []) as ->.
    { apply (f_equal (@length _)) in Hn. rewrite app_length in Hn. destruct new; [reflexivity|cbn in Hn; lia]. }
    split; [intros ->; destruct Hc as [|[|]]; discriminate|]. intros (e & v & w & t & [] & _).
  - assert (new2 = new) as -> by (rewrite Hn in Hn2; apply app_inv_tail in Hn2; congruence).
    rewrite Ha, Exists_exists. split.
    + intros (ev & Hin & Hal). destruct ev; try contradiction. destruct Hal as (n & -> & Hc & Hg).
      unfold fl_ge in Hg. destruct train as [v|]; [|discriminate]. destruct (o_thr O) as [t|] eqn:Qt; [|discriminate].
      destruct (Rge_dec v t) as [G|]; [|discriminate]. exists n, v, test, t. repeat split; try assumption. apply Z.ltb_lt, Hc.
    + intros (e & v & w & t & Hin & Hl & Ht & Hg). exists (VReport (Z.of_nat e) (Some v) w). split; [exact Hin|].
      exists e. split; [reflexivity|]. split; [apply Z.ltb_lt, Hl|]. rewrite Ht. cbn. destruct (Rge_dec v t); [reflexivity|contradiction].
Qed.
Print Assumptions C43_divergence_partial.

Definition ex_opts_div (thr : fl) : opts := mkO 2 0 2 (fun e => e =? 1) 5 thr false false false true true.
Definition ex_loss0 (_ : list (event nat nat)) (_ : smx nat) : fl := Some 0%R.
(** loss 0 with threshold 0: stops after the first of two epochs *)
Example C43_example : exists s' new, train 1 1 ex_sets (ex_e ex_loss0) (ex_opts_div (Some 0%R)) ex_nn = Some (EDiverged, s') /\
  n_h s' = new ++ n_h ex_nn /\ count (fun v => match v with VEpoch _ _ => true | _ => false end) new = 1.
Proof.
  assert (H : exists s', train 1 1 ex_sets (ex_e ex_loss0) (ex_opts_div (Some 0%R)) ex_nn = Some (EDiverged, s') /\
    count (fun v => match v with VEpoch _ _ => true | _ => false end) (n_h s') = 1).
  { assert (Hg : fl_ge (fl_add (Some R0) (fl_div (Some R0) 3)) (Some R0) = true).
    { cbn. destruct (Rge_dec _ _) as [|G]; [reflexivity|]. exfalso. apply G. right. unfold Rdiv. rewrite Rmult_0_l, Rplus_0_l. reflexivity. }
    cbv -[fl_ge fl_add fl_div fl_is0]. rewrite Hg. eexists. split; reflexivity. }
  destruct H as (s' & H & Hc). exists s', (n_h s'). split; [exact H|]. split; [cbn [n_h ex_nn]; rewrite app_nil_r; reflexivity|exact Hc].
Qed.

(** A loss that is not a number, above every threshold or not, never stops the training. *)
Theorem C43_nan_refuted : exists s',
  train 1 1 ex_sets (ex_e (fun _ _ => None)) (ex_opts_div (Some 0%R)) ex_nn = Some (ESuccess, s') /\
  In (VReport 0 None None) (n_h s') /\ In (VReport 1 None None) (n_h s') /\ o_last (ex_opts_div (Some 0%R)) = 5%Z /\
  coherent 1 ex_sets /\ env_ok (ex_e (fun _ _ => None)).
Proof.
  eexists. split; [vm_compute; reflexivity|]. split; [|split].
  - vm_compute. tauto.
  - vm_compute. tauto.
  - split; [reflexivity|]. split; [exact (proj1 ex_coherent)|apply ex_e_ok].
Qed.
Print Assumptions C43_nan_refuted.

(** ** C44 *)
(** Every call that returns either rejected its parameters without any effect, or left
    the inspector as it was, deinitialised the observer iff it had been initialised,
    and - if asked to - left training data and network deinitialised. *)
Theorem C44_exits : forall A B (oneA : A) (oneB : B) S E O s ec s',
  train oneA oneB S E O s = Some (ec, s') ->
  (s' = s /\ (ec = EInvalidTD \/ ec = EInvalidInputLayer \/ ec = EInvalidOutputLayer)) \/
  (n_insp s' = n_insp s /\ exists new, n_h s' = new ++ n_h s /\
    count is_obs_deinit new = count is_obs_init new /\ count is_obs_init new <= 1 /\
    count is_td_deinit new = (if o_imm O then 1 else 0) /\
    (o_imm O = true -> c_fp s' = 0 /\ c_tb s' = 0 /\ n_td s' = deinit4all (n_td s') /\ net_up (n_h s') = false)).
Proof.
  intros A B oneA oneB S E O s ec s' H. destruct (exits oneA oneB S E O s ec s' H) as [X|(H1 & new & H2 & H3 & H4 & H5 & H6 & _)]; [left; exact X|].
  right. split; [exact H1|]. exists new. do 3 (split; [assumption|]). split; [destruct (o_imm O); exact H5|exact H6].
Qed.
Print Assumptions C44_exits.

(** a session that ends with a failing observer, and one whose layers fail *)
Definition ex_opts_imm : opts := mkO 2 0 2 (fun e => e =? 1) 0 None false true false true true.
Definition ex_fail (init obs : bool) : env nat nat :=
  mkE 1 1 (fun _ => ex_env) (fun _ => ex_env) (fun _ => true) (fun _ => init) (fun _ => true)
    (fun _ => ex_im1) (fun _ k => k - 1) false false (fun _ => Some 0%R) ex_loss1 (fun _ => true) (fun _ => obs) (fun _ _ => true).
Example C44_example :
  (exists s', train 1 1 ex_sets (ex_fail true false) ex_opts_imm ex_nn = Some (EObserver, s') /\
    n_h s' = [VInspector false; VNetDeinit; VTdDeinit; VObsInit false; VNetInit 3 2; VNetDeinit; VTdInit 3 2; VInspector true]) /\
  (exists s', train 1 1 ex_sets (ex_fail false true) ex_opts_imm ex_nn = Some (EInit, s') /\
    n_h s' = [VInspector false; VNetDeinit; VTdDeinit; VNetDeinit; VNetDeinit; VTdInit 3 2; VInspector true]).
Proof. split; eexists; split; vm_compute; reflexivity. Qed.

(** ** C45 *)
(** The reported loss is the sum of the means of the batches of the evaluation: the
    mean if the set is evaluated as a whole, and n/b times the mean for n samples in
    batches of b. *)
Theorem C45_reported_partial : forall A B (oneA : A) (oneB : B) S E O fp tb s ec s' L,
  coherent oneA S -> env_ok E -> life oneA oneB S fp tb s -> asks S O fp tb ->
  o_full O && (e_addW E || e_addA E) = false ->
  train oneA oneB S E O s = Some (ec, s') -> loss_of oneA oneB S E L (n_h s') ->
  forall h1 id v h2, id < 2 -> n_h s' = h1 ++ VLoss id v :: h2 -> length (n_h s) <= length h2 ->
    let f := L h2 id in let n := cnt S id in
    v = Some (batched f n (Nat.min fp n)) /\
    (n <= fp -> v = Some (mean_over f (seq 0 n))) /\
    (fp < n -> n mod fp = 0 -> v = Some (INR (n / fp) * mean_over f (seq 0 n))%R).
Proof.
  intros A B oneA oneB S E O fp tb s ec s' L HS HE HL HO Hno Ht HLo h1 id v h2 Hid Eq Hl f n.
  destruct (session_ok oneA oneB S fp tb HS E O HE HO s (life_live oneA oneB S fp tb HS s HL)) as (ec2 & s2 & new & H1 & _ & _ & _ & _ & H5).
  rewrite H1 in Ht. injection Ht as -> ->. assert (HLo2 : loss_of oneA oneB S E L h2).
  { rewrite Eq in HLo. change (h1 ++ VLoss id v :: h2) with (h1 ++ [VLoss id v] ++ h2) in HLo. do 2 apply loss_of_app in HLo. exact HLo. }
  pose proof (H5 _ _ _ _ Eq Hl L HLo2 Hno) as Hv.
  fold n in Hv. fold f in Hv. destruct (TData_Proofs3.coherent_set oneA S id HS Hid) as (_ & _ & _ & _ & _ & _ & _ & _ & Hn & _).
  fold n in Hn. split; [exact Hv|]. split.
  - intros Hc. rewrite Hv. replace (Nat.min fp n) with n by lia. rewrite batched_whole by lia. reflexivity.
  - intros Hc Hm. rewrite Hv. replace (Nat.min fp n) with fp by lia. rewrite batched_even; [reflexivity| |exact Hm|lia].
    destruct fp; [cbn in Hm; lia|lia].
Qed.
Print Assumptions C45_reported_partial.

(** every sample has loss 1 *)
Lemma ex_loss1_of h : loss_of 1 1 ex_sets (ex_e ex_loss1) (fun _ _ _ => 1%R) h.
Proof.
  intros h1 v h2 _. split; [reflexivity|]. intros bs x y id ids -> _ Hx Hy. cbn [e_loss ex_e]. unfold ex_loss1. destruct Hy as (-> & _). rewrite sum_over_const, Rmult_1_r. reflexivity.
Qed.
Definition ex_opts1 : opts := mkO 1 1 1 (fun _ => false) 0 None false false false true true.
Example C45_example :
  coherent 1 ex_sets /\ env_ok (ex_e ex_loss1) /\ life 1 1 ex_sets 1 1 ex_nn /\ asks ex_sets ex_opts1 1 1 /\
  (forall h, loss_of 1 1 ex_sets (ex_e ex_loss1) (fun _ _ _ => 1%R) h) /\ o_full ex_opts1 && (e_addW (ex_e ex_loss1) || e_addA (ex_e ex_loss1)) = false /\
  exists s', train 1 1 ex_sets (ex_e ex_loss1) ex_opts1 ex_nn = Some (ESuccess, s').
Proof.
  split; [exact (proj1 ex_coherent)|]. split; [apply ex_e_ok|]. split; [apply ex_life|]. split; [split; reflexivity|].
  split; [exact ex_loss1_of|]. split; [reflexivity|]. eexists. vm_compute. reflexivity.
Qed.

(** Three samples with loss 1 each evaluated one by one: the reported loss is 3. *)
Theorem C45_reported_refuted : exists s' h1 v h2,
  train 1 1 ex_sets (ex_e ex_loss1) ex_opts1 ex_nn = Some (ESuccess, s') /\ n_h s' = h1 ++ VLoss 0 (Some v) :: h2 /\
  loss_of 1 1 ex_sets (ex_e ex_loss1) (fun _ _ _ => 1%R) (n_h s') /\ v = 3%R /\ mean_over (fun _ => 1%R) (seq 0 (cnt ex_sets 0)) = 1%R.
Proof.
  destruct C45_example as (H1 & H2 & H3 & H4 & H5 & H6 & (s' & Hs)).
  assert (HX : exists h1 v h2, n_h s' = h1 ++ VLoss 0 v :: h2).
  { assert (Hm : In true (map (fun v => match v with VLoss 0 _ => true | _ => false end) (n_h s'))).
    { change (In true match Some (ESuccess, s') with Some (_, s) => map (fun v => match v with VLoss 0 _ => true | _ => false end) (n_h s) | None => [] end).
      rewrite <- Hs. vm_compute. tauto. }
    apply in_map_iff in Hm. destruct Hm as (v & Hv & Hin). clear - Hv Hin. destruct v; try discriminate Hv. destruct id; [|discriminate Hv].
    apply in_split in Hin. destruct Hin as (a & b & Hab). eauto. }
  destruct HX as (h1 & v & h2 & Eq).
  destruct (C45_reported_partial _ _ 1 1 ex_sets _ ex_opts1 1 1 ex_nn _ s' _ H1 H2 H3 H4 H6 Hs (H5 _) h1 0 v h2 ltac:(lia) Eq ltac:(cbn; lia))
    as (_ & _ & Hv). change (cnt ex_sets 0) with 3 in *. specialize (Hv ltac:(lia) eq_refl).
  assert (Hmean : mean_over (fun _ => 1%R) (seq 0 3) = 1%R).
  { unfold mean_over. rewrite sum_over_const, seq_length. cbn [INR]. field. }
  exists s', h1, 3%R, h2. split; [exact Hs|]. split.
  { rewrite Eq, Hv. change (3 / 1) with 3. replace (mean_over _ _) with 1%R by (symmetry; exact Hmean). cbn [INR]. do 3 f_equal. f_equal. lra. }
  split; [apply H5|]. split; [reflexivity|exact Hmean].
Qed.
Print Assumptions C45_reported_refuted.

(** ** C77 *)
(** After both objects were deinitialised a session gets any sizes it asks for. So it
    does after only the training data object was deinitialised, if the network is
    initialised for smaller sizes than those asked for, or for this batch size. *)
Theorem C77_sizes_partial : forall A B (oneA : A) (oneB : B) S E O fp tb fp2 tb2 s s1,
  coherent oneA S -> env_ok E -> life oneA oneB S fp tb s -> asks S O fp2 tb2 ->
  (s1 = deinit (td_deinit s) \/ s1 = td_deinit s /\ (c_fp s < fp2 \/ c_tb s < tb2 \/ c_tb s = tb2)) ->
  exists ec s' new, train oneA oneB S E O s1 = Some (ec, s') /\ n_h s' = new ++ n_h s1 /\
    session oneA oneB S O fp2 tb2 ec (rev new) /\ informed (n_h s').
Proof.
  intros A B oneA oneB S E O fp tb fp2 tb2 s s1 HS HE HL HO Hs1.
  pose proof (Live_td _ _ _ _ _ _ (life_live oneA oneB S fp tb HS s HL)) as (L1 & L2 & L3).
  assert (HL2 : Live oneA oneB S fp2 tb2 s1).
  { destruct Hs1 as [->|[-> Hc]].
    - split; [apply told_ok_deinit, L1|]. split; [left; reflexivity|]. intros C; inversion C.
    - split; [exact L1|]. split; [left; reflexivity|]. cbn. lia. }
  destruct (session_ok oneA oneB S fp2 tb2 HS E O HE HO _ HL2) as (ec & s' & new & H1 & _ & H2 & H3 & H4 & _).
  exists ec, s', new. auto.
Qed.
Print Assumptions C77_sizes_partial.
Example C77_example : exists s, life 1 1 ex_sets 3 2 s /\ c_tb s = 2 /\ asks ex_sets ex_opts1 1 1 /\
  ex_trace (train 1 1 ex_sets (ex_e ex_loss1) ex_opts1
    (mkNN (c_fp (deinit (td_deinit s))) (c_tb (deinit (td_deinit s))) 0 (c_train s) false false (n_add s) false (n_td (td_deinit s)) [])) =
  Some (ESuccess, [(8, 1); (8, 1); (3, 1); (3, 1); (3, 1); (3, 1); (3, 1); (6, 0); (5, 3); (1, 1); (2, 1); (1, 1); (2, 1); (1, 1); (2, 1); (7, 0)]).
Proof.
  eexists. split.
  { eapply (life_train 1 1 ex_sets 3 2 ex_nn (ex_e ex_loss1) ex_opts); [apply ex_life|apply ex_e_ok|split; reflexivity|].
    vm_compute. reflexivity. }
  split; [reflexivity|]. split; [split; reflexivity|]. vm_compute. reflexivity.
Qed.

(** first batches of 1, then of 2; the network initialises itself again *)
Example C77_example2 : exists s, life 1 1 ex_sets 1 1 s /\ c_fp s = 1 /\ c_tb s = 1 /\ asks ex_sets ex_opts 3 2 /\
  match train 1 1 ex_sets (ex_e ex_loss1) ex_opts (td_deinit s) with
  | Some (_, s') => c_fp s' = 3 /\ c_tb s' = 2
  | None => False
  end.
Proof.
  eexists. split.
  { eapply (life_train 1 1 ex_sets 1 1 ex_nn (ex_e ex_loss1) ex_opts1); [apply ex_life|apply ex_e_ok|split; reflexivity|].
    vm_compute. reflexivity. }
  split; [reflexivity|]. split; [reflexivity|]. split; [split; reflexivity|]. vm_compute. split; reflexivity.
Qed.

(** Without that: a network trained with batches of 2 is trained again and asked for
    batches of 1; the session announces batches of 1 and trains with one batch of 2. *)
Definition ex_opts3 : opts := mkO 1 3 1 (fun _ => false) 0 None false false false true true.
Theorem C77_batch_size_refuted : exists s1 ec s' new,
  coherent 1 ex_sets /\ env_ok (ex_e ex_loss1) /\
  train 1 1 ex_sets (ex_e ex_loss1) ex_opts ex_nn = Some (ESuccess, s1) /\
  asks ex_sets ex_opts3 3 1 /\ train 1 1 ex_sets (ex_e ex_loss1) ex_opts3 s1 = Some (ec, s') /\ n_h s' = new ++ n_h s1 /\
  In (VStart 1 3) new /\ In (VEpoch 0 1) new /\ (exists x, In (VFprop true 2 x) new /\ batch_size x = 2) /\
  ~ session 1 1 ex_sets ex_opts3 3 1 ec (rev new).
Proof.
  assert (H1 : exists s1, train 1 1 ex_sets (ex_e ex_loss1) ex_opts ex_nn = Some (ESuccess, s1)) by (eexists; vm_compute; reflexivity).
  destruct H1 as (s1 & H1).
  assert (H2 : exists s2 new, train 1 1 ex_sets (ex_e ex_loss1) ex_opts3 s1 = Some (ESuccess, s2) /\ n_h s2 = new ++ n_h s1 /\
    In (VStart 1 3) new /\ In (VEpoch 0 1) new /\ (exists x, In (VFprop true 2 x) new /\ batch_size x = 2)).
  { vm_compute in H1. injection H1 as <-. eexists.
    match goal with |- context [n_h ?e = _ ++ n_h ?s1] => exists (firstn (length (n_h e) - length (n_h s1)) (n_h e)) end.
    split; [vm_compute; reflexivity|]. split; [vm_compute; reflexivity|].
    split; [vm_compute; tauto|]. split; [vm_compute; tauto|]. eexists. split; [vm_compute; tauto|reflexivity]. }
  destruct H2 as (s2 & new & H2 & H3 & H4 & H5 & H6).
  exists s1, ESuccess, s2, new. split; [exact (proj1 ex_coherent)|]. split; [apply ex_e_ok|]. split; [exact H1|]. split; [split; reflexivity|].
  split; [exact H2|]. split; [exact H3|]. split; [exact H4|]. split; [exact H5|]. split; [exact H6|].
  (* the plan has three batches in its epoch *)
  intros (perms & f & _ & _ & HF).
  assert (Hin : In (VEpoch 0 1) (filter planned (rev new))) by (apply filter_In; split; [apply in_rev in H5; exact H5|reflexivity]).
  apply in_split in Hin. destruct Hin as (l1 & l2 & Hl). rewrite Hl in HF. apply Forall2_app_inv_l in HF.
  destruct HF as (p1 & p2 & _ & HF & Hp). inversion HF as [|? a ? p3 Ha _]; subst. destruct a; cbn in Ha; try contradiction. destruct Ha as [<- <-].
  assert (Hin : In (AEpoch 0 1) (session_plan ex_sets ex_opts3 3 1 perms f)) by (rewrite Hp; apply in_or_app; right; left; reflexivity).
  clear - Hin. assert (Hr : forall e, ~ In (AEpoch 0 1) (report_plan ex_sets 3 e)).
  { intros e X. vm_compute in X. repeat (destruct X as [X|X]; [discriminate|]). exact X. }
  unfold session_plan in Hin. apply in_app_or in Hin. destruct Hin as [Hin|Hin].
  { cbn in Hin. destruct Hin as [X|[X|[]]]; discriminate. }
  apply in_app_or in Hin. destruct Hin as [Hin|Hin]; [exact (Hr _ Hin)|].
  apply in_app_or in Hin. destruct Hin as [Hin|Hin].
  2:{ destruct f; cbn in Hin; repeat (destruct Hin as [Hin|Hin]; [discriminate|]); exact Hin. }
  assert (Hep : forall e p, ~ In (AEpoch 0 1) (epoch_plan ex_sets ex_opts3 3 1 e p)).
  { intros e p X. unfold epoch_plan in X. change (cnt ex_sets 0 / 1) with 3 in X. cbn in X.
    destruct X as [X|X]; [injection X as _ X; discriminate|]. repeat (destruct X as [X|X]; [discriminate|]).
    destruct (checked ex_opts3 e); cbn [orb] in X; [exact (Hr _ X)|exact X]. }
  assert (X : forall e, ~ In (AEpoch 0 1) (epochs_plan ex_sets ex_opts3 3 1 e perms f)); [clear Hin|exact (X _ Hin)].
  induction perms as [|p perms IH]; intros e Hin; [exact Hin|].
  cbn [epochs_plan] in Hin. destruct perms as [|q perms].
  - apply in_app_or in Hin. destruct Hin as [Hin|Hin]; [exact (Hep _ _ Hin)|]. destruct f; cbn in Hin; try (destruct Hin as [X|[]]; discriminate). exact Hin.
  - apply in_app_or in Hin. destruct Hin as [Hin|Hin]; [exact (Hep _ _ Hin)|]. apply in_app_or in Hin. destruct Hin as [[X|[]]|Hin]; [discriminate|].
    exact (IH _ Hin).
Qed.
Print Assumptions C77_batch_size_refuted.

(** Trained with the full batch of 3, then asked for sizes of 1: memory outside of the
    batch buffers is accessed. *)
Theorem C77_memory_refuted : exists O1 s1,
  train 1 1 ex_sets (ex_e ex_loss1) O1 ex_nn = Some (ESuccess, s1) /\
  coherent 1 ex_sets /\ env_ok (ex_e ex_loss1) /\ asks ex_sets O1 3 3 /\ asks ex_sets ex_opts1 1 1 /\
  train 1 1 ex_sets (ex_e ex_loss1) ex_opts1 s1 = None.
Proof.
  exists (mkO 1 0 0 (fun _ => false) 0 None false false false true true). eexists. split; [vm_compute; reflexivity|].
  split; [exact (proj1 ex_coherent)|]. split; [apply ex_e_ok|]. do 2 (split; [split; reflexivity|]). vm_compute. reflexivity.
Qed.
Print Assumptions C77_memory_refuted.

(** Training data that were initialised for forward batches of 3 and are not to be
    reinitialised serve a network that is initialised for forward batches of 1. *)
Theorem C77_fprop_refuted : exists O1 O2 s1,
  train 1 1 ex_sets (ex_fail false true) O1 ex_nn = Some (EInit, s1) /\
  coherent 1 ex_sets /\ env_ok (ex_e ex_loss1) /\ asks ex_sets O1 3 1 /\ asks ex_sets O2 1 1 /\
  train 1 1 ex_sets (ex_e ex_loss1) O2 s1 = None.
Proof.
  exists (mkO 1 3 1 (fun _ => false) 0 None false false false true true), (mkO 1 1 1 (fun _ => false) 0 None false false false false true).
  eexists. split; [vm_compute; reflexivity|].
  split; [exact (proj1 ex_coherent)|]. split; [apply ex_e_ok|]. do 2 (split; [split; reflexivity|]). vm_compute. reflexivity.
Qed.
Print Assumptions C77_fprop_refuted.
