(** Theorems about networks driven by train(): C96 - C98. *)
From Coq Require Import Reals Lra Permutation.
From Coquelicot Require Import Coquelicot.
From Verif Require Import Base BaseLemmas Opt_Model Opt_Spec Opt_Props Act_Model Act_Spec Kern_Model Smx_Model Smx_Spec TData_Model TData_Spec TData_Props
  Train_Model Train_Spec Train_Proofs Train_Props Act_Proofs Net_Model Net_Spec Net_Proofs Net_Proofs5 Net_Props
  Fit_Model Fit_Spec Fit_Proofs Fit_Proofs2 Fit_Proofs5.
Local Open Scope nat_scope.

(** ** C96 *)
(** Every row of the network's output is one function of the same row of the input,
    whatever the other rows and the number of rows are ... *)
Theorem C96_rows : forall m B i x, net_wf i x -> length B = m * i ->
  exists x1, net_fprop m (biased m B) x = Some x1 /\ length (n_A x1) = m * n_n x /\
    forall r, r < m -> row m (n_n x) r (n_A x1) = net_fun x (row m i r B).
Proof. exact net_rows. Qed.
Print Assumptions C96_rows.

Theorem C96_independent : forall m m' B B' i x r r' x1 x1', net_wf i x -> length B = m * i -> length B' = m' * i ->
  r < m -> r' < m' -> row m i r B = row m' i r' B' ->
  net_fprop m (biased m B) x = Some x1 -> net_fprop m' (biased m' B') x = Some x1' ->
  row m (n_n x) r (n_A x1) = row m' (n_n x) r' (n_A x1').
Proof.
  intros m m' B B' i x r r' x1 x1' Hw HB HB' Hr Hr' E E1 E1'.
  destruct (net_rows m B i x Hw HB) as (y & F1 & _ & F2), (net_rows m' B' i x Hw HB') as (y' & F1' & _ & F2').
  rewrite E1 in F1. rewrite E1' in F1'. injection F1 as <-. injection F1' as <-. rewrite F2, F2', E by assumption. reflexivity.
Qed.
Print Assumptions C96_independent.

(** ... and the loss of a batch is the mean of the losses of its samples. *)
Theorem C96_loss : forall m B i Y x, net_wf i x -> length B = m * i -> 
  mean_loss m (biased m B) Y x = (/ INR m * sumR (map (fun r => sample_loss x (row m i r B) (row m (n_n x) r Y)) (seq 0 m)))%R.
Proof. exact mean_loss_rows. Qed.
Print Assumptions C96_loss.

(** The second row of a batch of two and the only row of another batch *)
Example C96_example : net_wf 3 ex_net /\ row 2 3 1 [1; 2; 3; 4; 5; 6]%R = row 1 3 0 [2; 4; 6]%R /\
  exists x1 x1', net_fprop 2 (biased 2 [1; 2; 3; 4; 5; 6]%R) ex_net = Some x1 /\ net_fprop 1 (biased 1 [2; 4; 6]%R) ex_net = Some x1'.
Proof.
  destruct C33_gradient_ex as (_ & W & _). split; [exact W|]. split; [reflexivity|].
  destruct (net_rows 2 [1; 2; 3; 4; 5; 6]%R 3 ex_net W eq_refl) as (x1 & H & _), (net_rows 1 [2; 4; 6]%R 3 ex_net W eq_refl) as (x1' & H' & _). eauto.
Qed.

(** ** C97 *)
(** A session that runs changes the weights, from those the network had before, by one
    step of descent after another: for each full batch of a permutation of the training
    samples per epoch, along the gradient of the mean loss of the batch. *)
Theorem C97_descends : forall S H x E O fp tb s ec s',
  coherent 1%R S -> s_bir (x0 S) = false -> s_bir (y0 S) = false -> (forall h, rule_ok (k_rule H h)) ->
  net_wf (sample_size (x0 S)) x -> n_n x = sample_size (y0 S) -> NoDup (map fid (nfcs x)) -> room tb tb x ->
  env_ok E -> life 1%R 1%R S fp tb s -> asks S O fp tb ->
  train 1%R 1%R S (with_net H x E) O s = Some (ec, s') -> ec = ESuccess \/ ec = EDiverged ->
  exists perms f h1 h2 w0 w1, ec = code f /\ perms_ok S O perms f /\
    n_h s' = h1 ++ VStart tb fp :: h2 /\ length (n_h s) <= length h2 /\
    replay H x (VStart tb fp :: h2) = Some w0 /\ replay H x (n_h s') = Some w1 /\
    (forall w, replay H x (n_h s) = Some w -> w_has w = true -> model (w_x w0) = model (w_x w)) /\
    let us := skipn (length (rules H h2)) (rules H (n_h s')) in
    length us = length (batches S tb perms) /\ descends S (combine us (batches S tb perms)) (model (w_x w0)) (model (w_x w1)).
Proof.
  intros S H x E O fp tb s ec s' HS Bx By HR Hw Hn HN Hr HE HL HO Ht Hec.
  exact (session_descends S H x fp tb HS Bx By HR Hw HN Hn Hr (with_net H x E) O s ec s' HE HL HO Ht Hec).
Qed.
Print Assumptions C97_descends.

Lemma sgd_ok lr : rule_ok (sgd lr).
Proof. repeat split; cbn; intros; rewrite ?map_length, ?seq_length; reflexivity. Qed.
Lemma with_w_id : (forall l, with_w (fun _ W => W) l = l) /\ (forall s, swith_w (fun _ W => W) s = s) /\ (forall h, hwith_w (fun _ W => W) h = h).
Proof. apply layers_ind; intros; simpl; congruence. Qed.
Lemma reweight_id x : reweight (fun _ W => W) (fun W => W) x = x.
Proof. destruct x as [[s|] ? ? ? ? ? ? ?]; [|reflexivity]. unfold reweight. cbn. do 2 f_equal. apply (proj1 (proj2 with_w_id)). Qed.
Lemma sgd_gd S lr ids x x' : gd_step S (sgd lr) ids x x' -> sgd_step S lr ids x x'.
Proof.
  intros (G & Go & HG & L1 & L2 & E). cbn [sgd r_pre r_preo] in *. rewrite reweight_id in *. cbn [sgd r_gw r_gwo fst] in E.
  eexists _, _. split; [exact E|]. split; [rewrite map_length, seq_length; reflexivity|]. split; [intros; rewrite map_length, seq_length; reflexivity|].
  intros Hs. destruct (HG Hs) as [D1 D2]. split.
  - intros j Hj. rewrite nth_map_seq by exact Hj. pose proof (is_derive_unique _ _ _ (D1 j Hj)) as U. cbv beta in U. setoid_rewrite U. reflexivity.
  - intros id k W j Hi Hj. rewrite nth_map_seq by exact Hj. pose proof (is_derive_unique _ _ _ (D2 id k W j Hi Hj)) as U. setoid_rewrite U. ring.
Qed.
Lemma sgd_rules H lr : (forall h, k_rule H h = sgd (lr h)) -> forall h, exists hs, rules H h = map (fun h => sgd (lr h)) hs.
Proof.
  intros HR h. induction h as [|v h [hs IH]]; [exists []; reflexivity|]. cbn [rules]. rewrite IH.
  destruct v; try (exists hs; apply app_nil_r). exists (hs ++ [h]). rewrite map_app. cbn. rewrite !HR. reflexivity.
Qed.
Lemma sgd_descends S lr hs bs x x' : length hs = length bs -> descends S (combine (map (fun h : list event => sgd (lr h)) hs) bs) x x' ->
  sgd_run S (combine (map lr hs) bs) x x'.
Proof.
  revert bs x. induction hs as [|h hs IH]; intros [|b bs] x L D; try discriminate L; cbn [map combine] in D |- *.
  - remember (@nil (rule * list nat)) as l in D. destruct D; [constructor|discriminate].
  - remember (_ :: _) as l in D. destruct D; [discriminate|]. injection Heql as -> -> ->. econstructor; [apply sgd_gd; eassumption|]. apply IH; [cbn in L; lia|assumption].
Qed.
Lemma skipn_map {X Y} (f : X -> Y) n l : skipn n (map f l) = map f (skipn n l).
Proof. revert l; induction n; intros [|a l]; cbn; auto. Qed.

(** With plain gradient descent and a learning rate that may change from step to step,
    every weight moves against the derivative of the batch's mean loss by that weight. *)
Theorem C97_sgd : forall S H lr x E O fp tb s ec s',
  coherent 1%R S -> s_bir (x0 S) = false -> s_bir (y0 S) = false -> (forall h, k_rule H h = sgd (lr h)) ->
  net_wf (sample_size (x0 S)) x -> n_n x = sample_size (y0 S) -> NoDup (map fid (nfcs x)) -> room tb tb x ->
  env_ok E -> life 1%R 1%R S fp tb s -> asks S O fp tb ->
  train 1%R 1%R S (with_net H x E) O s = Some (ec, s') -> ec = ESuccess \/ ec = EDiverged ->
  exists perms f h1 h2 w0 w1 hs, ec = code f /\ perms_ok S O perms f /\
    n_h s' = h1 ++ VStart tb fp :: h2 /\ length (n_h s) <= length h2 /\
    replay H x (VStart tb fp :: h2) = Some w0 /\ replay H x (n_h s') = Some w1 /\
    (forall w, replay H x (n_h s) = Some w -> w_has w = true -> model (w_x w0) = model (w_x w)) /\
    length hs = length (batches S tb perms) /\ sgd_run S (combine (map lr hs) (batches S tb perms)) (model (w_x w0)) (model (w_x w1)).
Proof.
  intros S H lr x E O fp tb s ec s' HS Bx By HR Hw Hn HN Hr HE HL HO Ht Hec.
  assert (HR' : forall h, rule_ok (k_rule H h)) by (intros h; rewrite HR; apply sgd_ok).
  destruct (C97_descends S H x E O fp tb s ec s' HS Bx By HR' Hw Hn HN Hr HE HL HO Ht Hec)
    as (perms & f & h1 & h2 & w0 & w1 & Q1 & Q2 & Q3 & Q4 & Q5 & Q6 & Q7 & Q8 & Q9).
  destruct (sgd_rules H lr HR (n_h s')) as (hs & Eh). rewrite Eh, skipn_map in Q8, Q9. rewrite map_length in Q8.
  exists perms, f, h1, h2, w0, w1, (skipn (length (rules H h2)) hs). do 7 (split; [assumption|]). split; [exact Q8|]. apply sgd_descends; assumption.
Qed.
Print Assumptions C97_sgd.

Lemma nth_vadd a : forall b j, length a = length b -> nth j (map (fun p => fst p + snd p)%R (combine a b)) 0%R = (nth j a 0 + nth j b 0)%R.
Proof. induction a as [|u a IH]; intros [|v b] j L; try discriminate L; destruct j; cbn; try lra. apply IH. cbn in L. lia. Qed.

(** That rule is what gradient application does when set to plain descent. *)
Theorem C97_rule : forall e o gamma t s, cfg_ok e o gamma -> started o gamma s -> simple o -> o_mom o = false ->
  o_type o = ClassicalConstant -> Opt_Spec.step_ok o t -> t_blocked t = false ->
  Opt_Model.train e o [t] s (fun s' => weights s' = fst (r_gwo (sgd (t_lr t)) (weights s) (t_grad t (weights s)))).
Proof.
  intros e o gamma t s HC HT Hs Hm Ho Hok Hb.
  pose proof (C37_weights e o gamma [t] s HC HT Hs Hm (Forall_cons _ Hok (Forall_nil _)) (Forall_cons _ Hb (Forall_nil _))) as C.
  assert (EQ : j_w (fold_left (plain_step (algo_of o gamma)) [t] (mkJ (weights s) [] [])) = fst (r_gwo (sgd (t_lr t)) (weights s) (t_grad t (weights s)))).
  { cbn [fold_left plain_step j_w j_gs j_v app sgd r_gwo fst]. unfold algo_of. rewrite Ho. unfold updates, hist. cbn [map length update last].
    unfold vadd, vscale. rewrite map_map. generalize (t_grad t (weights s)) as g. intros g. generalize (weights s) as w. intros w.
    apply nth_ext0.
    - rewrite !map_length, combine_length, map_length, !seq_length. lia.
    - intros j Hj. rewrite map_length, combine_length, map_length, seq_length, Nat.min_id in Hj.
      rewrite nth_map_seq by exact Hj.
      rewrite nth_vadd by (rewrite map_length, seq_length; reflexivity).
      rewrite nth_map_seq by exact Hj. ring. }
  rewrite EQ in C. exact C.
Qed.
Print Assumptions C97_rule.

Example C97_rule_ex : cfg_ok Opt_Props.ex_env (ex_cfg ClassicalConstant false false) (1/2) /\
  started (ex_cfg ClassicalConstant false false) (1/2) (ex_s (1/2)) /\ simple (ex_cfg ClassicalConstant false false) /\
  Opt_Spec.step_ok (ex_cfg ClassicalConstant false false) (ex_t 1 0 false).
Proof. split; [apply ex_ok|]. split; [apply ex_started|]. split; [repeat split|]. apply ex_step; reflexivity. Qed.

(** ** C98 *)
(** The losses reported by a session: the mean loss, over the samples of the set, of
    the network as it is at that moment, if the set is evaluated at once; in batches,
    as many times that as there are batches. *)
Theorem C98_reported : forall S H x E O fp tb s ec s',
  coherent 1%R S -> s_bir (x0 S) = false -> s_bir (y0 S) = false -> (forall h, rule_ok (k_rule H h)) ->
  net_wf (sample_size (x0 S)) x -> n_n x = sample_size (y0 S) -> NoDup (map fid (nfcs x)) -> room tb tb x ->
  env_ok E -> life 1%R 1%R S fp tb s -> asks S O fp tb -> o_full O && (e_addW E || e_addA E) = false ->
  train 1%R 1%R S (with_net H x E) O s = Some (ec, s') ->
  forall h1 id (v : fl) h2, id < 2 -> n_h s' = h1 ++ VLoss id v :: h2 -> length (n_h s) <= length h2 ->
  exists w, replay H x h2 = Some w /\ let f := loss_at S (w_x w) id in let n := cnt S id in
    v = Some (batched f n (Nat.min fp n)) /\ (n <= fp -> v = Some (mean_over f (seq 0 n))) /\
    (fp < n -> n mod fp = 0 -> v = Some (INR (n / fp) * mean_over f (seq 0 n))%R).
Proof.
  intros S H x E O fp tb s ec s' HS Bx By HR Hw Hn HN Hr HE HL HO Hf Ht.
  exact (session_losses S H x fp tb HS Bx By HR Hw HN Hn Hr E O s ec s' HE HL HO Hf Ht).
Qed.
Print Assumptions C98_reported.

(** *** Example: three training and two test samples of one number each, with any
    numbers; a sigmoid layer of two neurons under one linear neuron *)
Section Ex.
Context (a b c d e p q r t u : R).
Definition fit_sets : sets R R :=
  mkSets (Smx_Model.mkS 3 2 true false false false (Some [a; b; c; 1; 1; 1]%R)) (Smx_Model.mkS 2 2 true false false false (Some [d; e; 1; 1]%R))
         (Smx_Model.mkS 3 1 false false false false (Some [p; q; r])) (Smx_Model.mkS 2 1 false false false false (Some [t; u])).
Definition fit_net : net :=
  mkN (Some (SOne (LFC 0 Sigm 1 2 (repeat a 4) [] []))) IdQuad 2 1 (repeat b 3) [] [] ([], []).
Definition fit_hooks (lr : list event -> R) : hooks := mkHk (fun h => sgd (lr h)) (fun _ _ => INR) (fun _ => INR) (fun _ => INR).
Definition fit_mem : mem_env R := Some INR.
Definition fit_im : imath R R := mkIM (fun n => [Workers_Model.mkR 0 n 0]) (@concat _) (@concat _).
Definition fit_e : Train_Model.env R R :=
  Train_Model.mkE 0 0 (fun _ => fit_mem) (fun _ => fit_mem) (fun _ => true) (fun _ => true) (fun _ => true)
    (fun _ => fit_im) (fun _ k => k - 1) false false (fun _ => Some 0%R) (fun _ _ => None) (fun _ => true) (fun _ => true) (fun _ _ => true).
Definition fit_none : tds R R :=
  TData_Model.mkT (Smx_Model.mkS 0 0 false false false false None) (Smx_Model.mkS 0 0 false false false false None)
      (Smx_Model.mkS 0 0 false false false false None) (Smx_Model.mkS 0 0 false false false false None) [] false SNull SNull 0 0 0%Z None.
Definition fit_nn : nn R R := mkNN 0 0 0 false false false (Some 0%R) true fit_none [].

Lemma fit_data (m : smx R) (l : list R) : s_data m = Some l -> (0 <? s_rows m) && (0 <? s_cols m) && (s_numel m <=? length l) = true -> well_alloc m.
Proof.
  intros E H. apply andb_true_iff in H. destruct H as [H H3]. apply andb_true_iff in H. destruct H as [H1 H2].
  apply Nat.ltb_lt in H1, H2. apply Nat.leb_le in H3. split; [exact H1|]. split; [exact H2|]. exists l. split; assumption.
Qed.
Lemma fit_coherent : coherent 1%R fit_sets.
Proof.
  assert (D0 : dataset 1%R (x0 fit_sets) (y0 fit_sets)).
  { split; [eapply fit_data; reflexivity|]. split; [eapply fit_data; reflexivity|]. split; [reflexivity|]. split.
    - intros _. cbn. split; [lia|]. intros r0 Hr. do 3 (destruct r0 as [|r0]; [reflexivity|]). lia.
    - split; [reflexivity|]. split; [cbn; lia|reflexivity]. }
  assert (D1 : dataset 1%R (x1 fit_sets) (y1 fit_sets)).
  { split; [eapply fit_data; reflexivity|]. split; [eapply fit_data; reflexivity|]. split; [reflexivity|]. split.
    - intros _. cbn. split; [lia|]. intros r0 Hr. do 2 (destruct r0 as [|r0]; [reflexivity|]). lia.
    - split; [reflexivity|]. split; [cbn; lia|reflexivity]. }
  split; [exact D0|]. split; [exact D1|]. do 4 (split; [reflexivity|]). cbn. unfold max_vec_len. split; lia.
Qed.
Lemma fit_e_ok : env_ok fit_e.
Proof.
  intros h. split; [|intros k; cbn; lia]. split; [|split; intros; apply concat_interleaving].
  intros n Hn. split; [|intros x [<-|[]]; exact Hn]. cbn. rewrite app_nil_r. apply Permutation_refl.
Qed.

(** a session of two epochs in batches of two with all that the theorems ask for *)
Example C97_C98_example : forall lr, let H := fit_hooks lr in
  coherent 1%R fit_sets /\ s_bir (x0 fit_sets) = false /\ s_bir (y0 fit_sets) = false /\ (forall h, k_rule H h = sgd (lr h)) /\
  net_wf (sample_size (x0 fit_sets)) fit_net /\ n_n fit_net = sample_size (y0 fit_sets) /\ NoDup (map fid (nfcs fit_net)) /\ room 2 2 fit_net /\
  env_ok fit_e /\ life 1%R 1%R fit_sets 3 2 fit_nn /\ asks fit_sets ex_opts 3 2 /\ o_full ex_opts && (e_addW fit_e || e_addA fit_e) = false /\
  (exists s', train 1%R 1%R fit_sets (with_net H fit_net fit_e) ex_opts fit_nn = Some (ESuccess, s') /\
    Exists (fun v => match v with VLoss 0 _ => True | _ => False end) (n_h s')) /\
  (forall W Wo ids, risk_smooth fit_sets (mkN (Some (SOne (LFC 0 Sigm 1 2 W [] []))) IdQuad 2 1 Wo [] [] ([], [])) ids).
Proof.
  intros lr H. split; [exact fit_coherent|]. do 3 (split; [reflexivity|]). split; [unfold net_wf; cbn; repeat split; lia|]. split; [reflexivity|].
  split; [cbn; repeat constructor; auto|]. split; [unfold room; cbn; auto|]. split; [exact fit_e_ok|]. split; [apply life_new; reflexivity|].
  split; [split; reflexivity|]. split; [reflexivity|]. split.
  - cbv -[net_loss fl_ge fl_add fl_div fl_is0 INR IZR sgd]. eexists. split; [reflexivity|].
    repeat (first [apply Exists_cons_hd; exact I|apply Exists_cons_tl]).
  - intros W Wo ids. apply Forall_forall. intros i _. split; [|intros; exact I].
    intros k _. eexists. apply (sigm_derive _).
Qed.
End Ex.
