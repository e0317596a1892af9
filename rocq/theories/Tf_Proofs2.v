(** One look at the training set, and normalisation as a computation on lists. *)
From Coq Require Import Reals Lra Permutation.
From Verif Require Import Base BaseLemmas Act_Spec TData_Model TData_Spec TData_Proofs2 Nrm_Model Nrm_Spec Nrm_Proofs Tf_Model Tf_Spec Tf_Proofs.
Local Open Scope nat_scope.

Lemma batches_seq n c m : flat_map (slice (seq 0 n) c) (seq 0 m) = seq 0 (Nat.min (c * m) n).
Proof.
  induction m as [|m IH]; [rewrite Nat.mul_0_r; reflexivity|].
  rewrite seq_S, flat_map_app, IH. cbn [flat_map Nat.add]. rewrite app_nil_r, slice_seq.
  destruct (Nat.le_gt_cases n (c * m)) as [H|H].
  - replace (n - c * m) with 0 by lia. rewrite Nat.min_0_r. cbn [seq]. rewrite app_nil_r. f_equal. nia.
  - rewrite (Nat.min_l (c * m) n) by lia.
    replace (Nat.min (c * S m) n) with (c * m + Nat.min c (n - c * m)) by nia. rewrite seq_app. reflexivity.
Qed.
Lemma walks_pos s n c : 0 < c <= n -> 0 < s -> 0 < walks s n c.
Proof. intros H Hs. unfold walks. pose proof (Nat.div_str_pos n c H). lia. Qed.

Section P.
Context {Y FS : Type} (F : tfun Y FS) (st : stor) (derive : nat -> nat -> list (list R * Y)) (Q : protocol FS).
Context (C : conforms F st derive Q).
Notation td := (td FS). Notation sample := (list R * Y)%type.
Notation InvP := (InvP F st Q). Notation Inv := (Inv F st Q). Notation wide := (wide F). Notation s := (f_sibs F).
Notation ca := Tf_Proofs.ca. Notation cb := Tf_Proofs.cb.

Lemma gather_ok {D} (feed : list (list R) -> D -> option D) (rel : list sample -> D -> Prop) fp tb c a b :
  (forall x E d prev, rel prev d -> Permutation x (map fst E) -> Forall (fun s => wide (fst s)) E -> exists d', feed x d = Some d' /\ rel (prev ++ E) d') ->
  forall n k t d prev, InvP t fp tb (PWalk 0 c 2) -> d_norm t = a -> ca a = fst b -> cb a = snd b -> k + n <= walks s (st_cnt st 0) c -> rel prev d ->
  exists d' t', gather F st feed t k n d = Some (d', t') /\ InvP t' fp tb (PWalk 0 c 2) /\ d_norm t' = a /\ d_idx t' = d_idx t /\
    rel (prev ++ seen_as (fst b) (snd b) (flat_map (derive 0) (flat_map (slice (seq 0 (st_cnt st 0)) c) (seq k n)))) d'.
Proof.
  intros Hf. induction n as [|n IH]; intros k t d prev HI Ha Ea Eb Hk Hr.
  - exists d, t. cbn. rewrite app_nil_r. auto.
  - destruct (next_ok F st derive Q C t fp tb 0 c 2 k HI ltac:(lia)) as (t1 & E1 & I1 & N1 & X1 & Sh). cbn [gather]. rewrite E1. cbn [obind].
    set (E := seen_as (fst b) (snd b) (flat_map (derive 0) (slice (seq 0 (st_cnt st 0)) c k))) in *. rewrite Ha, Ea, Eb in Sh. fold E in Sh.
    destruct Sh as (xs & Ex & P). rewrite Ex. cbn [obind].
    assert (HW : Forall (fun s0 => wide (fst s0)) E).
    { apply Forall_map. cbn [fst]. eapply Forall_impl; [|apply (derive_wide F st derive Q C 0 (slice (seq 0 (st_cnt st 0)) c k) ltac:(lia))].
      - intros r Hw. unfold Tf_Proofs.wide. rewrite affine_length. exact Hw.
      - apply Forall_forall. intros i Hi. apply slice_in in Hi. apply in_seq in Hi. lia. }
    destruct (Hf xs E d prev Hr P HW) as (d' & Ed & Hr'). rewrite Ed. cbn [obind].
    destruct (IH (k + 1) t1 d' (prev ++ E) I1 ltac:(congruence) Ea Eb ltac:(lia) Hr') as (d2 & t2 & E2 & I2 & N2 & X2 & R2).
    exists d2, t2. split; [exact E2|]. split; [exact I2|]. split; [exact N2|]. split; [congruence|].
    cbn [seq flat_map]. rewrite flat_map_app. unfold seen_as in *. rewrite map_app, app_assoc. replace (S k) with (k + 1) by lia. exact R2.
Qed.

Definition size_ok (p : nset) (ibs fp : nat) : Prop := 0 < asked fp ibs (n_bs p) <= fp /\ asked fp ibs (n_bs p) mod s = 0.
Definition per_batch (p : nset) (ibs fp : nat) : nat := Nat.min (asked fp ibs (n_bs p) / s) (st_cnt st 0).
Definition Lk (p : nset) (ibs fp : nat) : nat := tlooked p s (st_cnt st 0) (per_batch p ibs fp).
Definition base (p : nset) (ibs fp : nat) : list sample := flat_map (derive 0) (seq 0 (Lk p ibs fp)).

Lemma look {D} (feed : list (list R) -> D -> option D) (rel : list sample -> D -> Prop) p ibs fp tb t d :
  (forall x E d prev, rel prev d -> Permutation x (map fst E) -> Forall (fun s => wide (fst s)) E -> exists d', feed x d = Some d' /\ rel (prev ++ E) d') ->
  InvP t fp tb PIdle -> size_ok p ibs fp -> rel [] d ->
  exists k t1 t2 d', prepare F p ibs t = Some (k, t1) /\ gather F st feed t1 0 k d = Some (d', t2) /\ Inv t2 (Some (fp, tb)) /\ d_norm t2 = d_norm t /\ d_idx t2 = d_idx t /\
    rel (seen_as (ca (d_norm t)) (cb (d_norm t)) (base p ibs fp)) d'.
Proof.
  intros Hf HI [Hb Hm] Hr. destruct (walk_ok F st derive Q C t fp tb PIdle 0 ibs (n_bs p) 2 HI ltac:(lia) Hb Hm) as (t1 & E1 & I1 & N1 & X1).
  fold (per_batch p ibs fp) in *. set (m := walks s (st_cnt st 0) (per_batch p ibs fp)) in *.
  unfold prepare. change train_set_id with 0. rewrite E1. cbn [obind].
  set (k := Nat.min m (if n_bc p =? 0 then m else n_bc p)).
  destruct (gather_ok feed rel fp tb (per_batch p ibs fp) (d_norm t) (ca (d_norm t), cb (d_norm t)) Hf k 0 t1 d [] I1 N1 eq_refl eq_refl ltac:(unfold k, m; lia) Hr)
    as (d' & t2 & E2 & I2 & N2 & X2 & R2).
  exists k, t1, t2, d'. split; [reflexivity|]. split; [exact E2|]. split; [apply I2|]. split; [exact N2|]. split; [congruence|].
  rewrite batches_seq in R2. cbn [fst snd app] in R2. unfold base, Lk, tlooked. fold m.
  replace (if n_bc p =? 0 then m else Nat.min m (n_bc p)) with k; [exact R2|]. unfold k. destruct (n_bc p =? 0); lia.
Qed.

(** ** The loops as computations on the values *)
Section W.
Context (p : nset) (V : list R).
Definition vals (n : nprm) : list R := map (fun v => (ca n 0%nat * v + cb n 0%nat)%R) V.
Definition compose (n : nprm) (s : scd) : nprm := match n with NWhole o => NWhole (upd_all o s) | _ => NWhole s end.
Fixpoint wloop (k : nat) (n : nprm) (s : scd) : bool * nprm * scd :=
  match k with
  | 0 => (false, n, s)
  | S k =>
      let a := seen (vals n) in
      if bad_stats p a && n_break p then (false, n, s)
      else if settled p a then (true, n, s)
      else wloop k (compose n (whole_stat p a)) (upd_stat p a s)
  end.
End W.

Lemma same_coef n j k : match n with NCols _ => False | _ => True end -> ca n j = ca n k /\ cb n j = cb n k.
Proof. destruct n; try contradiction; split; reflexivity. Qed.
Lemma flat_seen a b (D : list sample) : flat_map fst (seen_as (fun _ => a) (fun _ => b) D) = map (fun v => (a * v + b)%R) (flat_map fst D).
Proof. induction D as [|r D IH]; [reflexivity|]. cbn [seen_as map flat_map]. rewrite map_app, affine_const. f_equal. exact IH. Qed.
Lemma seen_as_ext a b a' b' (D : list sample) : (forall j, a j = a' j) -> (forall j, b j = b' j) -> seen_as a b D = seen_as a' b' D.
Proof. intros H1 H2. apply map_ext. intros r. f_equal. apply affine_ext. auto. Qed.

Lemma feed_whole_ok x (E : list sample) d prev : d = seen (flat_map fst prev) -> Permutation x (map fst E) ->
  exists d', feed_whole x d = Some d' /\ d' = seen (flat_map fst (prev ++ E)).
Proof.
  intros -> P. eexists. split; [reflexivity|]. rewrite flat_map_app, <- seen_app. cbn [feed_whole]. rewrite !seen_app. apply seen_perm. apply Permutation_app_head.
  rewrite flat_map_concat_map. clear prev. revert P. generalize (map fst E). intros l P. induction P; cbn [concat]; [constructor| | |].
  - apply Permutation_app_head. exact IHP.
  - rewrite !app_assoc. apply Permutation_app_tail. apply Permutation_app_comm.
  - etransitivity; eassumption.
Qed.

Lemma norm_whole_pure p ibs fp tb : size_ok p ibs fp -> forall k t s0, InvP t fp tb PIdle -> match d_norm t with NCols _ => False | _ => True end ->
  exists t', norm_whole F st p ibs k t s0 = Some (fst (fst (wloop p (flat_map fst (base p ibs fp)) k (d_norm t) s0)), t', snd (wloop p (flat_map fst (base p ibs fp)) k (d_norm t) s0)) /\
    InvP t' fp tb PIdle /\ d_norm t' = snd (fst (wloop p (flat_map fst (base p ibs fp)) k (d_norm t) s0)) /\ d_idx t' = d_idx t /\
    match d_norm t' with NCols _ => False | _ => True end.
Proof.
  intros Hs. induction k as [|k IH]; intros t s0 HI Hc.
  - exists t. cbn. auto.
  - destruct (look feed_whole (fun D a => a = seen (flat_map fst D)) p ibs fp tb t acc0) as (n & t1 & t2 & d & E1 & E2 & I2 & N2 & X2 & Ed); try assumption; try reflexivity.
    { intros x E d prev Hr P _. apply feed_whole_ok; assumption. }
    assert (Ed' : d = seen (vals (flat_map fst (base p ibs fp)) (d_norm t))).
    { rewrite Ed. unfold vals. rewrite <- flat_seen. f_equal. f_equal. apply seen_as_ext; intros j; apply (same_coef (d_norm t) j 0 Hc). }
    clear Ed. subst d. cbn [norm_whole wloop]. rewrite E1. cbn [obind]. rewrite E2. cbn [obind]. cbv zeta. rewrite settled_near.
    set (a := seen _) in *. destruct (bad_stats p a && n_break p).
    { exists t2. cbn [fst snd]. split; [reflexivity|]. split; [split; [exact I2|exact I]|]. rewrite N2. auto. }
    destruct (settled p a) eqn:Es.
    { unfold settled in Es. apply andb_prop in Es. destruct Es as [Es1 Es2]. apply negb_true_iff in Es1, Es2. unfold upd_stat. rewrite Es1, Es2. cbn [orb].
      exists t2. cbn [fst snd]. split; [reflexivity|]. split; [split; [exact I2|exact I]|]. rewrite N2. auto. }
    replace (do_scale p a || do_central p a) with true by (unfold settled in Es; destruct (do_scale p a), (do_central p a); cbn in *; congruence).
    set (t3 := fix_trainX_whole t2 (whole_stat p a)).
    assert (N3 : d_norm t3 = compose (d_norm t) (whole_stat p a)) by (unfold t3, fix_trainX_whole; cbn [d_norm with_norm]; rewrite N2; reflexivity).
    destruct (IH t3 (upd_stat p a s0)) as (t' & E' & I' & N' & X' & K').
    { split; [|exact I]. destruct I2 as [_ I2]. split; [rewrite N3; destruct (d_norm t); exact I|exact I2]. }
    { rewrite N3. destruct (d_norm t); exact I. }
    rewrite N3 in E', N'. exists t'. split; [exact E'|]. split; [exact I'|]. split; [exact N'|]. split; [rewrite X'; exact X2|exact K'].
Qed.
End P.
