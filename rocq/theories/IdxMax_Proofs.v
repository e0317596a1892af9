From Coq Require Import Permutation.
From Verif Require Import Base BaseLemmas Workers_Model Workers_Spec Workers_Proofs Workers_Final
  Kern_Model Kern_Spec Kern_Proofs MKern_Proofs MKern_Proofs2 IdxMax_Model IdxMax_Spec.

Section P.
Context {A : Type} (gt : A -> A -> bool) (HG : total_gt gt).
Implicit Types src : mtx A.

Lemma gt_asym x y : gt x y = true -> gt y x = false.
Proof.
  intros H. destruct (gt y x) eqn:E; [|reflexivity].
  pose proof (gt_trans _ HG _ _ _ H E) as C. rewrite (gt_irrefl _ HG) in C. discriminate.
Qed.

(** i is the first maximum among columns cb..ce-1, of value v *)
Definition first_in src r cb ce v i : Prop :=
  cb <= i < ce /\ mget src r i = Some v /\
  (forall j w, cb <= j < i -> mget src r j = Some w -> gt v w = true) /\
  (forall j w, i <= j < ce -> mget src r j = Some w -> gt w v = false).

Lemma row_max_first src cb ce r : alloc src -> r < m_rows src -> cb < ce -> ce <= m_cols src ->
  exists v i, row_max gt src cb ce r = Some (v, i) /\ first_in src r cb ce v i.
Proof.
  intros HA Hr Hc Hce.
  assert (Hget : forall j, j < ce -> exists w, mget src r j = Some w).
  { intros j Hj. destruct (mget src r j) eqn:E; [eauto|]. exfalso. revert E. apply mget_some; auto; lia. }
  unfold row_max. destruct (Hget cb Hc) as (v0 & E0).
  assert (E0' : bget (m_data src) (col_ofs src cb + r) = Some v0).
  { unfold mget in E0. rewrite Nat.add_comm in E0. exact E0. }
  rewrite E0'. cbn [obind].
  destruct (for_loop_inv (fun c (st : A * nat * nat) => let '(v, i, p) := st in
      p = col_ofs src c + r /\ first_in src r cb c v i) (cb + 1) (ce - (cb + 1))
      (fun c '(v, idx, pElm) =>
      do x <- bget (m_data src) pElm;
      Some (if gt x v then (x, c, pElm + m_rows src) else (v, idx, pElm + m_rows src)))
      (v0, cb, col_ofs src cb + r + m_rows src)) as ([[v i] p] & El & _ & Hf).
  - split; [unfold col_ofs, ldim; rewrite Nat.mul_add_distr_l; lia|]. split; [lia|]. split; [exact E0|]. split.
    + intros j w Hj. lia.
    + intros j w Hj Ew. assert (j = cb) by lia. subst. rewrite E0 in Ew. injection Ew as <-.
      apply (gt_irrefl _ HG).
  - intros c [[v i] p] Hcc [Hp (F1 & F2 & F3 & F4)].
    destruct (Hget c ltac:(lia)) as (x & Ex).
    assert (Ex' : bget (m_data src) p = Some x).
    { rewrite Hp. unfold mget in Ex. rewrite Nat.add_comm in Ex. exact Ex. }
    rewrite Ex'. cbn [obind]. eexists. split; [reflexivity|].
    destruct (gt x v) eqn:Eg.
    + split; [rewrite Hp; unfold col_ofs, ldim; rewrite Nat.mul_add_distr_l; lia|].
      split; [lia|]. split; [exact Ex|]. split.
      * intros j w Hj Ew. destruct (Nat.lt_ge_cases j i) as [L|L].
        -- eapply (gt_trans _ HG); [exact Eg|]. eapply F3; [|exact Ew]. lia.
        -- specialize (F4 j w ltac:(lia) Ew).
           destruct (gt x w) eqn:Exw; [reflexivity|].
           rewrite (gt_ntrans _ HG _ _ _ Exw F4) in Eg. discriminate.
      * intros j w Hj Ew. assert (j = c) by lia. subst. rewrite Ex in Ew. injection Ew as <-.
        apply (gt_irrefl _ HG).
    + split; [rewrite Hp; unfold col_ofs, ldim; rewrite Nat.mul_add_distr_l; lia|].
      split; [lia|]. split; [exact F2|]. split; [exact F3|].
      intros j w Hj Ew. destruct (Nat.eq_dec j c) as [->|N].
      * rewrite Ex in Ew. injection Ew as <-. exact Eg.
      * apply (F4 j); [lia|exact Ew].
  - rewrite El. cbn [obind]. exists v, i. split; [reflexivity|].
    replace (cb + 1 + (ce - (cb + 1))) with ce in Hf by lia. exact Hf.
Qed.

Lemma st_rw_closed src rb re cb ce dofs : alloc src -> rb <= re -> re <= m_rows src -> cb < ce -> ce <= m_cols src ->
  exists w, st_rw gt src rb re cb ce dofs = Some w /\
    forall a x, In (a, x) w <-> exists r, rb <= r < re /\ a = dofs + r /\ row_max gt src cb ce r = Some x.
Proof.
  intros HA Hr1 Hr2 Hc1 Hc2. unfold st_rw.
  rewrite (wfor_closed' rb (re - rb) _ tt (fun _ => tt)
    (fun r => match row_max gt src cb ce r with Some x => [(dofs + r, x)] | None => [] end)).
  - cbn [obind]. eexists. split; [reflexivity|]. intros a x. rewrite in_flat_map. split.
    + intros (r & Hr & Hin). apply in_seq in Hr. exists r. split; [lia|].
      destruct (row_max gt src cb ce r) as [y|]; [|destruct Hin].
      destruct Hin as [E|[]]. injection E as <- <-. auto.
    + intros (r & Hr & -> & E). exists r. split; [apply in_seq; lia|]. rewrite E. left. reflexivity.
  - reflexivity.
  - intros r Hr. destruct (row_max_first src cb ce r HA) as (v & i & E & _); [lia|lia|lia|].
    rewrite E. reflexivity.
Qed.

Lemma in_idx_only w a i : In (a, i) (@idx_only A w) <-> exists v, In (a, (v, i)) w.
Proof.
  unfold idx_only. rewrite in_map_iff. split.
  - intros ([b [v j]] & E & H). injection E as <- <-. eauto.
  - intros (v & H). exists (a, (v, i)). auto.
Qed.

Definition max_f src (i j : nat) : option nat :=
  match row_max gt src 0 (m_cols src) i with Some (_, k) => Some k | None => None end.

Lemma idxmax_mt_rw_correct parts src dest : alloc src -> 0 < m_cols src -> m_rows src <= length dest ->
  tiles parts (m_rows src) ->
  computes (idxmax_mt_rw gt parts src) dest (holds_block (m_rows src) (m_rows src) 1 (max_f src) dest).
Proof.
  intros HA HC HD HT. unfold idxmax_mt_rw.
  apply (computes_block _ _ (m_rows src) _ _ _ _ _ (fun i j => i)); [exact HT|lia| |].
  - intros i j Hi Hj. split; [nia|]. split; [exact Hi|]. unfold max_f.
    destruct (row_max_first src 0 (m_cols src) i) as (v & k & E & _); auto. rewrite E. discriminate.
  - intros p _ Hp1 Hp2.
    destruct (st_rw_closed src (r_ofs p) (r_ofs p + r_cnt p) 0 (m_cols src) 0) as (w & E & Hin); auto; [lia|].
    rewrite E. cbn [obind]. eexists. split; [reflexivity|]. intros a k. rewrite in_idx_only. split.
    + intros (v & Hv). apply Hin in Hv. destruct Hv as (r & Hr & -> & Em).
      exists r, 0. split; [lia|]. split; [lia|]. split; [lia|]. unfold max_f. rewrite Em. split; [reflexivity|lia].
    + intros (i & j & Hi & Hj & -> & Em & Ho). unfold max_f in Em.
      destruct (row_max gt src 0 (m_cols src) i) as [[v k']|] eqn:Er; [|discriminate]. injection Em as <-.
      exists v. apply Hin. exists i. split; [lia|]. split; [lia|]. exact Er.
Qed.

Lemma idxmax_st_correct src dest : alloc src -> 0 < m_rows src -> 0 < m_cols src -> m_rows src <= length dest ->
  computes (idxmax_st gt src) dest (holds_block (m_rows src) (m_rows src) 1 (max_f src) dest).
Proof.
  intros HA HR HC HD.
  assert (E : idxmax_st gt src = idxmax_mt_rw gt (whole (m_rows src)) src).
  { unfold idxmax_st, idxmax_mt_rw, whole, par. simpl r_ofs. simpl r_cnt. rewrite Nat.add_0_l.
    destruct (st_rw _ _ _ _ _ _ _); reflexivity. }
  rewrite E. apply idxmax_mt_rw_correct; auto. apply whole_tiles. exact HR.
Qed.

Lemma first_in_max src r v i : 0 < m_cols src ->
  (forall j, j < m_cols src -> exists w, mget src r j = Some w) ->
  first_in src r 0 (m_cols src) v i -> is_first_max gt src r i.
Proof.
  intros HC Hget (F1 & F2 & F3 & F4). split.
  - split; [lia|]. exists v. split; [exact F2|]. intros j Hj. destruct (Hget j Hj) as (w & Ew).
    exists w. split; [exact Ew|]. destruct (Nat.lt_ge_cases j i) as [L|L].
    + apply gt_asym. apply (F3 j); [lia|exact Ew].
    + apply (F4 j); [lia|exact Ew].
  - intros j Hj (Hj1 & w & Ew & Hall). destruct (Hall i ltac:(lia)) as (v' & Ev & Hg).
    rewrite F2 in Ev. injection Ev as <-. rewrite (F3 j w ltac:(lia) Ew) in Hg. discriminate.
Qed.

Lemma mget_all src r : alloc src -> r < m_rows src ->
  forall j, j < m_cols src -> exists w, mget src r j = Some w.
Proof.
  intros HA Hr j Hj. destruct (mget src r j) eqn:E; [eauto|]. exfalso. revert E. apply mget_some; auto.
Qed.

Lemma max_f_first src r : alloc src -> r < m_rows src -> 0 < m_cols src ->
  exists i, max_f src r 0 = Some i /\ is_first_max gt src r i.
Proof.
  intros HA Hr HC. destruct (row_max_first src 0 (m_cols src) r) as (v & i & E & F); auto.
  exists i. unfold max_f. rewrite E. split; [reflexivity|].
  eapply first_in_max; eauto. apply mget_all; assumption.
Qed.

(** ** The version splitting columns over threads *)

(** the ranges have the thread ids 0 .. number of ranges - 1 *)
Definition tids_ok (parts : list prange) := Permutation (map r_tid parts) (seq 0 (length parts)).

Definition part_of (parts : list prange) (t : nat) : prange :=
  match find (fun p => r_tid p =? t) parts with Some p => p | None => mkR 0 0 0 end.

Lemma part_of_in parts t : tids_ok parts -> t < length parts ->
  In (part_of parts t) parts /\ r_tid (part_of parts t) = t.
Proof.
  intros HP Ht. unfold part_of. destruct (find _ parts) as [p|] eqn:E.
  - apply find_some in E. destruct E as [E1 E2]. apply Nat.eqb_eq in E2. auto.
  - exfalso. assert (In t (map r_tid parts)) as Hin.
    { apply (Permutation_in _ (Permutation_sym HP)). apply in_seq. lia. }
    apply in_map_iff in Hin. destruct Hin as (p & Ep & Hp).
    pose proof (find_none _ _ E p Hp) as C. simpl in C. rewrite Ep, Nat.eqb_refl in C. discriminate.
Qed.

Lemma part_of_unique parts p : tids_ok parts -> In p parts -> part_of parts (r_tid p) = p /\ r_tid p < length parts.
Proof.
  intros HP Hp.
  assert (Hlt : r_tid p < length parts).
  { assert (In (r_tid p) (seq 0 (length parts))) as H.
    { apply (Permutation_in _ HP). apply in_map. exact Hp. }
    apply in_seq in H. lia. }
  split; [|exact Hlt].
  destruct (part_of_in parts (r_tid p) HP Hlt) as [H1 H2].
  assert (HN : NoDup (map r_tid parts)).
  { eapply Permutation_NoDup; [apply Permutation_sym; exact HP|apply seq_NoDup]. }
  set (q := part_of parts (r_tid p)) in *. clearbody q. clear HP Hlt.
  induction parts as [|z l IH]; [destruct Hp|]. simpl in HN. inversion HN as [|? ? HN1 HN2]; subst.
  destruct H1 as [->|H1], Hp as [->|Hp]; auto.
  - exfalso. apply HN1. rewrite H2. apply in_map. exact Hp.
  - exfalso. apply HN1. rewrite <- H2. apply in_map. exact H1.
Qed.

Lemma tiles_disjoint parts cnt p q c : tiles parts cnt -> In p parts -> In q parts ->
  In c (idxs p) -> In c (idxs q) -> p = q.
Proof.
  intros [HP _] Hp Hq H1 H2.
  assert (HN : NoDup (flat_map idxs parts)).
  { eapply Permutation_NoDup; [apply Permutation_sym; exact HP|apply seq_NoDup]. }
  apply In_nth_error in Hp. apply In_nth_error in Hq. destruct Hp as [i Hi], Hq as [j Hj].
  destruct (Nat.eq_dec i j) as [->|N]; [congruence|].
  exfalso. exact (NoDup_flat_map_disjoint idxs parts i j p q c HN Hi Hj N H1 H2).
Qed.

Definition cw_f src parts (r t : nat) : option (A * nat) :=
  let p := part_of parts t in row_max gt src (r_ofs p) (r_ofs p + r_cnt p) r.

Lemma cw_phase1_correct parts src tmp : alloc src -> tiles parts (m_cols src) -> tids_ok parts ->
  m_rows src * length parts <= length tmp ->
  computes (cw_phase1 gt parts src) tmp
    (holds_block (m_rows src) (m_rows src) (length parts) (cw_f src parts) tmp).
Proof.
  intros HA HT HI HM. unfold cw_phase1.
  apply (computes_block _ _ (m_cols src) _ _ _ _ _ (fun i t => r_ofs (part_of parts t))); [exact HT|lia| |].
  - intros i t Hi Ht. split; [nia|].
    destruct (part_of_in parts t HI Ht) as [H1 H2]. destruct (tiles_bound _ _ _ HT H1) as [B1 B2].
    split; [lia|]. unfold cw_f.
    destruct (row_max_first src (r_ofs (part_of parts t)) (r_ofs (part_of parts t) + r_cnt (part_of parts t)) i)
      as (v & k & E & _); auto; [lia|]. cbv zeta. rewrite E. discriminate.
  - intros p Hp Hp1 Hp2. destruct (part_of_unique parts p HI Hp) as [Hu Hlt].
    destruct (st_rw_closed src 0 (m_rows src) (r_ofs p) (r_ofs p + r_cnt p) (m_rows src * r_tid p))
      as (w & E & Hin); auto; [lia|lia|].
    rewrite E. eexists. split; [reflexivity|]. intros a x. rewrite Hin. split.
    + intros (r & Hr & -> & Em). exists r, (r_tid p). split; [lia|]. split; [exact Hlt|]. split; [lia|].
      unfold cw_f. rewrite Hu. split; [exact Em|lia].
    + intros (i & t & Hi & Ht & -> & Em & Ho).
      destruct (part_of_in parts t HI Ht) as [H1 H2]. destruct (tiles_bound _ _ _ HT H1) as [B1 B2].
      assert (Ep : part_of parts t = p).
      { eapply (tiles_disjoint parts _ _ _ (r_ofs (part_of parts t)) HT H1 Hp); apply in_idxs; lia. }
      exists i. split; [lia|]. rewrite <- H2, Ep. split; [lia|].
      unfold cw_f in Em. rewrite Ep in Em. exact Em.
Qed.

(** best over the ranges with ids < n *)
Definition best_upto src parts r n v i : Prop :=
  exists t, t < n /\
    first_in src r (r_ofs (part_of parts t)) (r_ofs (part_of parts t) + r_cnt (part_of parts t)) v i /\
    (forall s j w, s < t -> In j (idxs (part_of parts s)) -> mget src r j = Some w -> gt v w = true) /\
    (forall s j w, t <= s < n -> In j (idxs (part_of parts s)) -> mget src r j = Some w -> gt w v = false).

Lemma first_in_all src r cb ce v i j w : first_in src r cb ce v i -> cb <= j < ce -> mget src r j = Some w -> gt w v = false.
Proof.
  intros (F1 & F2 & F3 & F4) Hj Ew. destruct (Nat.lt_ge_cases j i) as [L|L].
  - apply gt_asym. apply (F3 j); [lia|exact Ew].
  - apply (F4 j); [lia|exact Ew].
Qed.

Definition merged src parts (n : nat) (k : nat) (orig tmp : list (A * nat)) : Prop :=
  length tmp = length orig /\
  (forall a, m_rows src <= a -> bget tmp a = bget orig a) /\
  (forall r, r < m_rows src -> exists v i, bget tmp r = Some (v, i) /\
     best_upto src parts r (if r <? k then n + 1 else n) v i).

Lemma cw_merge_correct parts src tmp0 tmp : alloc src -> tiles parts (m_cols src) -> tids_ok parts ->
  0 < length parts ->
  m_rows src * length parts <= length tmp ->
  holds_block (m_rows src) (m_rows src) (length parts) (cw_f src parts) tmp0 tmp ->
  exists tmp', cw_merge gt (m_rows src) (length parts) tmp = Some tmp' /\
    length tmp' = length tmp /\
    forall r, r < m_rows src -> exists v i, bget tmp' r = Some (v, i) /\ best_upto src parts r (length parts) v i.
Proof.
  intros HA HT HI HL HM [HB _]. set (T := length parts) in *. set (rm := m_rows src) in *.
  assert (Hown : forall r t, r < rm -> t < T -> exists v i,
     bget tmp (rm * t + r) = Some (v, i) /\
     first_in src r (r_ofs (part_of parts t)) (r_ofs (part_of parts t) + r_cnt (part_of parts t)) v i).
  { intros r t Hr Ht. destruct (part_of_in parts t HI Ht) as [H1 H2]. destruct (tiles_bound _ _ _ HT H1) as [B1 B2].
    destruct (row_max_first src (r_ofs (part_of parts t)) (r_ofs (part_of parts t) + r_cnt (part_of parts t)) r)
      as (v & k & E & F); auto; [lia|].
    exists v, k. split; [|exact F]. destruct (HB r t Hr Ht) as [E2 _]. rewrite Nat.add_comm, E2.
    unfold cw_f. exact E. }
  unfold cw_merge.
  destruct (for_loop_inv (fun t tm => merged src parts t 0 tmp tm) 1 (T - 1)
    (fun t tmp => for_loop 0 rm (fun r tmp =>
      do (m, _) <- bget tmp r;
      do (v, iv) <- bget tmp (rm * t + r);
      if gt v m then bset tmp r (v, iv) else Some tmp) tmp) tmp) as (tmp' & E & HR).
  - split; [reflexivity|]. split; [reflexivity|]. intros r Hr.
    destruct (Hown r 0 Hr HL) as (v & i & E & F). rewrite Nat.mul_0_r, Nat.add_0_l in E.
    exists v, i. split; [exact E|]. simpl. exists 0. split; [lia|]. split; [exact F|]. split.
    + intros; lia.
    + intros s j w Hs Hj Ew. assert (s = 0) by lia. subst. apply in_idxs in Hj.
      eapply first_in_all; eauto.
  - intros t tm Ht HMt.
    destruct (for_loop_inv (fun k tm => merged src parts t k tmp tm) 0 rm (fun r tmp =>
      do (m, _) <- bget tmp r;
      do (v, iv) <- bget tmp (rm * t + r);
      if gt v m then bset tmp r (v, iv) else Some tmp) tm) as (tm' & E & HR); [exact HMt| |].
    + intros r tm1 Hr (L1 & L2 & L3).
      destruct (L3 r ltac:(lia)) as (m & im & Em & Hbest). rewrite Nat.ltb_irrefl in Hbest.
      rewrite Em. cbn [obind].
      destruct (Hown r t ltac:(lia) ltac:(lia)) as (v & iv & Ev & Fv).
      rewrite L2 by (fold rm; nia). rewrite Ev. cbn [obind].
      destruct Hbest as (tb & Hb1 & Hb2 & Hb3 & Hb4).
      destruct (gt v m) eqn:Eg.
      * destruct (bset_lt tm1 r (v, iv)) as (tm2 & E2).
        { rewrite L1. nia. }
        exists tm2. split; [exact E2|]. destruct (bset_some _ _ _ _ E2) as (S1 & S2 & S3).
        split; [lia|]. split.
        { intros a Ha. rewrite S3. fold rm in Ha. destruct (Nat.eqb_spec a r); [lia|]. apply L2; exact Ha. }
        intros r' Hr'. destruct (Nat.eq_dec r' r) as [->|N].
        -- exists v, iv. split; [rewrite S3, Nat.eqb_refl; reflexivity|]. assert (r <? r + 1 = true) as -> by (apply Nat.ltb_lt; lia).
           exists t. split; [lia|]. split; [exact Fv|]. split.
           ++ intros s j w Hs Hj Ew. destruct (Nat.lt_ge_cases s tb) as [Ls|Ls].
              ** eapply (gt_trans _ HG); [exact Eg|]. eapply Hb3; eauto.
              ** specialize (Hb4 s j w ltac:(lia) Hj Ew). destruct (gt v w) eqn:Evw; [reflexivity|].
                 rewrite (gt_ntrans _ HG _ _ _ Evw Hb4) in Eg. discriminate.
           ++ intros s j w Hs Hj Ew. assert (s = t) by lia. subst s. apply in_idxs in Hj.
              eapply first_in_all; eauto.
        -- destruct (L3 r' Hr') as (v' & i' & E' & Hb'). exists v', i'. split; [rewrite S3; apply Nat.eqb_neq in N; rewrite N; exact E'|].
           destruct (Nat.ltb_spec r' (r + 1)), (Nat.ltb_spec r' r); try lia; exact Hb'.
      * exists tm1. split; [reflexivity|]. split; [exact L1|]. split; [exact L2|].
        intros r' Hr'. destruct (Nat.eq_dec r' r) as [->|N].
        -- exists m, im. split; [exact Em|]. assert (r <? r + 1 = true) as -> by (apply Nat.ltb_lt; lia).
           exists tb. split; [lia|]. split; [exact Hb2|]. split; [exact Hb3|].
           intros s j w Hs Hj Ew. destruct (Nat.eq_dec s t) as [->|Ns].
           ++ apply in_idxs in Hj. eapply (gt_ntrans _ HG); [|exact Eg]. eapply first_in_all; eauto.
           ++ apply (Hb4 s j); [lia|exact Hj|exact Ew].
        -- destruct (L3 r' Hr') as (v' & i' & E' & Hb'). exists v', i'. split; [exact E'|].
           destruct (Nat.ltb_spec r' (r + 1)), (Nat.ltb_spec r' r); try lia; exact Hb'.
    + exists tm'. split; [exact E|]. destruct HR as (L1 & L2 & L3). split; [exact L1|]. split; [exact L2|].
      intros r Hr. destruct (L3 r Hr) as (v & i & E' & Hb). exists v, i. split; [exact E'|].
      rewrite Nat.add_0_l in Hb. destruct (Nat.ltb_spec r rm) as [_|]; [|lia].
      destruct (Nat.ltb_spec r 0); [lia|]. exact Hb.
  - exists tmp'. split; [exact E|]. destruct HR as (L1 & L2 & L3). split; [exact L1|].
    intros r Hr. destruct (L3 r Hr) as (v & i & E' & Hb). exists v, i. split; [exact E'|].
    destruct (Nat.ltb_spec r 0); [lia|]. replace (1 + (T - 1)) with T in Hb by lia. exact Hb.
Qed.

Definition best_f src parts dest' : Prop := forall r, r < m_rows src ->
  exists v i, bget dest' r = Some i /\ best_upto src parts r (length parts) v i.

Lemma cw_gather_correct parts src tmp0 tmp (dest : list nat) : alloc src -> tiles parts (m_cols src) -> tids_ok parts ->
  0 < length parts -> m_rows src <= length dest ->
  m_rows src * length parts <= length tmp ->
  holds_block (m_rows src) (m_rows src) (length parts) (cw_f src parts) tmp0 tmp ->
  computes (cw_gather gt (m_rows src) (length parts) tmp) dest
    (fun dest' => best_f src parts dest' /\ forall a, m_rows src <= a -> bget dest' a = bget dest a).
Proof.
  intros HA HT HI HL HD HM HB.
  destruct (cw_merge_correct _ _ _ _ HA HT HI HL HM HB) as (tmp' & E & EL & HR).
  unfold cw_gather. rewrite E. cbn [obind].
  rewrite memcpy_closed by nia. cbn [obind].
  eapply computes_weaken.
  - apply (computes_single _ _ (m_rows src) (m_rows src) 1 (fun i _ => option_map snd (bget tmp' i))); [lia| |].
    + intros i j Hi Hj. split; [nia|]. destruct (HR i Hi) as (v & k & E' & _). rewrite E'. discriminate.
    + intros a k. rewrite in_idx_only. split.
      * intros (v & Hv). apply in_mc in Hv. destruct Hv as (i & Hi & -> & Ei). exists i, 0.
        split; [exact Hi|]. split; [lia|]. split; [lia|]. simpl in Ei. rewrite Ei. reflexivity.
      * intros (i & j & Hi & Hj & -> & Ei). destruct (bget tmp' i) as [[v k']|] eqn:Eb; [|discriminate].
        injection Ei as <-. exists v. apply in_mc. exists i. split; [exact Hi|]. split; [lia|exact Eb].
  - intros d' _ [H1 H2]. split.
    + intros r Hr. destruct (HR r Hr) as (v & k & E' & Hb). exists v, k. split; [|exact Hb].
      destruct (H1 r 0 Hr) as [H3 _]; [lia|]. rewrite Nat.mul_0_r, Nat.add_0_r in H3. rewrite H3, E'. reflexivity.
    + intros a Ha. apply H2. intros i j Hi Hj. nia.
Qed.

Lemma best_is_max parts src r v i : alloc src -> r < m_rows src -> tiles parts (m_cols src) -> tids_ok parts ->
  best_upto src parts r (length parts) v i -> is_max gt src r i.
Proof.
  intros HA Hr HT HI (t & Ht & F & H1 & H2).
  destruct (part_of_in parts t HI Ht) as [P1 P2]. destruct (tiles_bound _ _ _ HT P1) as [B1 B2].
  pose proof F as (F1 & F2 & _ & _).
  split; [lia|]. exists v. split; [exact F2|]. intros j Hj.
  destruct (mget_all src r HA Hr j Hj) as (w & Ew). exists w. split; [exact Ew|].
  destruct (tiles_cover _ _ _ HT Hj) as (p & Hp & Hjp).
  destruct (part_of_unique parts p HI Hp) as [U1 U2].
  destruct (Nat.lt_ge_cases (r_tid p) t) as [L|L].
  - apply gt_asym. apply (H1 (r_tid p) j); auto. rewrite U1. exact Hjp.
  - apply (H2 (r_tid p) j); auto. rewrite U1. exact Hjp.
Qed.

Lemma unique_first src r i : is_max gt src r i -> unique_max gt src r -> is_first_max gt src r i.
Proof. intros H U. split; [exact H|]. intros j Hj HM. specialize (U _ _ H HM). lia. Qed.

(** ** Ranges of the pool *)

Lemma filter_prefix k : forall (l : list prange) base,
  (forall i x, nth_error l i = Some x -> (r_cnt x =? 0) = (k <=? base + i)) ->
  filter (fun r => negb (r_cnt r =? 0)) l = firstn (k - base) l.
Proof.
  induction l as [|x l IH]; intros base H; [now rewrite firstn_nil|].
  simpl filter. rewrite (H 0 x eq_refl), Nat.add_0_r.
  assert (IH' : filter (fun r => negb (r_cnt r =? 0)) l = firstn (k - S base) l).
  { apply IH. intros i y Hy. rewrite (H (S i) y Hy). f_equal. lia. }
  destruct (Nat.leb_spec k base) as [L|L]; cbn [negb].
  - replace (k - base) with 0 by lia. rewrite IH'. replace (k - S base) with 0 by lia. reflexivity.
  - replace (k - base) with (S (k - S base)) by lia. cbn [firstn]. rewrite IH'. reflexivity.
Qed.

Lemma firstn_seq k : forall a n, k <= n -> firstn k (seq a n) = seq a k.
Proof.
  induction k as [|k IH]; intros a [|n] H; try lia; try reflexivity.
  simpl. rewrite IH by lia. reflexivity.
Qed.

Lemma run_ranges_tids pool req cnt : pool_ok pool -> tids_ok (run_ranges pool req cnt).
Proof.
  intros HP. unfold tids_ok, run_ranges. destruct (Nat.leb_spec cnt 1) as [Hc|Hc]; [reflexivity|].
  destruct (partition cnt req pool) as [[w rs'] ofs] eqn:E.
  destruct (partition_facts _ _ _ _ _ _ Hc E) as (F1 & F2 & F3 & F4 & F5 & F6 & F7).
  destruct (partition_exact _ _ _ _ _ _ Hc E) as (_ & _ & HW & HC & HTid & _).
  assert (Hfil : filter (fun r => negb (r_cnt r =? 0)) rs' = firstn w rs').
  { rewrite <- (Nat.sub_0_r w). apply filter_prefix. intros i x Hx. rewrite Nat.add_0_l.
    specialize (F7 i x Hx). destruct (Nat.leb_spec w i) as [L|L]; rewrite F7; [reflexivity|].
    apply Nat.eqb_neq.
    pose proof (working_threads (length pool) cnt req Hc) as Hwt. rewrite <- F1 in Hwt.
    assert (0 < cnt / (w + 1)); [|lia]. apply Nat.div_str_pos. lia. }
  rewrite Hfil in *. rewrite app_length in HW. cbn [length] in HW.
  rewrite map_app, app_length, <- firstn_map, HTid, HP. cbn [map length].
  assert (length (firstn w rs') = w) as HLw by lia. rewrite HLw.
  assert (w <= length pool).
  { rewrite firstn_length in HLw. lia. }
  rewrite firstn_seq by assumption. cbn [main_range r_tid].
  replace (w + 1) with (S w) by lia.
  change (seq 0 (S w)) with (0 :: seq 1 w).
  rewrite Permutation_app_comm. reflexivity.
Qed.

Lemma cw_parts_length cpt (pool : list prange) src : 0 < cpt -> cpt < m_cols src ->
  0 < length (cw_parts cpt pool src) <= howMuchThreads cpt (m_cols src) (length pool).
Proof.
  intros H1 H2. unfold cw_parts, run_ranges.
  destruct (Nat.leb_spec (m_cols src) 1) as [Hc|Hc]; [lia|].
  destruct (partition (m_cols src) _ pool) as [[w rs'] ofs] eqn:E.
  destruct (partition_exact _ _ _ _ _ _ Hc E) as (_ & HL & HW & _). rewrite HL.
  unfold max_threads, howMuchThreads.
  assert (Hq : 2 <= (m_cols src + cpt - 1) / cpt) by (apply Nat.div_le_lower_bound; lia).
  set (q := (m_cols src + cpt - 1) / cpt) in *. clearbody q. clear E HL HW.
  destruct (Nat.ltb_spec q (length pool + 1)) as [L|L];
    repeat match goal with |- context [(?a <? ?b)%Z] => destruct (Z.ltb_spec a b)
                         | |- context [(?a <=? ?b)%Z] => destruct (Z.leb_spec a b) end; cbn [andb]; lia.
Qed.

(** ** The whole function *)

Lemma idxs_of_max_is_max thr thrRows cpt pool src tmp dest : ready src tmp dest cpt pool ->
  mrwIdxsOfMax gt thr thrRows cpt pool src tmp dest (fun dest' =>
    (forall r, r < m_rows src -> exists i, bget dest' r = Some i /\ is_max gt src r i) /\
    untouched src dest dest').
Proof.
  intros (HA & HR & HC & HD & Hcpt & HP & HM). unfold mrwIdxsOfMax.
  assert (Hrow : forall d', holds_block (m_rows src) (m_rows src) 1 (max_f src) dest d' ->
     (forall r, r < m_rows src -> exists i, bget d' r = Some i /\ is_max gt src r i) /\ untouched src dest d').
  { intros d' [H1 H2]. split.
    - intros r Hr. destruct (max_f_first src r HA Hr HC) as (i & Ei & HF & _).
      exists i. split; [|exact HF]. destruct (H1 r 0 Hr) as [H3 _]; [lia|].
      rewrite Nat.mul_0_r, Nat.add_0_r in H3. rewrite H3. exact Ei.
    - intros a Ha. apply H2. intros i j Hi Hj. nia. }
  destruct (_ <? thr); [|destruct (Nat.ltb_spec (m_rows src) thrRows); [destruct (Nat.ltb_spec cpt (m_cols src))|]];
    cbn [andb].
  - eapply computes_weaken; [apply idxmax_st_correct; auto|]. intros d' _. apply Hrow.
  - cbv zeta. assert (HTi : tiles (cw_parts cpt pool src) (m_cols src)) by (apply run_ranges_tiles; lia).
    assert (HId : tids_ok (cw_parts cpt pool src)) by (apply run_ranges_tids; exact HP).
    destruct (cw_parts_length cpt pool src) as [HL1 HL2]; auto.
    assert (HM' : m_rows src * length (cw_parts cpt pool src) <= length tmp) by nia.
    eapply computes_weaken; [apply cw_phase1_correct; auto|].
    intros t EL HB. eapply computes_weaken; [eapply cw_gather_correct; eauto; lia|].
    intros d' _ [H1 H2]. split; [|exact H2]. intros r Hr. destruct (H1 r Hr) as (v & i & Ei & Hb).
    exists i. split; [exact Ei|]. eapply best_is_max; eauto.
  - eapply computes_weaken; [apply idxmax_mt_rw_correct; auto; apply run_ranges_tiles; auto|]. intros d' _. apply Hrow.
  - eapply computes_weaken; [apply idxmax_mt_rw_correct; auto; apply run_ranges_tiles; auto|]. intros d' _. apply Hrow.
Qed.

Lemma mrwIdxsOfMax_weaken thr thrRows cpt pool src tmp dest (P Q : list nat -> Prop) :
  (forall d, P d -> Q d) -> mrwIdxsOfMax gt thr thrRows cpt pool src tmp dest P ->
  mrwIdxsOfMax gt thr thrRows cpt pool src tmp dest Q.
Proof.
  intros H. unfold mrwIdxsOfMax. destruct (_ <? thr); [|destruct (_ && _)]; intros HC.
  - eapply computes_weaken; [exact HC|]. auto.
  - eapply computes_weaken; [exact HC|]. intros t _ Ht. cbv beta in *. eapply computes_weaken; [exact Ht|]. auto.
  - eapply computes_weaken; [exact HC|]. auto.
Qed.

(** Whenever the columns are not split, or the row has a single maximum, the
    first maximum is found. *)
Lemma idxs_of_max_first thr thrRows cpt pool src tmp dest : ready src tmp dest cpt pool ->
  mrwIdxsOfMax gt thr thrRows cpt pool src tmp dest (fun dest' =>
    forall r, r < m_rows src ->
      numel src < thr \/ thrRows <= m_rows src \/ m_cols src <= cpt \/ length pool = 0 \/ unique_max gt src r ->
      exists i, bget dest' r = Some i /\ is_first_max gt src r i).
Proof.
  intros HRd. pose proof HRd as (HA & HR & HC & HD & Hcpt & HP & HM).
  assert (Hrow : forall d', holds_block (m_rows src) (m_rows src) 1 (max_f src) dest d' ->
     (forall r, r < m_rows src -> exists i, bget d' r = Some i /\ is_first_max gt src r i)).
  { intros d' [H1 H2] r Hr. destruct (max_f_first src r HA Hr HC) as (i & Ei & HF).
      exists i. split; [|exact HF]. destruct (H1 r 0 Hr) as [H3 _]; [lia|].
      rewrite Nat.mul_0_r, Nat.add_0_r in H3. rewrite H3. exact Ei. }
  unfold mrwIdxsOfMax.
  destruct (Nat.ltb_spec (numel src) thr); [|destruct (Nat.ltb_spec (m_rows src) thrRows); [destruct (Nat.ltb_spec cpt (m_cols src))|]];
    cbn [andb].
  - eapply computes_weaken; [apply idxmax_st_correct; auto|]. intros d' _ H0 r Hr _. eapply Hrow; eauto.
  - cbv zeta. assert (HTi : tiles (cw_parts cpt pool src) (m_cols src)) by (apply run_ranges_tiles; lia).
    assert (HId : tids_ok (cw_parts cpt pool src)) by (apply run_ranges_tids; exact HP).
    destruct (cw_parts_length cpt pool src) as [HL1 HL2]; auto.
    assert (HM' : m_rows src * length (cw_parts cpt pool src) <= length tmp) by nia.
    eapply computes_weaken; [apply cw_phase1_correct; auto|].
    intros t EL HB. eapply computes_weaken; [eapply cw_gather_correct; eauto; lia|].
    intros d' _ [H3 _] r Hr HX. destruct (H3 r Hr) as (v & i & Ei & Hb).
    exists i. split; [exact Ei|].
    destruct HX as [?|[?|[?|[Hpool|Hu]]]]; try lia.
    + (* one range *)
      assert (Hone : length (cw_parts cpt pool src) = 1).
      { unfold howMuchThreads in HL2. rewrite Hpool in HL2.
        destruct (_ <? 0 + 1) eqn:Eq in HL2; [apply Nat.ltb_lt in Eq|]; lia. }
      destruct Hb as (t0 & Ht0 & F & _ & _). assert (t0 = 0) by lia. subst t0.
      destruct (part_of_in _ 0 HId) as [P1 P2]; [lia|].
      set (p := part_of (cw_parts cpt pool src) 0) in *.
      assert (Hp : r_ofs p = 0 /\ r_cnt p = m_cols src).
      { destruct (cw_parts cpt pool src) as [|q [|q2 l]]; simpl in Hone; try lia.
        destruct P1 as [<-|[]]. destruct HTi as [HPm Hpos].
        simpl in HPm. rewrite app_nil_r in HPm. unfold idxs in HPm.
        pose proof (Permutation_length HPm) as HL. rewrite !seq_length in HL.
        assert (In 0 (seq (r_ofs q) (r_cnt q))) as HZ.
        { apply (Permutation_in _ (Permutation_sym HPm)). apply in_seq. lia. }
        apply in_seq in HZ. split; lia. }
      destruct Hp as [-> ->] in F. rewrite Nat.add_0_l in F.
      eapply first_in_max; [exact HC|apply mget_all; assumption|exact F].
    + apply unique_first; [|exact Hu]. eapply best_is_max; eauto.
  - eapply computes_weaken; [apply idxmax_mt_rw_correct; auto; apply run_ranges_tiles; auto|].
    intros d' _ H3 r Hr _. eapply Hrow; eauto.
  - eapply computes_weaken; [apply idxmax_mt_rw_correct; auto; apply run_ranges_tiles; auto|].
    intros d' _ H3 r Hr _. eapply Hrow; eauto.
Qed.

(** All elements of a row equal, columns split over at least two threads: the
    index found is where the range of the calling thread begins, not 0. *)
Lemma idxs_of_max_ties thr thrRows cpt pool src tmp dest : ready src tmp dest cpt pool ->
  thr <= numel src -> m_rows src < thrRows -> cpt < m_cols src -> 0 < length pool ->
  (forall r i j v w, mget src r i = Some v -> mget src r j = Some w -> gt v w = false) ->
  mrwIdxsOfMax gt thr thrRows cpt pool src tmp dest (fun dest' =>
    forall r, r < m_rows src -> exists i, bget dest' r = Some i /\ 0 < i).
Proof.
  intros (HA & HR & HC & HD & Hcpt & HP & HM) G1 G2 G3 G4 Heq. unfold mrwIdxsOfMax.
  destruct (Nat.ltb_spec (numel src) thr); [lia|]. destruct (Nat.ltb_spec (m_rows src) thrRows); [|lia].
  destruct (Nat.ltb_spec cpt (m_cols src)); [|lia]. cbn [andb]. cbv zeta.
  assert (HTi : tiles (cw_parts cpt pool src) (m_cols src)) by (apply run_ranges_tiles; lia).
  assert (HId : tids_ok (cw_parts cpt pool src)) by (apply run_ranges_tids; exact HP).
  destruct (cw_parts_length cpt pool src) as [HL1 HL2]; auto.
  assert (HM' : m_rows src * length (cw_parts cpt pool src) <= length tmp) by nia.
  eapply computes_weaken; [apply cw_phase1_correct; auto|].
  intros t EL HB. eapply computes_weaken; [eapply cw_gather_correct; eauto; lia|].
  intros d' _ [H3 _] r Hr. destruct (H3 r Hr) as (v & i & Ei & Hb). exists i. split; [exact Ei|].
  destruct Hb as (t0 & Ht0 & F & Hlow & _). pose proof F as (F1 & F2 & F3 & _).
  assert (t0 = 0).
  { destruct t0 as [|t0]; [reflexivity|]. exfalso.
    destruct (part_of_in _ 0 HId ltac:(lia)) as [P1 P2]. destruct (tiles_bound _ _ _ HTi P1) as [B1 B2].
    destruct (mget_all src r HA Hr (r_ofs (part_of (cw_parts cpt pool src) 0)) ltac:(lia)) as (w & Ew).
    assert (gt v w = true) as C.
    { eapply (Hlow 0); [lia| |exact Ew]. apply in_idxs. lia. }
    rewrite (Heq _ _ _ _ _ F2 Ew) in C. discriminate. }
  subst t0.
  enough (0 < r_ofs (part_of (cw_parts cpt pool src) 0)) by lia.
  (* the calling thread has the last range, and there are at least two *)
  revert HId HTi HL1. unfold cw_parts, run_ranges.
  destruct (Nat.leb_spec (m_cols src) 1) as [Hc|Hc]; [lia|].
  destruct (partition (m_cols src) _ pool) as [[w rs'] ofs] eqn:E.
  destruct (partition_exact _ _ _ _ _ _ Hc E) as (Hfm & HLen & HW & _).
  intros HId HTi HL1.
  set (ps := filter _ rs' ++ _) in *.
  assert (Hin : In (main_range (m_cols src) ofs) ps) by (apply in_or_app; right; left; reflexivity).
  destruct (part_of_unique ps _ HId Hin) as [U _]. cbn [main_range r_tid] in U. rewrite U. cbn [main_range r_ofs].
  assert (Hlen2 : 2 <= length ps).
  { rewrite HLen. unfold max_threads, howMuchThreads.
    assert (Hq : 2 <= (m_cols src + cpt - 1) / cpt) by (apply Nat.div_le_lower_bound; lia).
    set (q := (m_cols src + cpt - 1) / cpt) in *. clearbody q.
    destruct (Nat.ltb_spec q (length pool + 1)) as [L|L];
    repeat match goal with |- context [(?a <? ?b)%Z] => destruct (Z.ltb_spec a b)
                         | |- context [(?a <=? ?b)%Z] => destruct (Z.leb_spec a b) end; cbn [andb]; lia. }
  destruct (Nat.eq_dec ofs 0) as [->|]; [|lia]. exfalso.
  (* then the caller's range would be everything *)
  assert (exists q, In q ps /\ q <> main_range (m_cols src) 0) as (q & Hq & Nq).
  { unfold ps in Hlen2 |- *. destruct (filter _ rs') as [|q l] eqn:Ef; [simpl in Hlen2; lia|].
    exists q. split; [left; reflexivity|]. intros ->.
    unfold ps in HId. simpl in HId. unfold tids_ok in HId. simpl in HId.
    assert (HN : NoDup (0 :: map r_tid (l ++ [main_range (m_cols src) 0]))).
    { eapply Permutation_NoDup; [apply Permutation_sym; exact HId|]. apply (seq_NoDup (S _) 0). }
    inversion HN as [|? ? N1 N2]. apply N1. rewrite map_app. apply in_or_app. right. left. reflexivity. }
  destruct (tiles_bound _ _ _ HTi Hq) as [B1 B2].
  apply Nq. eapply (tiles_disjoint ps _ _ _ (r_ofs q) HTi Hq Hin); apply in_idxs; [lia|].
  cbn [main_range r_ofs r_cnt]. lia.
Qed.
End P.
