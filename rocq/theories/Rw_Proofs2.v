(** Proofs about [mrwOr]. *)
From Coq Require Import Reals NArith Lia Bool Permutation.
From Verif Require Import Base BaseLemmas Workers_Model Workers_Spec Kern_Model Kern_Spec Kern_Proofs
  IdxMax_Model IdxMax_Spec IdxMax_Proofs Priv_Model Priv_Proofs Loss_Proofs Rng_Proofs Sfm_Model Sfm_Proofs Rw_Model Rw_Spec.
Local Open Scope nat_scope.

(** the bits of [v] are those set in row [r] of [A] in the columns lo..hi-1 *)
Definition bits_of (A : mtx N) (r lo hi : nat) (v : N) : Prop :=
  forall k, N.testbit v k = true <-> exists c, lo <= c < hi /\ N.testbit (nth (r + m_rows A * c) (m_data A) 0%N) k = true.

Lemma bits_0 A r lo : bits_of A r lo lo 0%N.
Proof. intros k. rewrite N.bits_0. split; [discriminate|]. intros (c & Hc & _). lia. Qed.
Lemma bits_one A r lo : bits_of A r lo (S lo) (nth (r + m_rows A * lo) (m_data A) 0%N).
Proof.
  intros k. split; [intros H; exists lo; split; [lia|exact H]|].
  intros (c & Hc & H). replace lo with c by lia. exact H.
Qed.
Lemma bits_step A r lo hi v : lo <= hi -> bits_of A r lo hi v ->
  bits_of A r lo (S hi) (N.lor v (nth (r + m_rows A * hi) (m_data A) 0%N)).
Proof.
  intros L H k. rewrite N.lor_spec, orb_true_iff. rewrite (H k). split.
  - intros [(c & Hc & E)|E]; [exists c; split; [lia|exact E]|exists hi; split; [lia|exact E]].
  - intros (c & Hc & E). destruct (Nat.eq_dec c hi) as [->|Hn]; [right; exact E|left; exists c; split; [lia|exact E]].
Qed.

Section O.
Context (A : mtx N).
Let rm := m_rows A.
Let C := m_cols A.
Context (Hdat : rm * C <= length (m_data A)) (Hrm : 0 < rm) (HC : 0 < C).

Lemma getN r c : r < rm -> c < C -> bget (m_data A) (col_ofs A c + r) = Some (nth (r + m_rows A * c) (m_data A) 0%N).
Proof.
  intros Hr Hc. unfold col_ofs, ldim. rewrite (Nat.add_comm r). apply nth_error_nth'. fold rm. nia.
Qed.

Definition okq (q : rcr) := rb q <= re q /\ re q <= rm /\ cb q < ce q /\ ce q <= C.
Definition done (p : nat) (q : rcr) (m' : list N) : Prop :=
  forall r, rb q <= r < re q -> exists v, bget m' (p + r) = Some v /\ bits_of A r (cb q) (ce q) v.

Lemma cpy_ok p q m : okq q -> ce q = S (cb q) -> p + rm <= length m ->
  runs (fun a => p + rb q <= a < p + re q) (cpy_rows A p q) m (done p q).
Proof.
  intros (H1 & H2 & H3 & H4) Hce Hm. unfold cpy_rows. eapply runs_conseq.
  - apply runs_mfor with (I := fun i m' => forall r, rb q <= r < rb q + i -> exists v, bget m' (p + r) = Some v /\ bits_of A r (cb q) (ce q) v).
    + intros r Hr. lia.
    + intros i m1 Hi Hl HI. replace (col_ofs A (cb q) + rb q + i) with (col_ofs A (cb q) + (rb q + i)) by lia.
      rewrite getN by lia. cbn [obind]. apply runs_mset; [lia|lia|]. intros m' Hl' Hv Ho r Hr.
      destruct (Nat.eq_dec r (rb q + i)) as [->|Hn].
      * eexists. split; [rewrite <- Hv; f_equal; lia|]. rewrite Hce. apply bits_one.
      * rewrite Ho by lia. apply HI. lia.
  - cbv beta. intros m' _ H r Hr. apply H. lia.
Qed.

Lemma copies_one q : okq q -> or_copies A q = true -> ce q = S (cb q).
Proof.
  intros (H1 & H2 & H3 & H4) H. unfold or_copies in H. apply orb_true_iff in H.
  destruct H as [H|H]; apply Nat.eqb_eq in H; fold C in H; lia.
Qed.

Lemma cw_ok' p q m : okq q -> p + rm <= length m ->
  runs (fun a => p + rb q <= a < p + re q) (or_st_cw A p q) m (done p q).
Proof.
  intros Hq Hm. unfold or_st_cw. destruct (or_copies A q) eqn:Ec; [apply cpy_ok; auto using copies_one|].
  destruct Hq as (H1 & H2 & H3 & H4).
  apply runs_seq with (mid := fun m' => forall r, rb q <= r < re q -> bget m' (p + r) = Some 0%N).
  - eapply runs_conseq.
    + apply runs_mfor with (I := fun i m' => forall r, rb q <= r < rb q + i -> bget m' (p + r) = Some 0%N).
      * intros r Hr. lia.
      * intros i m1 Hi Hl HI. apply runs_mset; [lia|lia|]. intros m' Hl' Hv Ho r Hr.
        destruct (Nat.eq_dec r (rb q + i)) as [->|Hn]; [rewrite <- Hv; f_equal; lia|]. rewrite Ho by lia. apply HI. lia.
    + cbv beta. intros m' _ H r Hr. apply H. lia.
  - intros m1 Hl1 Hmid. eapply runs_conseq.
    + apply runs_mfor with (I := fun c m' => forall r, rb q <= r < re q -> exists v, bget m' (p + r) = Some v /\ bits_of A r (cb q) c v).
      * intros r Hr. exists 0%N. split; [apply Hmid, Hr|apply bits_0].
      * intros c m2 Hc Hl2 HI. eapply runs_conseq.
        -- apply runs_mfor with (I := fun r0 m' => forall r, rb q <= r < re q ->
             exists v, bget m' (p + r) = Some v /\ bits_of A r (cb q) (if r <? r0 then S c else c) v).
           ++ intros r Hr. destruct (Nat.ltb_spec r (rb q)); [lia|]. apply HI, Hr.
           ++ intros r m3 Hr Hl3 HI3. rewrite getN by lia. cbn [obind].
              destruct (HI3 r ltac:(lia)) as (v & Ev & Hv). rewrite Nat.ltb_irrefl in Hv.
              apply runs_eq with (k' := mset (p + r) (N.lor v (nth (r + m_rows A * c) (m_data A) 0%N))).
              { rewrite Ev. reflexivity. }
              apply runs_mset; [lia|lia|]. intros m' _ Hb Ho r' Hr'. destruct (Nat.eq_dec r' r) as [->|Hn].
              ** eexists. split; [exact Hb|]. destruct (Nat.ltb_spec r (S r)); [|lia]. apply bits_step; [lia|exact Hv].
              ** rewrite Ho by lia. destruct (HI3 r' Hr') as (v' & E' & H'). exists v'. split; [exact E'|].
                 destruct (Nat.ltb_spec r' r), (Nat.ltb_spec r' (S r)); try lia; exact H'.
        -- cbv beta. intros m' _ H r Hr. destruct (H r Hr) as (v & E & Hv). exists v. split; [exact E|].
           destruct (Nat.ltb_spec r (rb q + (re q - rb q))); [exact Hv|lia].
    + cbv beta. intros m' _. replace (cb q + (ce q - cb q)) with (ce q) by lia. intros H. exact H.
Qed.

Lemma st_ok' p q m : okq q -> p + rm <= length m ->
  runs (fun a => p + rb q <= a < p + re q) (or_st A p q) m (done p q).
Proof.
  intros Hq Hm. unfold or_st. destruct (or_copies A q) eqn:Ec; [apply cpy_ok; auto using copies_one|apply cw_ok'; assumption].
Qed.

Lemma row_loop r lo : r < rm -> forall n hi v, lo <= hi -> hi + n <= C -> bits_of A r lo hi v ->
  exists v', for_loop hi n (fun c v => do x <- bget (m_data A) (col_ofs A c + r); Some (N.lor v x)) v = Some v' /\
    bits_of A r lo (hi + n) v'.
Proof.
  intros Hr. induction n as [|n IH]; intros hi v Hlo Hn Hv.
  - exists v. rewrite Nat.add_0_r. split; [reflexivity|exact Hv].
  - cbn [for_loop]. rewrite getN by lia. cbn [obind].
    destruct (IH (S hi) (N.lor v (nth (r + m_rows A * hi) (m_data A) 0%N))) as (v' & E & H'); [lia|lia|apply bits_step; assumption|].
    exists v'. split; [exact E|]. replace (hi + S n) with (S hi + n) by lia. exact H'.
Qed.

Lemma rw_ok' p q m : okq q -> p + rm <= length m ->
  runs (fun a => p + rb q <= a < p + re q) (or_st_rw A p q) m (done p q).
Proof.
  intros Hq Hm. unfold or_st_rw. destruct (or_copies A q) eqn:Ec; [apply cpy_ok; auto using copies_one|].
  destruct Hq as (H1 & H2 & H3 & H4). eapply runs_conseq.
  - apply runs_mfor with (I := fun r0 m' => forall r, rb q <= r < r0 -> exists v, bget m' (p + r) = Some v /\ bits_of A r (cb q) (ce q) v).
    + intros r Hr. lia.
    + intros r m1 Hr Hl HI. rewrite getN by lia. cbn [obind].
      destruct (row_loop r (cb q) ltac:(lia) (ce q - (cb q + 1)) (cb q + 1) (nth (r + m_rows A * cb q) (m_data A) 0%N)) as (v & E & Hv);
        [lia|lia|rewrite Nat.add_1_r; apply bits_one|].
      rewrite E. cbn [obind]. replace (cb q + 1 + (ce q - (cb q + 1))) with (ce q) in Hv by lia.
      apply runs_mset; [lia|lia|]. intros m' _ Hb Ho r' Hr'. destruct (Nat.eq_dec r' r) as [->|Hn].
      * exists v. split; [exact Hb|exact Hv].
      * rewrite Ho by lia. apply HI. lia.
  - cbv beta. intros m' _ H r Hr. apply H. lia.
Qed.

(** every row done, nothing else touched *)
Definition all_done (vec vec' : list N) : Prop :=
  (forall r, r < rm -> exists v, bget vec' r = Some v /\ bits_of A r 0 C v) /\
  forall a, rm <= a -> bget vec' a = bget vec a.

Lemma okq_all : okq (allN A).
Proof. unfold okq. cbn. fold rm C. lia. Qed.

Lemma one_ok k vec : rm <= length vec ->
  runs (fun a => 0 + rb (allN A) <= a < 0 + re (allN A)) (k A 0 (allN A)) vec (done 0 (allN A)) ->
  computes (do (_, w) <- k A 0 (allN A) vec; Some [w]) vec (all_done vec).
Proof.
  intros Hv H. eapply computes_one'. eapply runs_conseq; [exact H|].
  cbv beta. cbn. fold rm. intros m' _ Hd Hf. split.
  - intros r Hr. apply (Hd r). cbn. fold rm. lia.
  - intros a Ha. apply Hf. lia.
Qed.

Lemma mt_rw_ok pool vec : rm <= length vec -> or_mt_rw pool A vec (all_done vec).
Proof.
  intros Hv. unfold or_mt_rw. fold C. destruct (Nat.eqb_spec C 1) as [E|E].
  - apply one_ok; [exact Hv|]. apply cpy_ok; [apply okq_all|cbn; fold C; lia|lia].
  - fold rm. assert (HT : tiles (run_ranges pool 0 rm) rm) by (apply run_ranges_tiles; exact Hrm).
    eapply computes_ppar with (own := fun p a => 0 + r_ofs p <= a < 0 + (r_ofs p + r_cnt p)).
    + intros p Hp. apply (st_ok' 0 (rowsN A p) vec); [|exact Hv].
      pose proof (tiles_within _ _ _ HT Hp). unfold okq. cbn. fold C. lia.
    + intros i j p q a Hn Hi Hj H1 H2. eapply (tiles_nth_disjoint _ _ i j p q a); eauto; lia.
    + cbv beta. intros d' Hl Hown Hout. split.
      * intros r Hr. destruct (tiles_find _ _ r HT Hr) as (p & Hp & Hi).
        destruct (Hown p Hp) as (mp & _ & Hres & Hag). destruct (Hres r) as (v & E' & Hb); [cbn; lia|].
        exists v. split; [rewrite Hag by lia; exact E'|exact Hb].
      * intros a Ha. apply Hout. intros p Hp Hi. pose proof (tiles_within _ _ _ HT Hp). lia.
Qed.
End O.

Lemma mt_cw_ok A cpt pool tmp vec (post : list N -> Prop) :
  m_rows A * m_cols A <= length (m_data A) -> 0 < m_rows A -> pool_ok pool -> 0 < cpt -> cpt < m_cols A ->
  m_rows A * (length pool + 1) <= length tmp -> m_rows A <= length vec ->
  (forall vec', length vec' = length vec -> all_done A vec vec' -> post vec') ->
  or_mt_cw cpt pool A tmp vec post.
Proof.
  intros HD Hr HP Hcpt HC Htmp Hvec Hpost. unfold or_mt_cw. cbn zeta.
  set (rm := m_rows A) in *. set (C := m_cols A) in *.
  set (parts := run_ranges pool (Z.of_nat (howMuchThreads cpt C (length pool))) C).
  assert (HT : tiles parts C) by (apply run_ranges_tiles; lia).
  assert (HI : tids_ok parts) by (apply run_ranges_tids; exact HP).
  destruct (cw_parts_length cpt pool A Hcpt HC) as [HL1 HL2]. unfold cw_parts in HL1, HL2. fold C in HL1, HL2. fold parts in HL1, HL2.
  assert (HLW : length parts <= length pool + 1).
  { unfold howMuchThreads in HL2. destruct (_ <? _) eqn:El in HL2; [apply Nat.ltb_lt in El; lia|lia]. }
  assert (HmT : rm * length parts <= length tmp) by nia.
  eapply computes_ppar with (own := fun p a => rm * r_tid p + 0 <= a < rm * r_tid p + rm).
  - intros p Hp. destruct (part_of_unique parts p HI Hp) as [_ Hlt].
    refine (st_ok' A HD _ _ (rm * r_tid p) (colsN A p) tmp _ _); [exact Hr|fold C; lia| |fold rm; nia].
    pose proof (tiles_within _ _ _ HT Hp). destruct HT as [_ H0]. specialize (H0 p Hp). unfold okq. cbn. fold rm C. lia.
  - intros i j p q a Hn Hi Hj H1 H2.
    assert (Ip := nth_error_In _ _ Hi). assert (Iq := nth_error_In _ _ Hj).
    destruct (addr_inj rm (a - rm * r_tid p) (r_tid p) (a - rm * r_tid q) (r_tid q)) as [_ Et]; try lia.
    destruct (part_of_unique parts p HI Ip) as [Ep _]. destruct (part_of_unique parts q HI Iq) as [Eq _].
    assert (Epq : p = q) by (rewrite <- Ep, <- Eq, Et; reflexivity). subst q.
    assert (H0 : 0 < r_cnt p) by (destruct HT as [_ H0]; apply H0, Ip).
    eapply (tiles_nth_disjoint parts C i j p p (r_ofs p)); eauto; lia.
  - cbv beta. intros tmp' Hl Hown _.
    set (fin := mkM rm (length parts) false false tmp').
    assert (Hfin : m_rows fin * m_cols fin <= length (m_data fin)) by (cbn; lia).
    assert (HF : okq fin (allN fin)) by (unfold okq; cbn; lia).
    eapply computes_weaken; [|refine (one_ok fin Hfin Hr HL1 or_st vec _ _); [cbn; exact Hvec|apply st_ok'; [exact Hfin|exact Hr|exact HL1|exact HF|cbn; exact Hvec]]].
    intros vec' HLv [Hd Hf]. apply Hpost; [exact HLv|]. split; [|exact Hf].
    intros r Hr'. destruct (Hd r Hr') as (v & E & Hb). exists v. split; [exact E|].
    (* the cells of the temporary block *)
    assert (Hcell : forall t, t < length parts -> let p := part_of parts t in
      In p parts /\ bits_of A r (r_ofs p) (r_ofs p + r_cnt p) (nth (r + rm * t) tmp' 0%N)).
    { intros t Ht. cbn zeta. destruct (part_of_in parts t HI Ht) as [Hp Et]. set (p := part_of parts t) in *.
      split; [exact Hp|]. destruct (Hown p Hp) as (mp & _ & Hres & Hag). destruct (Hres r) as (w & Ew & Hw); [cbn; fold rm; lia|].
      cbn in Hw. rewrite <- (Hag (rm * r_tid p + r)) in Ew by lia. rewrite Et in Ew.
      replace (r + rm * t) with (rm * t + r) by lia. unfold bget in Ew. rewrite (nth_error_nth _ _ _ Ew). exact Hw. }
    intros k. rewrite (Hb k). cbn. split.
    + intros (t & Ht & Hbit). destruct (Hcell t ltac:(lia)) as [Hp Hw]. apply Hw in Hbit. destruct Hbit as (c & Hc & Ec).
      exists c. split; [|exact Ec]. pose proof (tiles_within _ _ _ HT Hp). lia.
    + intros (c & Hc & Ec). destruct (tiles_find _ _ c HT ltac:(lia)) as (p & Hp & Hi).
      destruct (part_of_unique parts p HI Hp) as [Ep Hlt]. exists (r_tid p). split; [lia|].
      destruct (Hcell (r_tid p) Hlt) as [_ Hw]. rewrite Ep in Hw. apply Hw. exists c. split; [lia|exact Ec].
Qed.

Lemma done_bits A vec vec' : length vec' = length vec -> m_rows A <= length vec -> all_done A vec vec' ->
  row_bits A vec' /\ forall a, m_rows A <= a -> nth a vec' 0%N = nth a vec 0%N.
Proof.
  intros HL Hv [Hd Hf]. split.
  - intros r k Hr. destruct (Hd r Hr) as (v & E & Hb). unfold bget in E. rewrite (nth_error_nth _ _ _ E).
    rewrite (Hb k). split; intros (c & Hc & H); exists c; (split; [lia|exact H]).
  - intros a Ha. specialize (Hf a Ha). unfold bget in Hf. rewrite <- !nth_default_eq. unfold nth_default. rewrite Hf. reflexivity.
Qed.

Lemma or_bits_ok v cpt pool A tmp vec :
  m_rows A * m_cols A <= length (m_data A) -> 0 < m_rows A -> 0 < m_cols A -> pool_ok pool -> 0 < cpt ->
  (v = OrMtCw -> cpt < m_cols A) ->
  m_rows A * (length pool + 1) <= length tmp -> m_rows A <= length vec ->
  mrwOr v cpt pool A tmp vec (fun vec' => length vec' = length vec /\ row_bits A vec' /\
    forall a, m_rows A <= a -> nth a vec' 0%N = nth a vec 0%N).
Proof.
  intros HD Hr HC HP Hcpt Hcw Htmp Hvec.
  assert (Hall : okq A (allN A)) by (unfold okq; cbn; lia).
  assert (W : forall call, computes call vec (all_done A vec) -> computes call vec (fun vec' => length vec' = length vec /\ row_bits A vec' /\
    forall a, m_rows A <= a -> nth a vec' 0%N = nth a vec 0%N)).
  { intros call H. eapply computes_weaken; [|exact H]. intros vec' HL Hd. split; [exact HL|]. apply done_bits; assumption. }
  assert (One : forall k, runs (fun a => 0 + rb (allN A) <= a < 0 + re (allN A)) (k A 0 (allN A)) vec (done A 0 (allN A)) ->
    computes (do (_, w) <- k A 0 (allN A) vec; Some [w]) vec (all_done A vec)).
  { intros k Hk. exact (one_ok A HD Hr HC k vec Hvec Hk). }
  assert (Hcpy : m_cols A = 1 -> runs (fun a => 0 + rb (allN A) <= a < 0 + re (allN A)) (cpy_rows A 0 (allN A)) vec (done A 0 (allN A))).
  { intros E. apply cpy_ok; try assumption; cbn; lia. }
  assert (Hrw : or_mt_rw pool A vec (fun vec' => length vec' = length vec /\ row_bits A vec' /\
    forall a, m_rows A <= a -> nth a vec' 0%N = nth a vec 0%N)).
  { pose proof (mt_rw_ok A HD Hr HC pool vec Hvec) as H. unfold or_mt_rw in *. destruct (m_cols A =? 1); apply W, H. }
  assert (Hcww : cpt < m_cols A -> or_mt_cw cpt pool A tmp vec (fun vec' => length vec' = length vec /\ row_bits A vec' /\
    forall a, m_rows A <= a -> nth a vec' 0%N = nth a vec 0%N)).
  { intros HCC. apply mt_cw_ok; try assumption. intros vec' HL Hd. split; [exact HL|]. apply done_bits; assumption. }
  unfold mrwOr. cbn zeta. destruct v.
  - apply W, One; apply cw_ok'; assumption.
  - apply W, One; apply st_ok'; assumption.
  - apply W, One; apply cw_ok'; assumption.
  - apply W, One; apply rw_ok'; assumption.
  - destruct (Nat.eqb_spec (m_cols A) 1) as [E|E]; [apply W, One; apply Hcpy, E|].
    destruct (Nat.leb_spec (m_cols A) (Nat.max cpt (length pool + 1))) as [L|L]; [exact Hrw|apply Hcww; lia].
  - apply Hcww, Hcw. reflexivity.
  - exact Hrw.
Qed.

Lemma bits_binary one A vec' : binary one A -> row_bits A vec' -> forall r, r < m_rows A ->
  (nth r vec' 0%N = one /\ exists c, c < m_cols A /\ nth (r + m_rows A * c) (m_data A) 0%N = one) \/
  (nth r vec' 0%N = 0%N /\ forall c, c < m_cols A -> nth (r + m_rows A * c) (m_data A) 0%N = 0%N).
Proof.
  intros [H1 Hb] HR r Hr.
  assert (D : (exists c, c < m_cols A /\ nth (r + m_rows A * c) (m_data A) 0%N = one) \/
    forall c, c < m_cols A -> nth (r + m_rows A * c) (m_data A) 0%N = 0%N).
  { assert (G : forall n, n <= m_cols A -> (exists c, c < n /\ nth (r + m_rows A * c) (m_data A) 0%N = one) \/
      forall c, c < n -> nth (r + m_rows A * c) (m_data A) 0%N = 0%N).
    { induction n as [|n IH]; intros Hn; [right; intros c Hc; lia|].
      destruct IH as [(c & Hc & E)|E]; [lia|left; exists c; split; [lia|exact E]|].
      destruct (Hb r n Hr ltac:(lia)) as [Z|Z].
      - right. intros c Hc. destruct (Nat.eq_dec c n) as [->|]; [exact Z|apply E; lia].
      - left. exists n. split; [lia|exact Z]. }
    apply G. lia. }
  destruct D as [(c & Hc & E)|E].
  - left. split; [|exists c; split; assumption]. apply N.bits_inj. intros k. apply eq_true_iff_eq. rewrite (HR r k Hr). split.
    + intros (c' & Hc' & Eb). destruct (Hb r c' Hr Hc') as [Z|Z]; rewrite Z in Eb; [rewrite N.bits_0 in Eb; discriminate|exact Eb].
    + intros Eb. exists c. split; [exact Hc|]. rewrite E. exact Eb.
  - right. split; [|exact E]. apply N.bits_inj. intros k. rewrite N.bits_0. apply not_true_is_false.
    rewrite (HR r k Hr). intros (c & Hc & Eb). rewrite (E c Hc), N.bits_0 in Eb. discriminate.
Qed.

Lemma mrwOr_weaken v cpt pool A tmp vec (P Q : list N -> Prop) : (forall x, P x -> Q x) ->
  mrwOr v cpt pool A tmp vec P -> mrwOr v cpt pool A tmp vec Q.
Proof.
  intros H.
  assert (W : forall call, computes call vec P -> computes call vec Q).
  { intros call Hc. eapply computes_weaken; [|exact Hc]. intros x _. apply H. }
  assert (R1 : or_mt_rw pool A vec P -> or_mt_rw pool A vec Q) by (unfold or_mt_rw; destruct (m_cols A =? 1); apply W).
  assert (R2 : or_mt_cw cpt pool A tmp vec P -> or_mt_cw cpt pool A tmp vec Q).
  { unfold or_mt_cw. cbn zeta. intros Hc. eapply computes_weaken; [|exact Hc]. intros t _. cbv beta. apply W. }
  unfold mrwOr. cbn zeta. destruct v; try apply W; auto.
  destruct (m_cols A =? 1); [apply W|]. destruct (m_cols A <=? _); auto.
Qed.

Lemma or_binary_ok v cpt pool one A tmp vec : binary one A ->
  m_rows A * m_cols A <= length (m_data A) -> 0 < m_rows A -> 0 < m_cols A -> pool_ok pool -> 0 < cpt ->
  (v = OrMtCw -> cpt < m_cols A) ->
  m_rows A * (length pool + 1) <= length tmp -> m_rows A <= length vec ->
  mrwOr v cpt pool A tmp vec (fun vec' => length vec' = length vec /\ row_has_one one A vec vec').
Proof.
  intros HB HD Hr HC HP Hcpt Hcw Ht Hv. eapply mrwOr_weaken; [|apply or_bits_ok; assumption].
  intros vec' (HL & Hb & Hf). split; [exact HL|]. split; [apply bits_binary; assumption|exact Hf].
Qed.
