From Coq Require Import Reals Lra Lia Permutation.
From Verif Require Import Base BaseLemmas Workers_Model Workers_Spec Kern_Model Kern_Spec Kern_Proofs
  IdxMax_Model IdxMax_Spec IdxMax_Proofs Priv_Model Priv_Proofs Act_Spec Loss_Proofs Sfm_Model Sfm_Spec Sfm_Proofs
  Norm_Model Norm_Spec.

Section S.
Context (A : mtx R).
Let rm := m_rows A.
Let C := m_cols A.
Context (Hdat : rm * C <= length (m_data A)) (Hrm : 0 < rm) (HC : 0 < C).
Let z := elt rm (m_data A).
Let sq (r c : nat) : R := (z r c * z r c)%R.

(** ** Row norms *)
Lemma l2_st_ok pN q m : cb q < ce q -> ce q <= C -> pN + rm <= length m ->
  runs (fun a => pN <= a < pN + rm) (l2_st A pN q) m (fun m' =>
    forall r, r < rm -> bget m' (pN + r) = Some (sumR (map (sq r) (seq (cb q) (ce q - cb q))))).
Proof.
  intros Hq3 Hq4 Hm. unfold l2_st. fold rm.
  apply runs_seq with (mid := fun m' => forall r, r < rm -> bget m' (pN + r) = Some 0%R).
  - eapply runs_conseq.
    + apply runs_mfor with (I := fun i m' => forall r, r < i -> bget m' (pN + r) = Some 0%R).
      * intros; lia.
      * intros i m1 Hi Hl HI. apply runs_mset; [lia|lia|]. intros m' _ Hv Ho r Hr.
        destruct (Nat.eq_dec r i) as [->|Hn]; [exact Hv|]. rewrite Ho by lia. apply HI. lia.
    + cbv beta. intros m' _ H r Hr. apply H. lia.
  - intros m1 Hl1 HZ. eapply runs_conseq.
    + apply runs_mfor with (I := fun c m' => forall r, r < rm -> bget m' (pN + r) = Some (sumR (map (sq r) (seq (cb q) (c - cb q))))).
      * intros r Hr. rewrite Nat.sub_diag. apply HZ. exact Hr.
      * intros c m2 Hc Hl2 HI. eapply runs_conseq.
        -- apply runs_mfor with (I := fun r0 m' => forall r, r < rm -> bget m' (pN + r) =
             Some (sumR (map (sq r) (seq (cb q) ((if r <? r0 then S c else c) - cb q))))).
           ++ intros r Hr. cbn. apply HI. exact Hr.
           ++ intros r m3 Hr Hl3 HJ.
              assert (HJ' := HJ r ltac:(lia)). rewrite Nat.ltb_irrefl in HJ'.
              set (s := sumR (map (sq r) (seq (cb q) (c - cb q)))) in HJ'.
              apply runs_eq with (k' := mset (pN + r) (s + sq r c)%R).
              { pose proof (get_z A Hdat Hrm HC r c ltac:(lia) ltac:(lia)) as Hg. rewrite Hg. cbn [obind]. rewrite HJ'. reflexivity. }
              apply runs_mset; [lia|lia|]. intros m4 _ Hv Ho r' Hr'.
              destruct (Nat.eq_dec r' r) as [->|Hn].
              ** rewrite Hv. destruct (Nat.ltb_spec r (S r)); [|lia]. f_equal.
                 replace (S c - cb q) with (S (c - cb q)) by lia. rewrite sumR_snoc.
                 replace (cb q + (c - cb q)) with c by lia. reflexivity.
              ** rewrite Ho by lia. rewrite (HJ r' Hr').
                 destruct (Nat.ltb_spec r' r), (Nat.ltb_spec r' (S r)); try lia; reflexivity.
        -- cbv beta. intros m' _ H r Hr. rewrite (H r Hr). destruct (Nat.ltb_spec r (0 + rm)); [reflexivity|lia].
    + cbv beta. intros m' _ H r Hr. rewrite (H r Hr). replace (cb q + (ce q - cb q)) with (ce q) by lia. reflexivity.
Qed.

Lemma l2_ok t pool mt m (post : list R -> Prop) : pool_ok pool -> 0 < n_l2_cpt t ->
  rm <= length m -> (mt = true -> rm * (length pool + 1) <= length m) ->
  (forall m', length m' = length m -> (forall r, r < rm -> bget m' r = Some (sumR (map (sq r) (seq 0 C)))) -> post m') ->
  l2norm2 t pool mt A 0 m post.
Proof.
  intros HP Hcpt Hm1 Hm2 Hpost. unfold l2norm2.
  destruct (negb mt || _ || _)%bool eqn:Eb.
  - eapply computes_one' with (own := fun a => 0 <= a < 0 + rm).
    eapply runs_conseq; [apply (l2_st_ok 0 (all_rc A) m); cbn; fold rm C; lia|].
    cbv beta. cbn [cb ce all_rc]. fold C. intros m' Hl H _. apply Hpost; [exact Hl|]. intros r Hr.
    rewrite Nat.sub_0_r in H. apply (H r Hr).
  - apply Bool.orb_false_iff in Eb. destruct Eb as [Eb _]. apply Bool.orb_false_iff in Eb. destruct Eb as [Emt Eb].
    apply Nat.leb_gt in Eb. destruct mt; [|discriminate]. specialize (Hm2 eq_refl). cbv zeta.
    set (parts := cw_parts (n_l2_cpt t) pool A).
    assert (HT : tiles parts C) by (apply run_ranges_tiles; exact HC).
    assert (HI : tids_ok parts) by (apply run_ranges_tids; exact HP).
    destruct (cw_parts_length (n_l2_cpt t) pool A Hcpt Eb) as [HL1 HL2]. fold parts in HL1, HL2.
    assert (HLW : length parts <= length pool + 1).
    { unfold howMuchThreads in HL2. destruct (_ <? _) eqn:El in HL2; [apply Nat.ltb_lt in El; lia|lia]. }
    assert (HmT : rm * length parts <= length m) by nia.
    assert (HpB : forall p, In p parts -> 0 + rm * r_tid p + rm <= length m).
    { intros p Hp. destruct (part_of_unique parts p HI Hp) as [_ Hlt]. nia. }
    eapply computes_ppar with (own := fun p a => 0 + rm * r_tid p <= a < 0 + rm * r_tid p + rm).
    + intros p Hp. assert (B := tiles_within _ _ _ HT Hp). pose proof (proj2 HT p Hp).
      apply (l2_st_ok (0 + rm * r_tid p) (cols_rc A p) m); cbn [cb ce cols_rc]; [lia|lia|apply HpB; exact Hp].
    + intros i j p q a Hn Hi Hj H1 H2.
      assert (Ip := nth_error_In _ _ Hi). assert (Iq := nth_error_In _ _ Hj).
      destruct (addr_inj rm (a - rm * r_tid p) (r_tid p) (a - rm * r_tid q) (r_tid q)) as [_ Et]; try lia.
      destruct (part_of_unique parts p HI Ip) as [Ep _]. destruct (part_of_unique parts q HI Iq) as [Eq _].
      assert (Epq : p = q) by (rewrite <- Ep, <- Eq, Et; reflexivity). subst q.
      assert (HT0 := proj2 HT p Ip). eapply (tiles_nth_disjoint parts C i j p p (r_ofs p)); eauto; lia.
    + cbv beta. intros m1 Hl1 Hown _.
      eapply computes_one' with (own := fun a => 0 <= a < 0 + rm). eapply runs_conseq; [apply (sum_ip_ok A Hdat Hrm HC); [exact HL1|fold rm; lia]|].
      cbv beta. fold rm. intros m2 Hl2 Hs _. apply Hpost; [congruence|]. intros r Hr.
      set (g := fun t0 => let p := part_of parts t0 in sumR (map (sq r) (idxs p))).
      change r with (0 + r) at 1. rewrite (Hs r g Hr).
      * f_equal. transitivity (sumR (map g (map r_tid parts))).
        { apply sumR_perm. apply Permutation_map. apply Permutation_sym. exact HI. }
        rewrite map_map. transitivity (sumR (map (fun er => sumR (map (sq r) (idxs er))) parts)).
        { f_equal. apply map_ext_in. intros p Hp. unfold g. destruct (part_of_unique parts p HI Hp) as [-> _]. reflexivity. }
        rewrite sum_parts. apply sumR_perm. apply Permutation_map. destruct HT as [HT' _]. exact HT'.
      * intros t0 Ht0. destruct (part_of_in parts t0 HI Ht0) as [Hp Et]. unfold g. set (p := part_of parts t0) in *.
        destruct (Hown p Hp) as (mp & _ & Hres & Hag). cbn [cb ce cols_rc] in Hres. rewrite <- Et.
        rewrite Hag by lia. rewrite Hres by lia.
        unfold idxs. replace (r_ofs p + r_cnt p - r_ofs p) with (r_cnt p) by lia. reflexivity.
Qed.

(** ** Multiplication by the factors *)
Definition own3 (q : rcr) (a : nat) : Prop := exists c r, cb q <= c < ce q /\ rb q <= r < re q /\ a = rm * c + r.
Definition mul_post (q : rcr) (x : nat -> nat -> R) (v : nat -> R) (d' : list R) : Prop :=
  forall r c, rb q <= r < re q -> cb q <= c < ce q -> bget d' (rm * c + r) = Some (x r c * v r)%R.

Lemma mul_st_ok t q m pMul v d x : ok_rc A q -> rm * C <= length d ->
  (forall r, r < rm -> bget m (pMul + r) = Some (v r)) ->
  (forall r c, r < rm -> c < C -> bget d (rm * c + r) = Some (x r c)) ->
  runs (own3 q) (mul_st t A m pMul q) d (mul_post q x v).
Proof.
  intros (Hq1 & Hq2 & Hq3 & Hq4) Hd Hv Hx.
  assert (Haddr : forall r c, r < rm -> c < C -> rm * c + r < rm * C) by (intros; apply (addr_lt A); assumption).
  (* one element *)
  assert (Hstep : forall (done done' : nat -> nat -> bool) r c (d1 : list R) k,
    rb q <= r < re q -> cb q <= c < ce q -> length d1 = length d ->
    (forall r' c', rb q <= r' < re q -> cb q <= c' < ce q -> bget d1 (rm * c' + r') = Some (if done r' c' then x r' c' * v r' else x r' c')%R) ->
    done r c = false ->
    (forall r' c', rb q <= r' < re q -> cb q <= c' < ce q -> done' r' c' = (done r' c' || ((r' =? r) && (c' =? c)))%bool) ->
    k d1 = mset (rm * c + r) (x r c * v r)%R d1 ->
    runs (own3 q) k d1 (fun d2 =>
      forall r' c', rb q <= r' < re q -> cb q <= c' < ce q -> bget d2 (rm * c' + r') = Some (if done' r' c' then x r' c' * v r' else x r' c')%R)).
  { intros dn dn' r c d1 k Hr Hc Hl HI Hn Hdn Hk. eapply runs_eq; [exact Hk|].
    pose proof (Haddr r c ltac:(lia) ltac:(lia)). apply runs_mset; [lia|exists c, r; lia|].
    intros d2 _ Hv2 Ho2 r' c' Hr' Hc'. rewrite Hdn by assumption.
    destruct (Nat.eq_dec (rm * c' + r') (rm * c + r)) as [E|E].
    - destruct (addr_inj rm r' c' r c) as [-> ->]; try lia. rewrite Hv2, !Nat.eqb_refl, Bool.orb_true_r. reflexivity.
    - rewrite Ho2 by exact E. rewrite (HI r' c' Hr' Hc').
      replace ((r' =? r) && (c' =? c))%bool with false; [rewrite Bool.orb_false_r; reflexivity|].
      destruct (Nat.eqb_spec r' r) as [->|]; [|reflexivity]. destruct (Nat.eqb_spec c' c) as [->|]; [exfalso; apply E; reflexivity|reflexivity]. }
  assert (Hend : forall (done : nat -> nat -> bool) (d1 : list R),
    (forall r' c', rb q <= r' < re q -> cb q <= c' < ce q -> bget d1 (rm * c' + r') = Some (if done r' c' then x r' c' * v r' else x r' c')%R) ->
    (forall r' c', rb q <= r' < re q -> cb q <= c' < ce q -> done r' c' = true) -> mul_post q x v d1).
  { intros dn d1 H1 H2 r' c' Hr' Hc'. rewrite (H1 r' c' Hr' Hc'), (H2 r' c' Hr' Hc'). reflexivity. }
  assert (Hstart : forall r' c', rb q <= r' < re q -> cb q <= c' < ce q -> bget d (rm * c' + r') = Some (x r' c'))
    by (intros; apply Hx; lia).
  unfold mul_st. destruct (_ <? _).
  - unfold mul_st_cw. eapply runs_conseq.
    + apply runs_mfor with (I := fun c0 d' => forall r' c', rb q <= r' < re q -> cb q <= c' < ce q ->
        bget d' (rm * c' + r') = Some (if (c' <? c0) then x r' c' * v r' else x r' c')%R).
      * intros r' c' Hr' Hc'. destruct (Nat.ltb_spec c' (cb q)); [lia|]. auto.
      * intros c d1 Hc Hl HI. eapply runs_conseq.
        -- apply runs_mfor with (I := fun r0 d' => forall r' c', rb q <= r' < re q -> cb q <= c' < ce q ->
             bget d' (rm * c' + r') = Some (if ((c' <? c) || ((c' =? c) && (r' <? r0))) then x r' c' * v r' else x r' c')%R).
           ++ intros r' c' Hr' Hc'. rewrite HI by assumption. destruct (Nat.ltb_spec r' (rb q)); [lia|].
              rewrite Bool.andb_false_r, Bool.orb_false_r. reflexivity.
           ++ intros r d2 Hr Hl2 HI2. eapply (Hstep (fun r' c' => ((c' <? c) || ((c' =? c) && (r' <? r)))%bool) _ r c d2); [lia|lia|congruence|exact HI2| | |].
              ** cbv beta. rewrite !Nat.ltb_irrefl, Bool.andb_false_r. reflexivity.
              ** intros r' c' _ _. cbv beta. destruct (Nat.ltb_spec r' r), (Nat.eqb_spec r' r), (Nat.ltb_spec c' c), (Nat.ltb_spec r' (S r)), (Nat.eqb_spec c' c); cbn; try reflexivity; lia.
              ** unfold col_ofs, ldim. fold rm. rewrite HI2 by lia. rewrite !Nat.ltb_irrefl, Bool.andb_false_r. cbn [orb obind].
                 rewrite Hv by lia. reflexivity.
        -- cbv beta. intros d' _ H r' c' Hr' Hc'. rewrite H by assumption.
           destruct (Nat.ltb_spec c' c), (Nat.ltb_spec c' (S c)), (Nat.eqb_spec c' c), (Nat.ltb_spec r' (rb q + (re q - rb q))); cbn; try reflexivity; lia.
    + cbv beta. intros d' _ H. apply (Hend _ _ H). intros r' c' Hr' Hc'. apply Nat.ltb_lt. lia.
  - unfold mul_st_rw. eapply runs_conseq.
    + apply runs_mfor with (I := fun r0 d' => forall r' c', rb q <= r' < re q -> cb q <= c' < ce q ->
        bget d' (rm * c' + r') = Some (if (r' <? r0) then x r' c' * v r' else x r' c')%R).
      * intros r' c' Hr' Hc'. destruct (Nat.ltb_spec r' (rb q)); [lia|]. auto.
      * intros r d1 Hr Hl HI. rewrite Hv by lia. cbn [obind]. eapply runs_conseq.
        -- apply runs_mfor with (I := fun c0 d' => forall r' c', rb q <= r' < re q -> cb q <= c' < ce q ->
             bget d' (rm * c' + r') = Some (if ((r' <? r) || ((r' =? r) && (c' <? c0))) then x r' c' * v r' else x r' c')%R).
           ++ intros r' c' Hr' Hc'. rewrite HI by assumption. destruct (Nat.ltb_spec c' (cb q)); [lia|].
              rewrite Bool.andb_false_r, Bool.orb_false_r. reflexivity.
           ++ intros c d2 Hc Hl2 HI2. eapply (Hstep (fun r' c' => ((r' <? r) || ((r' =? r) && (c' <? c)))%bool) _ r c d2); [lia|lia|congruence|exact HI2| | |].
              ** cbv beta. rewrite !Nat.ltb_irrefl, Bool.andb_false_r. reflexivity.
              ** intros r' c' _ _. cbv beta. destruct (Nat.ltb_spec r' r), (Nat.eqb_spec r' r), (Nat.ltb_spec c' c), (Nat.ltb_spec c' (S c)), (Nat.eqb_spec c' c); cbn; try reflexivity; lia.
              ** unfold col_ofs, ldim. fold rm. rewrite HI2 by lia. rewrite !Nat.ltb_irrefl, Bool.andb_false_r. reflexivity.
        -- cbv beta. intros d' _ H r' c' Hr' Hc'. rewrite H by assumption.
           destruct (Nat.ltb_spec r' r), (Nat.ltb_spec r' (S r)), (Nat.eqb_spec r' r), (Nat.ltb_spec c' (cb q + (ce q - cb q))); cbn; try reflexivity; lia.
    + cbv beta. intros d' _ H. apply (Hend _ _ H). intros r' c' Hr' Hc'. apply Nat.ltb_lt. lia.
Qed.

Lemma mulvec_ok t pool mt m pMul v d x : rm * C <= length d ->
  (forall r, r < rm -> bget m (pMul + r) = Some (v r)) ->
  (forall r c, r < rm -> c < C -> bget d (rm * c + r) = Some (x r c)) ->
  computes (mrwMulByVec t pool mt A m pMul d) d (fun d' =>
    (forall r c, r < rm -> c < C -> bget d' (rm * c + r) = Some (x r c * v r)%R) /\
    (forall a, rm * C <= a -> bget d' a = bget d a)).
Proof.
  intros Hd Hv Hx. unfold mrwMulByVec.
  assert (Haddr : forall r c, r < rm -> c < C -> rm * c + r < rm * C) by (intros; apply (addr_lt A); assumption).
  assert (Hno : forall q a, ok_rc A q -> rm * C <= a -> ~ own3 q a).
  { intros q a (H1 & H2 & H3 & H4) Ha (c & r & Hc & Hr & ->). pose proof (Haddr r c ltac:(lia) ltac:(lia)). lia. }
  destruct (negb mt || _)%bool; [|destruct (_ <? n_mul_mt_rows t)].
  - eapply computes_one'. eapply runs_conseq; [apply mul_st_ok; eauto; apply (ok_all A Hdat Hrm HC)|].
    intros d' _ H Hfr. split.
    + intros r c Hr Hc. apply H; cbn; fold rm C; lia.
    + intros a Ha. apply Hfr. apply Hno; [apply (ok_all A Hdat Hrm HC)|exact Ha].
  - assert (HT : tiles (run_ranges pool 0 C) C) by (apply run_ranges_tiles; exact HC).
    eapply computes_ppar with (own := fun p a => own3 (cols_rc A p) a).
    + intros p Hp. apply mul_st_ok with (v := v) (x := x); auto. eapply (ok_cols A); eauto.
    + intros i j p q a Hn Hi Hj (c1 & r1 & Hc1 & Hr1 & E1) (c2 & r2 & Hc2 & Hr2 & E2). cbn in Hc1, Hr1, Hc2, Hr2. fold rm in Hr1, Hr2.
      destruct (addr_inj rm r1 c1 r2 c2) as [-> ->]; try lia. eapply (tiles_nth_disjoint _ _ i j p q c2); eauto.
    + cbv beta. intros d' _ Hown Hfr. split.
      * intros r c Hr Hc. destruct (tiles_find _ _ c HT Hc) as (p & Hp & Hi).
        destruct (Hown p Hp) as (mp & _ & Hres & Hag). rewrite Hag by (exists c, r; cbn; fold rm; lia).
        apply Hres; cbn; fold rm; lia.
      * intros a Ha. apply Hfr. intros p Hp. apply Hno; [eapply (ok_cols A); eauto|exact Ha].
  - assert (HT : tiles (run_ranges pool 0 rm) rm) by (apply run_ranges_tiles; exact Hrm).
    eapply computes_ppar with (own := fun p a => own3 (rows_rc A p) a).
    + intros p Hp. apply mul_st_ok with (v := v) (x := x); auto. eapply (ok_rows A); eauto.
    + intros i j p q a Hn Hi Hj (c1 & r1 & Hc1 & Hr1 & E1) (c2 & r2 & Hc2 & Hr2 & E2). cbn in Hc1, Hr1, Hc2, Hr2.
      assert (Bp := tiles_within _ _ _ HT (nth_error_In _ _ Hi)). assert (Bq := tiles_within _ _ _ HT (nth_error_In _ _ Hj)).
      destruct (addr_inj rm r1 c1 r2 c2) as [-> ->]; try lia. eapply (tiles_nth_disjoint _ _ i j p q r2); eauto.
    + cbv beta. intros d' _ Hown Hfr. split.
      * intros r c Hr Hc. destruct (tiles_find _ _ r HT Hr) as (p & Hp & Hi).
        destruct (Hown p Hp) as (mp & _ & Hres & Hag). rewrite Hag by (exists c, r; cbn; fold C; lia).
        apply Hres; cbn; fold C; lia.
      * intros a Ha. apply Hfr. intros p Hp. apply Hno; [eapply (ok_rows A); eauto|exact Ha].
Qed.
End S.

(** ** Factors *)
Definition factor (always : bool) (maxn n : R) : R :=
  if (if always then true else if Rlt_dec maxn n then true else false) then sqrt (maxn / n) else 1%R.

Lemma factors_ok always maxn rows m (n : nat -> R) : rows <= length m -> (0 < maxn)%R ->
  (forall r, r < rows -> bget m r = Some (n r)) -> (forall r, r < rows -> (0 <= n r)%R) ->
  (always = true -> forall r, r < rows -> n r <> 0%R) ->
  runs (fun a => a < rows) (factors always maxn rows) m (fun m' =>
    forall r, r < rows -> bget m' r = Some (factor always maxn (n r))).
Proof.
  intros Hm Hmax Hn Hpos Hnz. unfold factors. eapply runs_conseq.
  - apply runs_mfor with (I := fun i m' => (forall r, r < i -> bget m' r = Some (factor always maxn (n r))) /\
      (forall r, i <= r < rows -> bget m' r = Some (n r))).
    + split; [intros; lia|]. intros r Hr. apply Hn. lia.
    + intros r m1 Hr Hl [I1 I2].
      apply runs_eq with (k' := mset r (factor always maxn (n r))).
      { rewrite I2 by lia. cbn [obind]. unfold factor. specialize (Hpos r ltac:(lia)).
        assert (Hd : (n r <> 0)%R -> (do q <- rdiv maxn (n r); do f <- rsqrt q; mset r f m1) = mset r (sqrt (maxn / n r)) m1).
        { intros Hne. unfold rdiv. destruct (Req_EM_T (n r) 0); [contradiction|]. cbn [obind]. unfold rsqrt.
          destruct (Rlt_dec (maxn / n r) 0) as [L|L]; [|reflexivity]. exfalso.
          assert (0 < maxn / n r)%R by (apply Rdiv_lt_0_compat; lra). lra. }
        destruct always.
        - apply Hd. apply Hnz; [reflexivity|lia].
        - destruct (Rlt_dec maxn (n r)); [apply Hd; lra|reflexivity]. }
      apply runs_mset; [lia|lia|]. intros m' _ Hv Ho. split.
      * intros r' Hr'. destruct (Nat.eq_dec r' r) as [->|]; [exact Hv|]. rewrite Ho by assumption. apply I1. lia.
      * intros r' Hr'. rewrite Ho by lia. apply I2. lia.
  - cbv beta. intros m' _ [H _] r Hr. apply H. lia.
Qed.

Lemma sumR_sq_pos (f : nat -> R) n : (0 <= sumR (map (fun c => f c ^ 2)%R (seq 0 n)))%R.
Proof.
  induction n as [|n IH]; [unfold sumR; cbn; lra|]. rewrite sumR_snoc. pose proof (pow2_ge_0 (f (0 + n))). lra.
Qed.

Lemma row_norm_ext rows cols d r : sumR (map (fun c => (elt rows d r c * elt rows d r c)%R) (seq 0 cols)) = row_norm2 rows cols d r.
Proof. unfold row_norm2. f_equal. apply map_ext. intros c. ring. Qed.

(** Every row is multiplied by its factor. *)
Definition rows_scaled (always : bool) (A : mtx R) (maxn : R) (incl : bool) (d' : list R) : Prop :=
  length d' = length (m_data A) /\
    forall r c, r < m_rows A -> c < m_cols A ->
      elt (m_rows A) d' r c = (elt (m_rows A) (m_data A) r c *
        factor always maxn (row_norm2 (m_rows A) (counted A incl) (m_data A) r))%R.

Theorem norm_rows_ok always t pool A maxn incl m (post : list R -> Prop) : norm_ready t pool A maxn incl m ->
  (always = true -> forall r, r < m_rows A -> row_norm2 (m_rows A) (counted A incl) (m_data A) r <> 0%R) ->
  (forall d', rows_scaled always A maxn incl d' -> post d') ->
  norm_rows always t pool A maxn incl m post.
Proof.
  intros (H1 & H2 & H3 & H4 & H5 & H6 & H7) Hnz Hpost. unfold norm_rows. cbv zeta.
  set (H := if incl then A else hide_last A).
  assert (Hr : m_rows H = m_rows A) by (unfold H; destruct incl; reflexivity).
  assert (Hc : m_cols H = counted A incl) by (unfold H, counted; destruct incl; reflexivity).
  assert (Hd : m_data H = m_data A) by (unfold H; destruct incl; reflexivity).
  assert (Hcc : counted A incl <= m_cols A) by (unfold counted; destruct incl; lia).
  assert (Hm : m_rows A <= length m).
  { rewrite H7. unfold norm_mem. destruct (_ <? _); nia. }
  apply l2_ok; try assumption.
  - rewrite Hr, Hc, Hd, <- H3. nia.
  - lia.
  - lia.
  - rewrite Hr. exact Hm.
  - intros E. rewrite Hr, H7. unfold norm_mem. destruct (_ <? _); [discriminate|lia].
  - rewrite Hr, Hc, Hd. intros m1 Hl1 HN.
    eapply computes_one' with (own := fun a => a < m_rows A).
    eapply runs_conseq; [apply factors_ok with (n := fun r => row_norm2 (m_rows A) (counted A incl) (m_data A) r)|].
    + lia.
    + exact H4.
    + intros r Hrr. rewrite (HN r Hrr). f_equal. apply row_norm_ext.
    + intros r Hrr. apply sumR_sq_pos.
    + exact Hnz.
    + cbv beta. intros m2 Hl2 HF _.
      assert (Hdat : m_rows A * m_cols A <= length (m_data A)) by lia.
      assert (HC : 0 < m_cols A) by lia.
      assert (HX := mulvec_ok A Hdat H1 HC t pool (negb (numel A <? n_chk t)) m2 0
        (fun r => factor always maxn (row_norm2 (m_rows A) (counted A incl) (m_data A) r)) (m_data A)
        (elt (m_rows A) (m_data A)) Hdat HF).
      destruct HX as (trs & E & Hrf & Hall).
      { intros r c Hrr Hcc'. apply bget_nth. pose proof (addr_lt A Hdat H1 HC r c Hrr Hcc'). lia. }
      exists trs. split; [exact E|]. split; [exact Hrf|]. intros ws Hws. destruct (Hall ws Hws) as (d' & Ed & Hl & HP & _).
      exists d'. split; [exact Ed|]. split; [exact Hl|]. apply Hpost. split; [exact Hl|]. intros r c Hrr Hcc'.
      specialize (HP r c Hrr Hcc'). unfold elt at 1. apply nth_error_nth. exact HP.
Qed.

Lemma row_norm_scaled rows cols d d' r k : (forall c, c < cols -> elt rows d' r c = (elt rows d r c * k)%R) ->
  row_norm2 rows cols d' r = (k ^ 2 * row_norm2 rows cols d r)%R.
Proof.
  unfold row_norm2. induction cols as [|n IH]; intros H; [unfold sumR; cbn; ring|].
  rewrite !sumR_snoc. cbn [Nat.add]. rewrite IH, (H n) by (try intros; try apply H; lia). ring.
Qed.

Lemma factor_sq maxn n : (0 < maxn)%R -> (0 < n)%R -> (sqrt (maxn / n) ^ 2 * n = maxn)%R.
Proof.
  intros Hm Hn. rewrite <- Rsqr_pow2. rewrite Rsqr_sqrt; [field; lra|]. apply Rlt_le, Rdiv_lt_0_compat; assumption.
Qed.

Theorem max_norm_ok t pool A maxn incl m : norm_ready t pool A maxn incl m ->
  mCheck_normalize_rows t pool A maxn incl m (fun d' => length d' = length (m_data A) /\
    forall r, r < m_rows A -> let n := row_norm2 (m_rows A) (counted A incl) in
      (n d' r <= maxn)%R /\
      ((maxn < n (m_data A) r)%R -> n d' r = maxn /\
        exists k, (0 < k < 1)%R /\ forall c, c < m_cols A -> elt (m_rows A) d' r c = (k * elt (m_rows A) (m_data A) r c)%R) /\
      ((n (m_data A) r <= maxn)%R -> forall c, c < m_cols A -> elt (m_rows A) d' r c = elt (m_rows A) (m_data A) r c)).
Proof.
  intros HR. pose proof HR as HR'. destruct HR' as (H1 & H2 & H3 & H4 & H5 & H6 & H7).
  assert (Hcc : counted A incl <= m_cols A) by (unfold counted; destruct incl; lia).
  unfold mCheck_normalize_rows. apply norm_rows_ok; [exact HR|discriminate|].
  intros d' [Hl He]. split; [exact Hl|]. intros r Hr. cbv zeta. set (n := row_norm2 (m_rows A) (counted A incl) (m_data A) r) in *.
    assert (Hk : forall c, c < m_cols A -> elt (m_rows A) d' r c = (elt (m_rows A) (m_data A) r c * factor false maxn n)%R)
      by (intros c Hc; apply He; assumption).
    assert (Hs := row_norm_scaled (m_rows A) (counted A incl) (m_data A) d' r (factor false maxn n) ltac:(intros c Hc; apply Hk; lia)).
    fold n in Hs. unfold factor in Hk, Hs. destruct (Rlt_dec maxn n) as [L|L].
    - assert (En : row_norm2 (m_rows A) (counted A incl) d' r = maxn) by (rewrite Hs; apply factor_sq; lra).
      rewrite En. split; [lra|]. split; [|intros; lra]. intros _. split; [reflexivity|]. exists (sqrt (maxn / n)). split.
      + split; [apply sqrt_lt_R0; apply Rdiv_lt_0_compat; lra|]. replace 1%R with (sqrt 1) by apply sqrt_1. apply sqrt_lt_1_alt. split.
        * apply Rlt_le, Rdiv_lt_0_compat; lra.
        * apply Rmult_lt_reg_r with n; [lra|]. unfold Rdiv. rewrite Rmult_assoc, Rinv_l by lra. lra.
      + intros c Hc. rewrite (Hk c Hc). ring.
    - rewrite Hs. split; [lra|]. split; [intros; lra|]. intros _ c Hc. rewrite (Hk c Hc). ring.
Qed.

Theorem set_norm_ok t pool A maxn incl m : norm_ready t pool A maxn incl m ->
  (forall r, r < m_rows A -> exists c, c < counted A incl /\ elt (m_rows A) (m_data A) r c <> 0%R) ->
  mrwSetL2Norm t pool A maxn incl m (fun d' => length d' = length (m_data A) /\
    forall r, r < m_rows A -> row_norm2 (m_rows A) (counted A incl) d' r = maxn /\
      exists k, (0 < k)%R /\ forall c, c < m_cols A -> elt (m_rows A) d' r c = (k * elt (m_rows A) (m_data A) r c)%R).
Proof.
  intros HR Hnz. pose proof HR as HR'. destruct HR' as (H1 & H2 & H3 & H4 & H5 & H6 & H7).
  assert (Hcc : counted A incl <= m_cols A) by (unfold counted; destruct incl; lia).
  assert (Hp : forall r, r < m_rows A -> (0 < row_norm2 (m_rows A) (counted A incl) (m_data A) r)%R).
  { intros r Hr. destruct (Hnz r Hr) as (c & Hc & Hne). unfold row_norm2. revert Hc. generalize (counted A incl).
    induction n as [|n IH]; intros Hc; [lia|]. rewrite sumR_snoc. cbn [Nat.add].
    pose proof (sumR_sq_pos (elt (m_rows A) (m_data A) r) n) as Hs.
    pose proof (pow2_ge_0 (elt (m_rows A) (m_data A) r n)) as Hs2.
    destruct (Nat.eq_dec c n) as [->|]; [|specialize (IH ltac:(lia)); lra].
    assert (0 < elt (m_rows A) (m_data A) r n ^ 2)%R by (rewrite <- Rsqr_pow2; apply Rsqr_pos_lt; exact Hne). lra. }
  unfold mrwSetL2Norm. apply norm_rows_ok; [exact HR| |].
  - intros _ r Hr. specialize (Hp r Hr). lra.
  - intros d' [Hl He]. split; [exact Hl|]. intros r Hr. unfold factor in He.
    split.
    + erewrite row_norm_scaled; [|intros c Hc; apply He; [exact Hr|lia]]. apply factor_sq; auto.
    + exists (sqrt (maxn / row_norm2 (m_rows A) (counted A incl) (m_data A) r)). split.
      * apply sqrt_lt_R0, Rdiv_lt_0_compat; auto.
      * intros c Hc. rewrite He by assumption. ring.
Qed.
