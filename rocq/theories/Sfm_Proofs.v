From Coq Require Import Reals Lra Lia Permutation.
From Verif Require Import Base BaseLemmas Workers_Model Workers_Spec Kern_Model Kern_Spec Kern_Proofs
  IdxMax_Model IdxMax_Spec IdxMax_Proofs Priv_Model Priv_Proofs Ew_Model Act_Model Act_Spec Loss_Proofs Sfm_Model Sfm_Spec.

(** ** General *)
Lemma apply_frame {A} (own : nat -> Prop) (w : list (wr A)) : forall m m',
  apply_writes m w = Some m' -> Forall (fun x => own (fst x)) w -> forall a, ~ own a -> bget m' a = bget m a.
Proof.
  induction w as [|[b v] w IH]; intros m m' H HF a Ha; cbn [apply_writes] in H; [congruence|].
  inversion HF as [|? ? Hb HF']; subst. cbn [fst] in Hb.
  destruct (bset m b v) as [m1|] eqn:E; cbn [obind] in H; [|discriminate].
  rewrite (IH _ _ H HF' a Ha). destruct (bset_some _ _ _ _ E) as (_ & _ & Hs). rewrite Hs.
  destruct (Nat.eqb_spec a b); [subst; contradiction|reflexivity].
Qed.

Lemma runs_frame {A} (own : nat -> Prop) k (m : list A) (post : list A -> Prop) : runs own k m post ->
  runs own k m (fun m' => post m' /\ forall a, ~ own a -> bget m' a = bget m a).
Proof.
  intros (m' & w & E & Aw & L & O & P). exists m', w. do 4 (split; [assumption|]). split; [exact P|].
  apply (apply_frame own w m m' Aw O).
Qed.

Lemma runs_weaken {A} (own own' : nat -> Prop) k (m : list A) (post : list A -> Prop) :
  (forall a, own a -> own' a) -> runs own k m post -> runs own' k m post.
Proof.
  intros H (m' & w & E & Aw & L & O & P). exists m', w. repeat (split; [assumption|]). split; [|assumption].
  eapply Forall_impl; [|exact O]. intros x. apply H.
Qed.

Lemma computes_one' {A} (own : nat -> Prop) k (d : list A) (post : list A -> Prop) :
  runs own k d (fun d' => (forall a, ~ own a -> bget d' a = bget d a) -> post d') ->
  computes (do (_, w) <- k d; Some [w]) d post.
Proof.
  intros H. apply computes_one. apply runs_frame in H. eapply runs_weaken; [|eapply runs_conseq; [exact H|]].
  - trivial.
  - intros m' _ [H1 H2]. auto.
Qed.

Lemma runs_eq {A} (own : nat -> Prop) k' k (m : list A) (post : list A -> Prop) :
  k m = k' m -> runs own k' m post -> runs own k m post.
Proof. intros E H. unfold runs in *. rewrite E. exact H. Qed.

Lemma tiles_nth_disjoint parts cnt i j p q c : tiles parts cnt -> i <> j ->
  nth_error parts i = Some p -> nth_error parts j = Some q ->
  r_ofs p <= c < r_ofs p + r_cnt p -> r_ofs q <= c < r_ofs q + r_cnt q -> False.
Proof.
  intros [HP _] Hn Hi Hj H1 H2.
  assert (HN : NoDup (flat_map idxs parts)).
  { eapply Permutation_NoDup; [apply Permutation_sym; exact HP|apply seq_NoDup]. }
  refine (NoDup_flat_map_disjoint idxs parts i j p q c HN Hi Hj Hn _ _); apply in_idxs; assumption.
Qed.

Lemma tiles_find parts cnt c : tiles parts cnt -> c < cnt -> exists p, In p parts /\ r_ofs p <= c < r_ofs p + r_cnt p.
Proof. intros HT Hc. destruct (tiles_cover parts cnt c HT Hc) as (p & Hp & Hi). apply in_idxs in Hi. eauto. Qed.

Section S.
Context (A : mtx R).
Let rm := m_rows A.
Let C := m_cols A.
Context (Hdat : rm * C <= length (m_data A)) (Hrm : 0 < rm) (HC : 0 < C).
Let z := elt rm (m_data A).

Lemma addr_lt r c : r < rm -> c < C -> rm * c + r < rm * C.
Proof. intros. nia. Qed.

Lemma get_z r c : r < rm -> c < C -> bget (m_data A) (col_ofs A c + r) = Some (z r c).
Proof.
  intros Hr Hc. unfold col_ofs, ldim. fold rm. unfold z, elt. apply bget_nth. pose proof (addr_lt r c Hr Hc). lia.
Qed.

Definition ok_rc (q : rcr) := rb q <= re q /\ re q <= rm /\ cb q < ce q /\ ce q <= C.

Lemma ok_all : ok_rc (all_rc A).
Proof. unfold ok_rc. cbn. fold rm C. lia. Qed.
Lemma ok_rows parts p : tiles parts rm -> In p parts -> ok_rc (rows_rc A p).
Proof. intros HT Hp. pose proof (tiles_within _ _ _ HT Hp). unfold ok_rc. cbn. fold C. lia. Qed.
Lemma ok_cols parts p : tiles parts C -> In p parts -> ok_rc (cols_rc A p).
Proof.
  intros HT Hp. pose proof (tiles_within _ _ _ HT Hp). destruct HT as [_ H0]. specialize (H0 p Hp).
  unfold ok_rc. cbn. fold rm. lia.
Qed.

(** ** Row maxima *)
Definition mx_in (r lo hi : nat) (v : R) : Prop :=
  (exists c, lo <= c < hi /\ v = z r c) /\ forall c, lo <= c < hi -> (z r c <= v)%R.

Lemma mx_step r lo hi v : mx_in r lo hi v -> mx_in r lo (S hi) (if Rlt_dec v (z r hi) then z r hi else v) \/ hi < lo.
Proof.
  intros [(c & Hc & E) H]. left. destruct (Rlt_dec v (z r hi)) as [L|L]; split.
  - exists hi. split; [lia|reflexivity].
  - intros c' Hc'. destruct (Nat.eq_dec c' hi) as [->|]; [lra|]. specialize (H c' ltac:(lia)). lra.
  - exists c. split; [lia|exact E].
  - intros c' Hc'. destruct (Nat.eq_dec c' hi) as [->|]; [lra|]. apply H. lia.
Qed.

Lemma mrwMax_st_ok pMax q m : ok_rc q -> cb q = 0 -> ce q = C -> pMax + rm <= length m ->
  runs (fun a => pMax + rb q <= a < pMax + re q) (mrwMax_st_cw A pMax q) m
    (fun m' => forall r, rb q <= r < re q -> exists v, bget m' (pMax + r) = Some v /\ row_max_is rm C (m_data A) r v).
Proof.
  intros (Hq1 & Hq2 & Hq3 & Hq4) Hcb Hce Hm. unfold mrwMax_st_cw.
  apply runs_seq with (mid := fun m' => forall r, rb q <= r < re q -> exists v, bget m' (pMax + r) = Some v /\ mx_in r 0 1 v).
  - eapply runs_conseq.
    + apply runs_mfor with (I := fun i m' => forall r, rb q <= r < rb q + i -> exists v, bget m' (pMax + r) = Some v /\ mx_in r 0 1 v).
      * intros r Hr. lia.
      * intros i m1 Hi Hl HI. rewrite Hcb. replace (col_ofs A 0 + rb q + i) with (col_ofs A 0 + (rb q + i)) by lia.
        rewrite get_z by lia. cbn [obind].
        apply runs_mset; [lia|lia|]. intros m' Hl' Hv Ho r Hr.
        destruct (Nat.eq_dec r (rb q + i)) as [->|Hn].
        -- exists (z (rb q + i) 0). split; [rewrite <- Hv; f_equal; lia|]. split; [exists 0; split; [lia|reflexivity]|].
           intros c Hc. replace c with 0 by lia. lra.
        -- rewrite Ho by lia. apply HI. lia.
    + cbv beta. intros m' Hl H r Hr. apply H. lia.
  - intros m1 Hl1 Hmid.
    assert (Hfin : forall m', (forall r, rb q <= r < re q -> exists v, bget m' (pMax + r) = Some v /\ mx_in r 0 C v) ->
      forall r, rb q <= r < re q -> exists v, bget m' (pMax + r) = Some v /\ row_max_is rm C (m_data A) r v).
    { intros m' H r Hr. destruct (H r Hr) as (v & E & [(c & Hc & Ev) Hle]). exists v. split; [exact E|]. split.
      - exists c. split; [lia|exact Ev].
      - intros c' Hc'. apply Hle. lia. }
    fold C. destruct (Nat.ltb_spec 1 C) as [L|L].
    + rewrite Hcb, Hce. eapply runs_conseq; [|intros m' _; apply Hfin].
      eapply runs_conseq.
      * apply runs_mfor with (I := fun c m' => forall r, rb q <= r < re q -> exists v, bget m' (pMax + r) = Some v /\ mx_in r 0 c v).
        -- exact Hmid.
        -- intros c m2 Hc Hl2 HI. eapply runs_conseq.
           ++ apply runs_mfor with (I := fun r0 m' => forall r, rb q <= r < re q ->
                exists v, bget m' (pMax + r) = Some v /\ mx_in r 0 (if r <? r0 then S c else c) v).
              ** intros r Hr. destruct (Nat.ltb_spec r (rb q)); [lia|]. apply HI. exact Hr.
              ** intros r m3 Hr Hl3 HI3. rewrite get_z by lia. cbn [obind].
                 destruct (HI3 r ltac:(lia)) as (v & Ev & Hv).
                 apply runs_eq with (k' := if Rlt_dec v (z r c) then mset (pMax + r) (z r c) else mskip).
                 { rewrite Ev. cbn [obind]. destruct (Rlt_dec v (z r c)); reflexivity. }
                 rewrite Nat.ltb_irrefl in Hv. destruct (mx_step r 0 c v Hv) as [Hs|Hs]; [|lia].
                 assert (Hoth : forall m' : list R, (forall b, b <> pMax + r -> bget m' b = bget m3 b) ->
                   bget m' (pMax + r) = Some (if Rlt_dec v (z r c) then z r c else v) ->
                   forall r', rb q <= r' < re q -> exists v, bget m' (pMax + r') = Some v /\ mx_in r' 0 (if r' <? S r then S c else c) v).
                 { intros m' Ho Hb r' Hr'. destruct (Nat.eq_dec r' r) as [->|Hn].
                   - rewrite Hb. eexists. split; [reflexivity|]. destruct (Nat.ltb_spec r (S r)); [exact Hs|lia].
                   - rewrite Ho by lia. destruct (HI3 r' Hr') as (v' & E' & H'). exists v'. split; [exact E'|].
                     destruct (Nat.ltb_spec r' r), (Nat.ltb_spec r' (S r)); try lia; exact H'. }
                 destruct (Rlt_dec v (z r c)) as [Lt|Lt].
                 --- apply runs_mset; [lia|lia|]. intros m' _ Hb Ho. apply Hoth; assumption.
                 --- apply runs_skip. apply Hoth; [reflexivity|exact Ev].
           ++ cbv beta. intros m' _ H r Hr. destruct (H r Hr) as (v & E & Hv). exists v. split; [exact E|].
              destruct (Nat.ltb_spec r (rb q + (re q - rb q))); [exact Hv|lia].
      * cbv beta. intros m' _. replace (0 + 1 + (C - (0 + 1))) with C by lia. auto.
    + apply runs_skip. apply Hfin. intros r Hr. destruct (Hmid r Hr) as (v & E & Hv). exists v. split; [exact E|].
      replace C with 1 by lia. exact Hv.
Qed.

Lemma mrwMax_ok thr pool mt pMax m : pMax + rm <= length m ->
  computes (mrwMax thr pool mt A pMax m) m (fun m' => forall r, r < rm ->
    exists v, bget m' (pMax + r) = Some v /\ row_max_is rm C (m_data A) r v).
Proof.
  intros Hm. unfold mrwMax. destruct (negb mt || _)%bool.
  - eapply computes_one'. eapply runs_conseq; [apply mrwMax_st_ok; try assumption; try reflexivity; apply ok_all|].
    cbv beta. intros m' _ H _ r Hr. apply H. cbn. fold rm. lia.
  - assert (HT : tiles (run_ranges pool 0 (m_rows A)) rm) by (apply run_ranges_tiles; exact Hrm).
    eapply computes_ppar with (own := fun p a => pMax + r_ofs p <= a < pMax + (r_ofs p + r_cnt p)).
    + intros p Hp. apply (mrwMax_st_ok pMax (rows_rc A p) m); try reflexivity; [eapply ok_rows; eauto|exact Hm].
    + intros i j p q a Hn Hi Hj H1 H2. eapply (tiles_nth_disjoint _ _ i j p q (a - pMax)); eauto; lia.
    + cbv beta. intros d' Hl Hown _ r Hr. destruct (tiles_find _ _ r HT Hr) as (p & Hp & Hi).
      destruct (Hown p Hp) as (mp & _ & Hres & Hag). destruct (Hres r) as (v & E & Hv); [cbn; lia|].
      exists v. split; [|exact Hv]. rewrite Hag by lia. exact E.
Qed.

(** ** Numerators and denominators *)
Lemma sumR_snoc (f : nat -> R) lo n : sumR (map f (seq lo (S n))) = (sumR (map f (seq lo n)) + f (lo + n)%nat)%R.
Proof. rewrite seq_S, map_app, sumR_app. unfold sumR at 2. cbn. ring. Qed.

Let P := rm * C.
Definition ex (M : nat -> R) (r c : nat) : R := exp (z r c - M r).
Definition own2 (q : rcr) (pD a : nat) : Prop :=
  pD + rb q <= a < pD + re q \/ exists c r, cb q <= c < ce q /\ rb q <= r < re q /\ a = rm * c + r.

Lemma parts_st_ok pD q m M : ok_rc q -> P + rm <= pD -> pD + rm <= length m ->
  (forall r, r < rm -> bget m (P + r) = Some (M r)) ->
  runs (own2 q pD) (softmax_parts_st_cw A P pD 0 q) m (fun m' =>
    (forall r, rb q <= r < re q -> bget m' (pD + r) = Some (sumR (map (ex M r) (seq (cb q) (ce q - cb q))))) /\
    (forall r c, rb q <= r < re q -> cb q <= c < ce q -> bget m' (rm * c + r) = Some (ex M r c))).
Proof.
  intros (Hq1 & Hq2 & Hq3 & Hq4) HpD Hm HM. unfold softmax_parts_st_cw.
  assert (Haddr : forall r c, r < rm -> c < C -> rm * c + r < P) by (intros; unfold P; apply addr_lt; assumption).
  apply runs_seq with (mid := fun m' =>
    (forall r, r < rm -> bget m' (P + r) = Some (M r)) /\ forall r, rb q <= r < re q -> bget m' (pD + r) = Some 0%R).
  - eapply runs_conseq.
    + apply runs_mfor with (I := fun i m' => (forall r, r < rm -> bget m' (P + r) = Some (M r)) /\
        forall r, rb q <= r < rb q + i -> bget m' (pD + r) = Some 0%R).
      * split; [exact HM|]. intros r Hr. lia.
      * intros i m1 Hi Hl [HI1 HI2]. apply runs_mset; [lia|left; lia|]. intros m' _ Hv Ho. split.
        -- intros r Hr. rewrite Ho by lia. apply HI1. exact Hr.
        -- intros r Hr. destruct (Nat.eq_dec r (rb q + i)) as [->|Hn]; [rewrite <- Hv; f_equal; lia|].
           rewrite Ho by lia. apply HI2. lia.
    + cbv beta. intros m' _ [H1 H2]. split; [exact H1|]. intros r Hr. apply H2. lia.
  - intros m1 Hl1 [HM1 HZ]. eapply runs_conseq.
    + apply runs_mfor with (I := fun c m' => (forall r, r < rm -> bget m' (P + r) = Some (M r)) /\
        (forall r, rb q <= r < re q -> bget m' (pD + r) = Some (sumR (map (ex M r) (seq (cb q) (c - cb q))))) /\
        (forall r c', rb q <= r < re q -> cb q <= c' < c -> bget m' (rm * c' + r) = Some (ex M r c'))).
      * split; [exact HM1|]. split; [|intros; lia]. intros r Hr. rewrite Nat.sub_diag. apply HZ. exact Hr.
      * intros c m2 Hc Hl2 (I1 & I2 & I3). eapply runs_conseq.
        -- apply runs_mfor with (I := fun r0 m' => (forall r, r < rm -> bget m' (P + r) = Some (M r)) /\
             (forall r, rb q <= r < re q -> bget m' (pD + r) =
                Some (sumR (map (ex M r) (seq (cb q) ((if r <? r0 then S c else c) - cb q))))) /\
             (forall r c', rb q <= r < re q -> cb q <= c' < (if r <? r0 then S c else c) -> bget m' (rm * c' + r) = Some (ex M r c'))).
           ++ split; [exact I1|]. split; intros r; intros; destruct (Nat.ltb_spec r (rb q)); try lia; auto.
           ++ intros r m3 Hr Hl3 (J1 & J2 & J3). rewrite get_z by lia. cbn [obind].
              assert (J2' := J2 r ltac:(lia)). rewrite Nat.ltb_irrefl in J2'.
              set (s := sumR (map (ex M r) (seq (cb q) (c - cb q)))) in J2'.
              apply runs_eq with (k' := mseq (mset (pD + r) (s + ex M r c)%R) (mset (0 + rm * c + r) (ex M r c))).
              { rewrite J1 by lia. cbn [obind]. rewrite J2'. cbn [obind]. reflexivity. }
              assert (Hss : (s + ex M r c)%R = sumR (map (ex M r) (seq (cb q) (S c - cb q)))).
              { replace (S c - cb q) with (S (c - cb q)) by lia. rewrite sumR_snoc.
                replace (cb q + (c - cb q)) with c by lia. reflexivity. }
              pose proof (Haddr r c ltac:(lia) ltac:(lia)) as Har.
              apply runs_seq with (mid := fun m' => bget m' (pD + r) = Some (s + ex M r c)%R /\ forall b, b <> pD + r -> bget m' b = bget m3 b).
              ** apply runs_mset; [lia|left; lia|]. intros m' _ Hv Ho. split; assumption.
              ** intros m4 Hl4 [Hv4 Ho4]. apply runs_mset; [lia|right; exists c, r; lia|].
                 intros m5 _ Hv5 Ho5. split; [|split].
                 --- intros r' Hr'. rewrite Ho5, Ho4 by lia. apply J1. exact Hr'.
                 --- intros r' Hr'. rewrite Ho5 by lia. destruct (Nat.eq_dec r' r) as [->|Hn].
                     +++ rewrite Hv4, Hss. destruct (Nat.ltb_spec r (S r)); [reflexivity|lia].
                     +++ rewrite Ho4 by lia. rewrite (J2 r' Hr').
                         destruct (Nat.ltb_spec r' r), (Nat.ltb_spec r' (S r)); try lia; reflexivity.
                 --- intros r' c' Hr' Hc'. destruct (Nat.eq_dec (rm * c' + r') (rm * c + r)) as [E|E].
                     +++ destruct (addr_inj rm r' c' r c) as [-> ->]; try lia. rewrite <- Hv5. f_equal.
                     +++ assert (c' < C) by (destruct (r' <? S r); lia).
                         pose proof (Haddr r' c' ltac:(lia) ltac:(lia)).
                         rewrite Ho5, Ho4 by lia. apply J3; [exact Hr'|].
                         destruct (Nat.ltb_spec r' r), (Nat.ltb_spec r' (S r)); try lia.
                         assert (r' = r) by lia. subst r'. assert (c' <> c) by (intros ->; apply E; reflexivity). lia.
        -- cbv beta. intros m' _ (K1 & K2 & K3). split; [exact K1|]. split.
           ++ intros r Hr. rewrite (K2 r Hr). destruct (Nat.ltb_spec r (rb q + (re q - rb q))); [reflexivity|lia].
           ++ intros r c' Hr Hc'. apply K3; [exact Hr|]. destruct (Nat.ltb_spec r (rb q + (re q - rb q))); lia.
    + cbv beta. intros m' _ (K1 & K2 & K3). replace (cb q + (ce q - cb q)) with (ce q) in * by lia. split; assumption.
Qed.

(** sum of the columns *)
Lemma sum_ip_ok tc tr T pD m : 0 < T -> pD + rm * T <= length m ->
  runs (fun a => pD <= a < pD + rm) (mrwSum_ip tc tr rm T pD) m (fun m' =>
    forall r (g : nat -> R), r < rm -> (forall t, t < T -> bget m (pD + rm * t + r) = Some (g t)) ->
    bget m' (pD + r) = Some (sumR (map g (seq 0 T)))).
Proof.
  intros HT Hm. unfold mrwSum_ip.
  assert (H0 : forall (g : nat -> R), sumR (map g (seq 0 1)) = g 0) by (intros; unfold sumR; cbn; ring).
  destruct (Nat.leb_spec T 1) as [L|L].
  { apply runs_skip. intros r g Hr Hg. replace T with 1 by lia. rewrite H0, <- (Hg 0 HT). f_equal. lia. }
  destruct (_ && _)%bool.
  - unfold mrwSum_ip_st_cw. eapply runs_conseq.
    + apply runs_mfor with (I := fun c m' => (forall a, pD + rm <= a -> bget m' a = bget m a) /\
        forall r (g : nat -> R), r < rm -> (forall t, t < T -> bget m (pD + rm * t + r) = Some (g t)) ->
        bget m' (pD + r) = Some (sumR (map g (seq 0 c)))).
      * split; [reflexivity|]. intros r g Hr Hg. rewrite H0, <- (Hg 0 HT). f_equal. lia.
      * intros c m1 Hc Hl1 [I1 I2]. eapply runs_conseq.
        -- apply runs_mfor with (I := fun r0 m' => (forall a, pD + rm <= a -> bget m' a = bget m a) /\
             forall r (g : nat -> R), r < rm -> (forall t, t < T -> bget m (pD + rm * t + r) = Some (g t)) ->
             bget m' (pD + r) = Some (sumR (map g (seq 0 (if r <? r0 then S c else c))))).
           ++ split; [exact I1|]. intros r g Hr Hg. cbn. apply I2; assumption.
           ++ intros r m2 Hr Hl2 [J1 J2].
              assert (Hin : pD + rm * c + r < length m) by nia.
              destruct (bget_lt m (pD + rm * c + r) Hin) as [x Hx].
              assert (Hx2 : bget m2 (pD + rm * c + r) = Some x) by (rewrite J1; [exact Hx|nia]).
              destruct (bget_lt m2 (pD + r) ltac:(lia)) as [v Hv].
              apply runs_eq with (k' := mset (pD + r) (v + x)%R).
              { rewrite Hx2. cbn [obind]. rewrite Hv. reflexivity. }
              apply runs_mset; [lia|lia|]. intros m3 _ Hv3 Ho3. split.
              ** intros a Ha. rewrite Ho3 by lia. apply J1. exact Ha.
              ** intros r' g Hr' Hg. destruct (Nat.eq_dec r' r) as [->|Hn].
                 --- rewrite Hv3. destruct (Nat.ltb_spec r (S r)); [|lia]. rewrite sumR_snoc. cbn [Nat.add].
                     assert (E := J2 r g Hr' Hg). rewrite Nat.ltb_irrefl, Hv in E. injection E as ->.
                     assert (E := Hg c ltac:(lia)). rewrite Hx in E. injection E as ->. reflexivity.
                 --- rewrite Ho3 by lia. rewrite (J2 r' g Hr' Hg).
                     destruct (Nat.ltb_spec r' r), (Nat.ltb_spec r' (S r)); try lia; reflexivity.
        -- cbv beta. intros m' _ [K1 K2]. split; [exact K1|]. intros r g Hr Hg. rewrite (K2 r g Hr Hg).
           destruct (Nat.ltb_spec r (0 + rm)); [reflexivity|lia].
    + cbv beta. intros m' _ [_ K] r g Hr Hg. rewrite (K r g Hr Hg). replace (1 + (T - 1)) with T by lia. reflexivity.
  - unfold mrwSum_ip_st_rw_small. eapply runs_conseq.
    + apply runs_mfor with (I := fun r0 m' => (forall a, (forall r, r < r0 -> a <> pD + r) -> bget m' a = bget m a) /\
        forall r (g : nat -> R), r < r0 -> (forall t, t < T -> bget m (pD + rm * t + r) = Some (g t)) ->
        bget m' (pD + r) = Some (sumR (map g (seq 0 T)))).
      * split; [reflexivity|]. intros; lia.
      * intros r m1 Hr Hl1 [I1 I2].
        assert (Hex : exists g : nat -> R, forall t, t < T -> bget m (pD + rm * t + r) = Some (g t)).
        { exists (fun t => nth (pD + rm * t + r) m 0%R). intros t Ht. apply bget_nth. nia. }
        destruct Hex as [g Hg].
        assert (Hsum : for_loop 1 (T - 1) (fun c s => do x <- bget m1 (pD + rm * c + r); Some (s + x)%R) 0%R =
          Some (sumR (map g (seq 1 (T - 1))))).
        { assert (Hgen : forall n lo s, 1 <= lo -> lo + n <= T ->
            for_loop lo n (fun c s => do x <- bget m1 (pD + rm * c + r); Some (s + x)%R) s = Some (s + sumR (map g (seq lo n)))%R).
          { induction n as [|n IHn]; intros lo s Hlo Hn; cbn [for_loop seq map].
            - unfold sumR. cbn. f_equal. ring.
            - rewrite I1, (Hg lo) by nia. cbn [obind]. rewrite IHn by lia. f_equal. unfold sumR. cbn. ring. }
          rewrite Hgen by lia. f_equal. ring. }
        apply runs_eq with (k' := mset (pD + r) (g 0%nat + sumR (map g (seq 1 (T - 1))))%R).
        { rewrite Hsum. cbn [obind]. rewrite I1 by lia. replace (pD + r) with (pD + rm * 0 + r) at 1 by lia.
          rewrite (Hg 0 HT). cbn [obind]. reflexivity. }
        apply runs_mset; [nia|lia|]. intros m2 _ Hv Ho. split.
        -- intros a Ha. rewrite Ho by (apply Ha; lia). apply I1. intros r' Hr'. apply Ha. lia.
        -- intros r' g' Hr' Hg'. destruct (Nat.eq_dec r' r) as [->|Hn].
           ++ rewrite Hv. f_equal. destruct T as [|T']; [lia|]. replace (S T' - 1) with T' by lia. cbn [seq map].
              unfold sumR at 2. cbn [fold_right]. fold (sumR (map g' (seq 1 T'))).
              assert (E : forall t, t < S T' -> g t = g' t) by (intros t Ht; specialize (Hg t Ht); rewrite (Hg' t Ht) in Hg; congruence).
              rewrite (E 0) by lia. f_equal. f_equal. apply map_ext_in. intros t Ht. apply in_seq in Ht. apply E. lia.
           ++ rewrite Ho by lia. apply I2; [lia|exact Hg'].
    + cbv beta. intros m' _ [_ K] r g Hr Hg. apply K; [lia|exact Hg].
Qed.

(** what the block holds after [softmax_parts] *)
Definition parts_post (M : nat -> R) (pD : nat) (m' : list R) : Prop :=
  (forall r, r < rm -> bget m' (pD + r) = Some (sumR (map (ex M r) (seq 0 C)))) /\
  (forall r c, r < rm -> c < C -> bget m' (rm * c + r) = Some (ex M r c)).

Lemma parts_ok t pool mt m M (post : list R -> Prop) : pool_ok pool -> 0 < t_parts_cpt t ->
  P + rm + rm * (length pool + 1) <= length m ->
  (forall r, r < rm -> bget m (P + r) = Some (M r)) ->
  (forall m', length m' = length m -> parts_post M (P + rm) m' -> post m') ->
  softmax_parts t pool mt A P (P + rm) 0 m post.
Proof.
  intros HP Hcpt Hm HM Hpost. unfold softmax_parts. set (pD := P + rm) in *.
  assert (Haddr : forall r c, r < rm -> c < C -> rm * c + r < P) by (intros; unfold P; apply addr_lt; assumption).
  assert (HmD : pD + rm <= length m) by nia.
  destruct (negb mt || _)%bool; [|fold C; fold rm; destruct ((C <=? t_parts_cpt t) || (t_parts_rows t <? rm))%bool eqn:Eb].
  - eapply computes_one'. eapply runs_conseq; [apply (parts_st_ok pD (all_rc A) m M); [apply ok_all|lia|exact HmD|exact HM]|].
    cbv beta. cbn. fold rm C. intros m' Hl [H1 H2] _. apply Hpost; [exact Hl|]. split.
    + intros r Hr. rewrite Nat.sub_0_r in H1. apply H1. lia.
    + intros r c Hr Hc. apply H2; lia.
  - assert (HT : tiles (run_ranges pool 0 rm) rm) by (apply run_ranges_tiles; exact Hrm).
    eapply computes_ppar with (own := fun p a => own2 (rows_rc A p) pD a).
    + intros p Hp. apply (parts_st_ok pD (rows_rc A p) m M); [eapply ok_rows; eauto|lia|exact HmD|exact HM].
    + intros i j p q a Hn Hi Hj H1 H2.
      assert (Bp := tiles_within _ _ _ HT (nth_error_In _ _ Hi)). assert (Bq := tiles_within _ _ _ HT (nth_error_In _ _ Hj)).
      unfold own2 in H1, H2. cbn in H1, H2. fold C in H1, H2.
      destruct H1 as [H1|(c1 & r1 & Hc1 & Hr1 & E1)], H2 as [H2|(c2 & r2 & Hc2 & Hr2 & E2)].
      * eapply (tiles_nth_disjoint _ _ i j p q (a - pD)); eauto; lia.
      * pose proof (Haddr r2 c2 ltac:(lia) ltac:(lia)). lia.
      * pose proof (Haddr r1 c1 ltac:(lia) ltac:(lia)). lia.
      * destruct (addr_inj rm r1 c1 r2 c2) as [-> ->]; try lia.
        eapply (tiles_nth_disjoint _ _ i j p q r2); eauto; lia.
    + cbv beta. intros d' Hl Hown _. apply Hpost; [exact Hl|]. split.
      * intros r Hr. destruct (tiles_find _ _ r HT Hr) as (p & Hp & Hi).
        destruct (Hown p Hp) as (mp & _ & [Hres _] & Hag). cbn in Hres. fold C in Hres. rewrite Nat.sub_0_r in Hres.
        rewrite Hag by (left; cbn; lia). apply Hres. lia.
      * intros r c Hr Hc. destruct (tiles_find _ _ r HT Hr) as (p & Hp & Hi).
        destruct (Hown p Hp) as (mp & _ & [_ Hres] & Hag). cbn in Hres. fold C in Hres.
        rewrite Hag by (right; exists c, r; cbn; fold C; lia). apply Hres; lia.
  - apply Bool.orb_false_iff in Eb. destruct Eb as [Eb _]. apply Nat.leb_gt in Eb.
    set (parts := cw_parts (t_parts_cpt t) pool A).
    assert (HT : tiles parts C) by (apply run_ranges_tiles; exact HC).
    assert (HI : tids_ok parts) by (apply run_ranges_tids; exact HP).
    destruct (cw_parts_length (t_parts_cpt t) pool A Hcpt Eb) as [HL1 HL2]. fold parts in HL1, HL2.
    assert (HLW : length parts <= length pool + 1).
    { unfold howMuchThreads in HL2. destruct (_ <? _) eqn:El in HL2; [apply Nat.ltb_lt in El; lia|lia]. }
    assert (HmT : pD + rm * length parts <= length m) by nia.
    assert (HpB : forall p, In p parts -> pD + rm * r_tid p + rm <= length m).
    { intros p Hp. destruct (part_of_unique parts p HI Hp) as [_ Hlt]. nia. }
    eapply computes_ppar with (own := fun p a => own2 (cols_rc A p) (pD + rm * r_tid p) a).
    + intros p Hp. apply (parts_st_ok (pD + rm * r_tid p) (cols_rc A p) m M); [eapply ok_cols; eauto|lia|apply HpB; exact Hp|exact HM].
    + intros i j p q a Hn Hi Hj H1 H2.
      assert (Ip := nth_error_In _ _ Hi). assert (Iq := nth_error_In _ _ Hj).
      assert (Bp := tiles_within _ _ _ HT Ip). assert (Bq := tiles_within _ _ _ HT Iq).
      unfold own2 in H1, H2. cbn in H1, H2. fold rm in H1, H2.
      destruct H1 as [H1|(c1 & r1 & Hc1 & Hr1 & E1)], H2 as [H2|(c2 & r2 & Hc2 & Hr2 & E2)].
      * destruct (addr_inj rm (a - pD - rm * r_tid p) (r_tid p) (a - pD - rm * r_tid q) (r_tid q)) as [_ Et]; try lia.
        destruct (part_of_unique parts p HI Ip) as [Ep _]. destruct (part_of_unique parts q HI Iq) as [Eq _].
        assert (Epq : p = q) by (rewrite <- Ep, <- Eq, Et; reflexivity). subst q.
        destruct HT as [HTp HT0]. specialize (HT0 p Ip).
        eapply (tiles_nth_disjoint parts C i j p p (r_ofs p)); eauto; try lia.
        split; [exact HTp|]. intros q Hq. destruct (Nat.eq_dec (r_cnt q) 0) as [E0|]; [|lia].
        destruct (run_ranges_tiles pool (Z.of_nat (howMuchThreads (t_parts_cpt t) C (length pool))) C HC) as [_ H0]. apply H0. exact Hq.
      * pose proof (Haddr r2 c2 ltac:(lia) ltac:(lia)). lia.
      * pose proof (Haddr r1 c1 ltac:(lia) ltac:(lia)). lia.
      * destruct (addr_inj rm r1 c1 r2 c2) as [-> ->]; try lia.
        eapply (tiles_nth_disjoint _ _ i j p q c2); eauto; lia.
    + cbv beta. intros m1 Hl1 Hown _. eapply computes_one'. eapply runs_conseq; [apply sum_ip_ok; [exact HL1|lia]|].
      cbv beta. intros m2 Hl2 Hs Hfr. apply Hpost; [congruence|]. split.
      * intros r Hr.
        set (g := fun t0 => let p := part_of parts t0 in sumR (map (ex M r) (idxs p))).
        rewrite (Hs r g Hr).
        -- f_equal. transitivity (sumR (map g (map r_tid parts))).
           { apply sumR_perm. apply Permutation_map. apply Permutation_sym. exact HI. }
           rewrite map_map. transitivity (sumR (map (fun er => sumR (map (ex M r) (idxs er))) parts)).
           { f_equal. apply map_ext_in. intros p Hp. unfold g. destruct (part_of_unique parts p HI Hp) as [-> _]. reflexivity. }
           rewrite sum_parts. apply sumR_perm. apply Permutation_map. destruct HT as [HT' _]. exact HT'.
        -- intros t0 Ht0. destruct (part_of_in parts t0 HI Ht0) as [Hp Et]. unfold g. set (p := part_of parts t0) in *.
           destruct (Hown p Hp) as (mp & _ & [Hres _] & Hag). cbn in Hres. fold rm in Hres. rewrite <- Et.
           rewrite Hag by (left; cbn; fold rm; lia). rewrite Hres by lia.
           unfold idxs. replace (r_ofs p + r_cnt p - r_ofs p) with (r_cnt p) by lia. reflexivity.
      * intros r c Hr Hc. pose proof (Haddr r c Hr Hc). rewrite Hfr by lia.
        destruct (tiles_find _ _ c HT Hc) as (p & Hp & Hi).
        destruct (Hown p Hp) as (mp & _ & [_ Hres] & Hag). cbn in Hres. fold rm in Hres.
        rewrite Hag by (right; exists c, r; cbn; fold rm; lia). apply Hres; lia.
Qed.

(** ** Division by the denominators *)
Definition own3 (q : rcr) (a : nat) : Prop := exists c r, cb q <= c < ce q /\ rb q <= r < re q /\ a = rm * c + r.
Definition div_post (q : rcr) (x : nat -> nat -> R) (v : nat -> R) (d' : list R) : Prop :=
  forall r c, rb q <= r < re q -> cb q <= c < ce q -> bget d' (rm * c + r) = Some (x r c / v r)%R.

Lemma div_st_ok t q m pDiv v d x : ok_rc q -> rm * C <= length d ->
  (forall r, r < rm -> bget m (pDiv + r) = Some (v r)) ->
  (forall r c, r < rm -> c < C -> bget d (rm * c + r) = Some (x r c)) ->
  runs (own3 q) (div_st t A m pDiv q) d (div_post q x v).
Proof.
  intros (Hq1 & Hq2 & Hq3 & Hq4) Hd Hv Hx.
  assert (Haddr : forall r c, r < rm -> c < C -> rm * c + r < rm * C) by (intros; apply addr_lt; assumption).
  (* one element *)
  assert (Hstep : forall (done done' : nat -> nat -> bool) r c (d1 : list R) k,
    rb q <= r < re q -> cb q <= c < ce q -> length d1 = length d ->
    (forall r' c', rb q <= r' < re q -> cb q <= c' < ce q -> bget d1 (rm * c' + r') = Some (if done r' c' then x r' c' / v r' else x r' c')%R) ->
    done r c = false ->
    (forall r' c', rb q <= r' < re q -> cb q <= c' < ce q -> done' r' c' = (done r' c' || ((r' =? r) && (c' =? c)))%bool) ->
    k d1 = mset (rm * c + r) (x r c / v r)%R d1 ->
    runs (own3 q) k d1 (fun d2 =>
      forall r' c', rb q <= r' < re q -> cb q <= c' < ce q -> bget d2 (rm * c' + r') = Some (if done' r' c' then x r' c' / v r' else x r' c')%R)).
  { intros dn dn' r c d1 k Hr Hc Hl HI Hn Hdn Hk. eapply runs_eq; [exact Hk|].
    pose proof (Haddr r c ltac:(lia) ltac:(lia)). apply runs_mset; [lia|exists c, r; lia|].
    intros d2 _ Hv2 Ho2 r' c' Hr' Hc'. rewrite Hdn by assumption.
    destruct (Nat.eq_dec (rm * c' + r') (rm * c + r)) as [E|E].
    - destruct (addr_inj rm r' c' r c) as [-> ->]; try lia. rewrite Hv2, !Nat.eqb_refl, Bool.orb_true_r. reflexivity.
    - rewrite Ho2 by exact E. rewrite (HI r' c' Hr' Hc').
      replace ((r' =? r) && (c' =? c))%bool with false; [rewrite Bool.orb_false_r; reflexivity|].
      destruct (Nat.eqb_spec r' r) as [->|]; [|reflexivity]. destruct (Nat.eqb_spec c' c) as [->|]; [exfalso; apply E; reflexivity|reflexivity]. }
  assert (Hend : forall (done : nat -> nat -> bool) (d1 : list R),
    (forall r' c', rb q <= r' < re q -> cb q <= c' < ce q -> bget d1 (rm * c' + r') = Some (if done r' c' then x r' c' / v r' else x r' c')%R) ->
    (forall r' c', rb q <= r' < re q -> cb q <= c' < ce q -> done r' c' = true) -> div_post q x v d1).
  { intros dn d1 H1 H2 r' c' Hr' Hc'. rewrite (H1 r' c' Hr' Hc'), (H2 r' c' Hr' Hc'). reflexivity. }
  assert (Hstart : forall r' c', rb q <= r' < re q -> cb q <= c' < ce q -> bget d (rm * c' + r') = Some (x r' c'))
    by (intros; apply Hx; lia).
  unfold div_st. destruct (_ <? _).
  - unfold div_st_rw. eapply runs_conseq.
    + apply runs_mfor with (I := fun r0 d' => forall r' c', rb q <= r' < re q -> cb q <= c' < ce q ->
        bget d' (rm * c' + r') = Some (if (r' <? r0) then x r' c' / v r' else x r' c')%R).
      * intros r' c' Hr' Hc'. destruct (Nat.ltb_spec r' (rb q)); [lia|]. auto.
      * intros r d1 Hr Hl HI. rewrite Hv by lia. cbn [obind]. eapply runs_conseq.
        -- apply runs_mfor with (I := fun c0 d' => forall r' c', rb q <= r' < re q -> cb q <= c' < ce q ->
             bget d' (rm * c' + r') = Some (if ((r' <? r) || ((r' =? r) && (c' <? c0))) then x r' c' / v r' else x r' c')%R).
           ++ intros r' c' Hr' Hc'. rewrite HI by assumption. destruct (Nat.ltb_spec c' (cb q)); [lia|].
              rewrite Bool.andb_false_r, Bool.orb_false_r. reflexivity.
           ++ intros c d2 Hc Hl2 HI2. eapply (Hstep (fun r' c' => ((r' <? r) || ((r' =? r) && (c' <? c)))%bool) _ r c d2); [lia|lia|congruence|exact HI2| | |].
              ** cbv beta. rewrite !Nat.ltb_irrefl, Bool.andb_false_r. reflexivity.
              ** intros r' c' _ _. cbv beta. destruct (Nat.ltb_spec r' r), (Nat.eqb_spec r' r), (Nat.ltb_spec c' c), (Nat.ltb_spec c' (S c)), (Nat.eqb_spec c' c); cbn; try reflexivity; lia.
              ** unfold col_ofs, ldim. fold rm. rewrite HI2 by lia. rewrite !Nat.ltb_irrefl, Bool.andb_false_r. reflexivity.
        -- cbv beta. intros d' _ H r' c' Hr' Hc'. rewrite H by assumption.
           destruct (Nat.ltb_spec r' r), (Nat.ltb_spec r' (S r)), (Nat.eqb_spec r' r), (Nat.ltb_spec c' (cb q + (ce q - cb q))); cbn; try reflexivity; lia.
    + cbv beta. intros d' _ H. apply (Hend _ _ H). intros r' c' Hr' Hc'. apply Nat.ltb_lt. lia.
  - unfold div_st_cw. eapply runs_conseq.
    + apply runs_mfor with (I := fun c0 d' => forall r' c', rb q <= r' < re q -> cb q <= c' < ce q ->
        bget d' (rm * c' + r') = Some (if (c' <? c0) then x r' c' / v r' else x r' c')%R).
      * intros r' c' Hr' Hc'. destruct (Nat.ltb_spec c' (cb q)); [lia|]. auto.
      * intros c d1 Hc Hl HI. eapply runs_conseq.
        -- apply runs_mfor with (I := fun r0 d' => forall r' c', rb q <= r' < re q -> cb q <= c' < ce q ->
             bget d' (rm * c' + r') = Some (if ((c' <? c) || ((c' =? c) && (r' <? r0))) then x r' c' / v r' else x r' c')%R).
           ++ intros r' c' Hr' Hc'. rewrite HI by assumption. destruct (Nat.ltb_spec r' (rb q)); [lia|].
              rewrite Bool.andb_false_r, Bool.orb_false_r. reflexivity.
           ++ intros r d2 Hr Hl2 HI2. eapply (Hstep (fun r' c' => ((c' <? c) || ((c' =? c) && (r' <? r)))%bool) _ r c d2); [lia|lia|congruence|exact HI2| | |].
              ** cbv beta. rewrite !Nat.ltb_irrefl, Bool.andb_false_r. reflexivity.
              ** intros r' c' _ _. cbv beta. destruct (Nat.ltb_spec r' r), (Nat.eqb_spec r' r), (Nat.ltb_spec c' c), (Nat.ltb_spec r' (S r)), (Nat.eqb_spec c' c); cbn; try reflexivity; lia.
              ** unfold col_ofs, ldim. fold rm. rewrite HI2 by lia. rewrite !Nat.ltb_irrefl, Bool.andb_false_r. cbn [orb obind].
                 rewrite Hv by lia. reflexivity.
        -- cbv beta. intros d' _ H r' c' Hr' Hc'. rewrite H by assumption.
           destruct (Nat.ltb_spec c' c), (Nat.ltb_spec c' (S c)), (Nat.eqb_spec c' c), (Nat.ltb_spec r' (rb q + (re q - rb q))); cbn; try reflexivity; lia.
    + cbv beta. intros d' _ H. apply (Hend _ _ H). intros r' c' Hr' Hc'. apply Nat.ltb_lt. lia.
Qed.

Lemma divide_ok t pool m pDiv v d x : rm * C <= length d ->
  (forall r, r < rm -> bget m (pDiv + r) = Some (v r)) ->
  (forall r c, r < rm -> c < C -> bget d (rm * c + r) = Some (x r c)) ->
  computes (mrwDivideByVec t pool A m pDiv d) d (fun d' =>
    (forall r c, r < rm -> c < C -> bget d' (rm * c + r) = Some (x r c / v r)%R) /\
    (forall a, rm * C <= a -> bget d' a = bget d a)).
Proof.
  intros Hd Hv Hx. unfold mrwDivideByVec.
  assert (Haddr : forall r c, r < rm -> c < C -> rm * c + r < rm * C) by (intros; apply addr_lt; assumption).
  assert (Hno : forall q a, ok_rc q -> rm * C <= a -> ~ own3 q a).
  { intros q a (H1 & H2 & H3 & H4) Ha (c & r & Hc & Hr & ->). pose proof (Haddr r c ltac:(lia) ltac:(lia)). lia. }
  destruct (_ <? t_div t); [|destruct (_ <? t_div_mt_rows t)].
  - eapply computes_one'. eapply runs_conseq; [apply div_st_ok; eauto; apply ok_all|].
    intros d' _ H Hfr. split.
    + intros r c Hr Hc. apply H; cbn; fold rm C; lia.
    + intros a Ha. apply Hfr. apply Hno; [apply ok_all|exact Ha].
  - assert (HT : tiles (run_ranges pool 0 C) C) by (apply run_ranges_tiles; exact HC).
    eapply computes_ppar with (own := fun p a => own3 (cols_rc A p) a).
    + intros p Hp. apply div_st_ok with (v := v) (x := x); auto. eapply ok_cols; eauto.
    + intros i j p q a Hn Hi Hj (c1 & r1 & Hc1 & Hr1 & E1) (c2 & r2 & Hc2 & Hr2 & E2). cbn in Hc1, Hr1, Hc2, Hr2. fold rm in Hr1, Hr2.
      destruct (addr_inj rm r1 c1 r2 c2) as [-> ->]; try lia. eapply (tiles_nth_disjoint _ _ i j p q c2); eauto.
    + cbv beta. intros d' _ Hown Hfr. split.
      * intros r c Hr Hc. destruct (tiles_find _ _ c HT Hc) as (p & Hp & Hi).
        destruct (Hown p Hp) as (mp & _ & Hres & Hag). rewrite Hag by (exists c, r; cbn; fold rm; lia).
        apply Hres; cbn; fold rm; lia.
      * intros a Ha. apply Hfr. intros p Hp. apply Hno; [eapply ok_cols; eauto|exact Ha].
  - assert (HT : tiles (run_ranges pool 0 rm) rm) by (apply run_ranges_tiles; exact Hrm).
    eapply computes_ppar with (own := fun p a => own3 (rows_rc A p) a).
    + intros p Hp. apply div_st_ok with (v := v) (x := x); auto. eapply ok_rows; eauto.
    + intros i j p q a Hn Hi Hj (c1 & r1 & Hc1 & Hr1 & E1) (c2 & r2 & Hc2 & Hr2 & E2). cbn in Hc1, Hr1, Hc2, Hr2.
      assert (Bp := tiles_within _ _ _ HT (nth_error_In _ _ Hi)). assert (Bq := tiles_within _ _ _ HT (nth_error_In _ _ Hj)).
      destruct (addr_inj rm r1 c1 r2 c2) as [-> ->]; try lia. eapply (tiles_nth_disjoint _ _ i j p q r2); eauto.
    + cbv beta. intros d' _ Hown Hfr. split.
      * intros r c Hr Hc. destruct (tiles_find _ _ r HT Hr) as (p & Hp & Hi).
        destruct (Hown p Hp) as (mp & _ & Hres & Hag). rewrite Hag by (exists c, r; cbn; fold C; lia).
        apply Hres; cbn; fold C; lia.
      * intros a Ha. apply Hfr. intros p Hp. apply Hno; [eapply ok_rows; eauto|exact Ha].
Qed.
End S.
