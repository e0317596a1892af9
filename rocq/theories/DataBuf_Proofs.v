From Verif Require Import Base BaseLemmas DataBuf_Model DataBuf_Spec.

Section Proofs.
Context {A : Type}.
Implicit Types (b : dbuf A).

(** Position of the [k]-th cell after the current one, in the code's encoding. *)
Definition norm (T cur k : nat) : nat :=
  if k =? 0 then cur else if cur + k <=? T then cur + k else cur + k - T.
(** Memory cell of the [j]-th queued element. *)
Definition cellpos (T cur j : nat) : nat := if cur + j <? T then cur + j else cur + j - T.

Record rep (T : nat) (b : dbuf A) (q : list A) (p : nat) : Prop := {
  R_T : length (b_mem b) = T;
  R_pos : 0 < T;
  R_cur : b_cur b < T;
  R_cap : length q + p <= T;
  R_alv : b_alv b = norm T (b_cur b) (length q);
  R_alc : b_alc b = norm T (b_cur b) (length q + p);
  R_emp : b_empty b = (length q =? 0);
  R_mem : forall j v, nth_error q j = Some v -> nth_error (b_mem b) (cellpos T (b_cur b) j) = Some v
}.

Lemma copy2buf_spec : forall (d : list A) mem ofs,
  ofs + length d <= length mem ->
  exists mem', copy2buf mem ofs d = Some mem' /\ length mem' = length mem /\
    forall i, nth_error mem' i =
      if (ofs <=? i) && (i <? ofs + length d) then nth_error d (i - ofs) else nth_error mem i.
Proof.
  induction d as [|v d IH]; intros mem ofs H; simpl in *.
  - exists mem. repeat split; auto. intros i.
    destruct ((ofs <=? i) && (i <? ofs + 0)) eqn:E; [lia|reflexivity].
  - destruct (bset_lt mem ofs v ltac:(lia)) as (m1 & E1). rewrite E1. simpl.
    pose proof (bset_length _ _ _ _ E1) as L1.
    destruct (IH m1 (S ofs) ltac:(lia)) as (m2 & E2 & L2 & N2).
    exists m2. split; [assumption|]. split; [congruence|]. intros i. rewrite N2.
    destruct (bset_some _ _ _ _ E1) as (_ & _ & N1). specialize (N1 i). unfold bget in N1.
    destruct (Nat.eq_dec i ofs) as [->|Hne].
    + replace (S ofs <=? ofs) with false by lia. simpl.
      replace ((ofs <=? ofs) && (ofs <? ofs + S (length d))) with true by lia.
      rewrite N1. rewrite Nat.eqb_refl, Nat.sub_diag. reflexivity.
    + destruct ((S ofs <=? i) && (i <? S ofs + length d)) eqn:E.
      * replace ((ofs <=? i) && (i <? ofs + S (length d))) with true by lia.
        replace (i - ofs) with (S (i - S ofs)) by lia. reflexivity.
      * replace ((ofs <=? i) && (i <? ofs + S (length d))) with false by lia.
        rewrite N1. destruct (Nat.eqb_spec i ofs); [contradiction|reflexivity].
Qed.

Definition rng (T cur n : nat) : range :=
  if cur + n <=? T then mkRng cur n None 0 else mkRng cur (T - cur) (Some 0) (n - (T - cur)).

Lemma acquire_spec T b q p n :
  rep T b q p ->
  acquire b n = if (1 <=? n) && (n <=? length q) then Some (rng T (b_cur b) n) else None.
Proof.
  intros []. unfold acquire, rng, b_total. rewrite R_emp0, R_alv0, R_T0. unfold norm.
  destruct (length q =? 0) eqn:E0; cbn [andb orb negb].
  - destruct ((1 <=? n) && (n <=? length q)) eqn:E; [lia|reflexivity].
  - destruct (n =? 0) eqn:E1; cbn [andb orb negb].
    + destruct ((1 <=? n) && (n <=? length q)) eqn:E; [lia|reflexivity].
    + destruct (b_cur b + length q <=? T) eqn:E2.
      * replace (b_cur b <? b_cur b + length q) with true by lia.
        destruct (b_cur b + n <=? b_cur b + length q) eqn:E3.
        -- replace ((1 <=? n) && (n <=? length q)) with true by lia.
           replace (b_cur b + n <=? T) with true by lia. reflexivity.
        -- replace ((1 <=? n) && (n <=? length q)) with false by lia. reflexivity.
      * replace (b_cur b <? b_cur b + length q - T) with false by lia.
        destruct (b_cur b + n <=? T) eqn:E3.
        -- replace ((1 <=? n) && (n <=? length q)) with true by lia. reflexivity.
        -- destruct (n - (T - b_cur b) <=? b_cur b + length q - T) eqn:E4.
           ++ replace ((1 <=? n) && (n <=? length q)) with true by lia. reflexivity.
           ++ replace ((1 <=? n) && (n <=? length q)) with false by lia. reflexivity.
Qed.

Lemma read_spec T b q p n k v :
  rep T b q p -> n <= length q -> k < n -> nth_error q k = Some v ->
  feeder_get b (rng T (b_cur b) n) k = Some v.
Proof.
  intros [] Hn Hk Hv. specialize (R_mem0 _ _ Hv). unfold feeder_get, rng, cellpos, bget in *.
  destruct (b_cur b + n <=? T) eqn:E; simpl.
  - replace (n <=? k) with false by lia. replace (b_cur b + k <? T) with true in R_mem0 by lia. assumption.
  - destruct (T - b_cur b <=? k) eqn:E1.
    + replace (k <? T - b_cur b + (n - (T - b_cur b))) with true by lia.
      replace (b_cur b + k <? T) with false in R_mem0 by lia.
      replace (k - (T - b_cur b)) with (b_cur b + k - T) by lia. assumption.
    + replace (b_cur b + k <? T) with true in R_mem0 by lia. assumption.
Qed.

Lemma nth_error_skipn_some (q : list A) k j : nth_error (skipn k q) j = nth_error q (k + j).
Proof.
  revert k. induction q as [|x q IH]; intros [|k]; simpl; auto.
  destruct j; reflexivity.
Qed.

Lemma release_spec T b q p n k :
  rep T b q p -> n <= length q -> 1 <= k -> k <= n ->
  rep T (release b (shrink (rng T (b_cur b) n) k)) (skipn k q) p.
Proof.
  intros [] Hn H1 Hk. unfold release, b_total. rewrite R_T0.
  set (cur' := match r_p2 (shrink (rng T (b_cur b) n) k) with
               | Some _ => r_n2 (shrink (rng T (b_cur b) n) k)
               | None => b_cur b + r_n1 (shrink (rng T (b_cur b) n) k) end).
  assert (Hc : (b_cur b + k <= T /\ cur' = b_cur b + k) \/
               (b_cur b + k >= T /\ cur' = b_cur b + k - T /\ T < b_cur b + n)).
  { subst cur'. unfold shrink, rng. destruct (b_cur b + n <=? T) eqn:E; simpl.
    - destruct (n <=? k) eqn:E1; simpl; left; lia.
    - destruct (T - b_cur b <=? k) eqn:E1; simpl; [right|left]; lia. }
  clearbody cur'.
  pose proof (skipn_length k q) as Lq.
  destruct (T <=? cur') eqn:E.
  - constructor; cbn [b_mem b_cur b_alv b_alc b_empty]; auto; try lia.
    + rewrite Lq, R_alv0. unfold norm.
      destruct (length q =? 0) eqn:E0; [lia|]. destruct (b_cur b + length q <=? T) eqn:E1.
      * destruct (b_cur b + length q =? T) eqn:E2; destruct (length q - k =? 0) eqn:E3; try lia.
      * destruct (b_cur b + length q - T =? T) eqn:E2; destruct (length q - k =? 0) eqn:E3; try lia;
          destruct (0 + (length q - k) <=? T) eqn:E4; lia.
    + rewrite Lq, R_alc0. unfold norm.
      destruct (length q + p =? 0) eqn:E0; [lia|]. destruct (b_cur b + (length q + p) <=? T) eqn:E1.
      * destruct (b_cur b + (length q + p) =? T) eqn:E2; destruct (length q - k + p =? 0) eqn:E3; try lia.
      * destruct (b_cur b + (length q + p) - T =? T) eqn:E2; destruct (length q - k + p =? 0) eqn:E3; try lia;
          destruct (0 + (length q - k + p) <=? T) eqn:E4; lia.
    + rewrite Lq, R_alv0. unfold norm.
      destruct (length q =? 0) eqn:E0; [lia|]. destruct (b_cur b + length q <=? T) eqn:E1.
      * destruct (b_cur b + length q =? T) eqn:E2; try lia.
      * destruct (b_cur b + length q - T =? T) eqn:E2; lia.
    + intros j v Hj. rewrite nth_error_skipn_some in Hj. specialize (R_mem0 _ _ Hj).
      assert (k + j < length q) by (apply nth_error_Some; congruence).
      unfold cellpos in *. replace (b_cur b + (k + j) <? T) with false in R_mem0 by lia.
      destruct (0 + j <? T) eqn:E1; [|lia].
      replace (b_cur b + (k + j) - T) with (0 + j) in R_mem0 by lia. assumption.
  - constructor; cbn [b_mem b_cur b_alv b_alc b_empty]; auto; try lia.
    + rewrite Lq, R_alv0. unfold norm.
      destruct (length q =? 0) eqn:E0; [lia|]. destruct (b_cur b + length q <=? T) eqn:E1;
        destruct (length q - k =? 0) eqn:E3; try lia;
        destruct (cur' + (length q - k) <=? T) eqn:E4; lia.
    + rewrite Lq, R_alc0. unfold norm.
      destruct (length q + p =? 0) eqn:E0; [lia|]. destruct (b_cur b + (length q + p) <=? T) eqn:E1;
        destruct (length q - k + p =? 0) eqn:E3; try lia;
        destruct (cur' + (length q - k + p) <=? T) eqn:E4; lia.
    + rewrite Lq, R_alv0. unfold norm.
      destruct (length q =? 0) eqn:E0; [lia|]. destruct (b_cur b + length q <=? T) eqn:E1; lia.
    + intros j v Hj. rewrite nth_error_skipn_some in Hj. specialize (R_mem0 _ _ Hj).
      assert (k + j < length q) by (apply nth_error_Some; congruence).
      unfold cellpos in *.
      destruct (b_cur b + (k + j) <? T) eqn:E1; destruct (cur' + j <? T) eqn:E2; try lia;
      match goal with |- nth_error _ ?x = _ => match type of R_mem0 with nth_error _ ?y = _ =>
        replace x with y by lia end end; assumption.
Qed.

Lemma claim_spec T b q p n :
  rep T b q p -> 1 <= n -> ~ (length q = 0 /\ p = T) ->
  exists b', should_work b n = (Nat.min n (T - (length q + p)), b') /\
    b_cur b' = b_cur b /\ rep T b' q (p + Nat.min n (T - (length q + p))).
Proof.
  intros HR Hn Hna. pose proof HR as []. unfold should_work, b_total. rewrite R_emp0, R_T0.
  set (m := if n <=? T then n else T).
  assert (Hm : m = Nat.min n T) by (unfold m; destruct (n <=? T) eqn:E; lia). clearbody m.
  set (x := Nat.min n (T - (length q + p))).
  assert (G : forall a, a = norm T (b_cur b) (length q + (p + x)) ->
    rep T (mkB (b_mem b) (b_cur b) (b_alv b) a (length q =? 0)) q (p + x)).
  { intros a ->. constructor; simpl; auto. lia. }
  assert (Gx : x = 0 -> rep T b q (p + x)) by (intros ->; rewrite Nat.add_0_r; assumption).
  rewrite R_alc0. 
  assert (Halc : norm T (b_cur b) (length q + p) = 
     if length q + p =? 0 then b_cur b else if b_cur b + (length q + p) <=? T then b_cur b + (length q + p) else b_cur b + (length q + p) - T) by reflexivity.
  remember (norm T (b_cur b) (length q + p)) as alc eqn:Ealc. clear Ealc.
  destruct (negb (length q =? 0) && (negb (alc =? 0) && (alc =? b_cur b) || (b_cur b =? 0) && (alc =? T))) eqn:F.
  - assert (x = 0) as Hx.
    { destruct (length q + p =? 0) eqn:E0; [lia|]. destruct (b_cur b + (length q + p) <=? T) eqn:E1; lia. }
    exists b. rewrite Hx. split; [reflexivity|]. split; [reflexivity|]. rewrite <- Hx. auto.
  - destruct (b_cur b <=? alc) eqn:C1.
    + destruct (alc <? T) eqn:C2.
      * assert (Hal : alc = b_cur b + (length q + p)).
        { destruct (length q + p =? 0) eqn:E0; [lia|]. destruct (b_cur b + (length q + p) <=? T) eqn:E1; lia. }
        destruct (m <=? T - alc) eqn:C3.
        -- assert (x = m) as Hx by lia. eexists. split; [f_equal; lia|]. split; [reflexivity|].
           apply G. unfold norm. destruct (length q + (p + x) =? 0) eqn:E0; [lia|].
           destruct (b_cur b + (length q + (p + x)) <=? T) eqn:E1; lia.
        -- destruct (m - (T - alc) <=? b_cur b) eqn:C4.
           ++ assert (x = m) as Hx by lia. eexists. split; [f_equal; lia|]. split; [reflexivity|].
              apply G. unfold norm. destruct (length q + (p + x) =? 0) eqn:E0; [lia|].
              destruct (b_cur b + (length q + (p + x)) <=? T) eqn:E1; lia.
           ++ destruct (b_cur b =? 0) eqn:C5; simpl.
              ** eexists. split; [f_equal; lia|]. split; [reflexivity|].
                 apply G. unfold norm. destruct (length q + (p + x) =? 0) eqn:E0; [lia|].
                 destruct (b_cur b + (length q + (p + x)) <=? T) eqn:E1; lia.
              ** eexists. split; [f_equal; lia|]. split; [reflexivity|].
                 apply G. unfold norm. destruct (length q + (p + x) =? 0) eqn:E0; [lia|].
                 destruct (b_cur b + (length q + (p + x)) <=? T) eqn:E1; lia.
      * assert (Hal : alc = T /\ b_cur b + (length q + p) = T).
        { destruct (length q + p =? 0) eqn:E0; [lia|]. destruct (b_cur b + (length q + p) <=? T) eqn:E1; lia. }
        destruct (b_cur b =? 0) eqn:C5; simpl; [lia|].
        destruct (m <? b_cur b) eqn:C6.
        -- eexists. split; [f_equal; lia|]. split; [reflexivity|].
           apply G. unfold norm. destruct (length q + (p + x) =? 0) eqn:E0; [lia|].
           destruct (b_cur b + (length q + (p + x)) <=? T) eqn:E1; lia.
        -- eexists. split; [f_equal; lia|]. split; [reflexivity|].
           apply G. unfold norm. destruct (length q + (p + x) =? 0) eqn:E0; [lia|].
           destruct (b_cur b + (length q + (p + x)) <=? T) eqn:E1; lia.
    + assert (Hal : alc = b_cur b + (length q + p) - T /\ b_cur b + (length q + p) > T).
      { destruct (length q + p =? 0) eqn:E0; [lia|]. destruct (b_cur b + (length q + p) <=? T) eqn:E1; lia. }
      destruct (m <? b_cur b - alc) eqn:C6.
      * eexists. split; [f_equal; lia|]. split; [reflexivity|].
        apply G. unfold norm. destruct (length q + (p + x) =? 0) eqn:E0; [lia|].
        destruct (b_cur b + (length q + (p + x)) <=? T) eqn:E1; lia.
      * eexists. split; [f_equal; lia|]. split; [reflexivity|].
        apply G. unfold norm. destruct (length q + (p + x) =? 0) eqn:E0; [lia|].
        destruct (b_cur b + (length q + (p + x)) <=? T) eqn:E1; lia.
Qed.

Lemma nth_error_firstn_lt (l : list A) k i : i < k -> nth_error (firstn k l) i = nth_error l i.
Proof.
  revert k i. induction l as [|x l IH]; intros [|k] [|i] H; simpl; auto; try lia. apply IH. lia.
Qed.

Lemma fill_spec T b q p (d : list A) :
  rep T b q p -> 1 <= length d -> length d <= p ->
  exists b', as_done b d = Some b' /\ b_cur b' = b_cur b /\ rep T b' (q ++ d) (p - length d).
Proof.
  intros [] H1 Hp. unfold as_done, b_total. rewrite R_T0.
  assert (Lqd : length (q ++ d) = length q + length d) by apply app_length.
  (* what remains to be shown about the new memory and index *)
  assert (G : forall mem alv,
    length mem = T -> alv = norm T (b_cur b) (length q + length d) ->
    (forall i, i < T -> nth_error mem i =
       if (if i <? b_cur b then length q <=? T - b_cur b + i else length q <=? i - b_cur b)
          && (if i <? b_cur b then T - b_cur b + i <? length q + length d else i - b_cur b <? length q + length d)
       then nth_error d ((if i <? b_cur b then T - b_cur b + i else i - b_cur b) - length q)
       else nth_error (b_mem b) i) ->
    rep T (mkB mem (b_cur b) alv (b_alc b) false) (q ++ d) (p - length d)).
  { intros mem alv L -> N. constructor; simpl; auto; rewrite ?Lqd; try lia.
    - f_equal. rewrite R_alc0. f_equal. lia.
    - intros j v Hj.
      assert (j < length (q ++ d)) as Hlt by (apply nth_error_Some; congruence).
      assert (cellpos T (b_cur b) j < T) as Hcp by (unfold cellpos; destruct (b_cur b + j <? T) eqn:E; lia).
      rewrite N by assumption.
      assert (Hd : (if cellpos T (b_cur b) j <? b_cur b then T - b_cur b + cellpos T (b_cur b) j
                    else cellpos T (b_cur b) j - b_cur b) = j).
      { unfold cellpos. destruct (b_cur b + j <? T) eqn:E.
        - replace (b_cur b + j <? b_cur b) with false by lia. lia.
        - replace (b_cur b + j - T <? b_cur b) with true by lia. lia. }
      destruct (le_lt_dec (length q) j) as [Hq|Hq].
      + rewrite nth_error_app2 in Hj by assumption.
        destruct (cellpos T (b_cur b) j <? b_cur b) eqn:E; rewrite Hd;
          replace (length q <=? j) with true by lia;
          replace (j <? length q + length d) with true by lia; simpl; assumption.
      + rewrite nth_error_app1 in Hj by assumption.
        destruct (cellpos T (b_cur b) j <? b_cur b) eqn:E; rewrite Hd;
          replace (length q <=? j) with false by lia; simpl; apply R_mem0; assumption. }
  assert (Halv : b_alv b = norm T (b_cur b) (length q)) by assumption.
  assert (Halc : b_alc b = norm T (b_cur b) (length q + p)) by assumption.
  unfold norm in Halv, Halc.
  replace (length q + p =? 0) with false in Halc by lia.
  destruct (b_alv b <? b_alc b) eqn:C1.
  - assert (b_alc b = b_alv b + p) as Hal.
    { destruct (length q =? 0) eqn:E0; destruct (b_cur b + length q <=? T) eqn:E1;
      destruct (b_cur b + (length q + p) <=? T) eqn:E2; lia. }
    assert (b_alc b <= T) as HaT by (destruct (b_cur b + (length q + p) <=? T) eqn:E2; lia).
    replace (if b_alc b - b_alv b <? length d then b_alc b - b_alv b else length d) with (length d)
      by (destruct (b_alc b - b_alv b <? length d) eqn:E; lia).
    rewrite firstn_all.
    destruct (copy2buf_spec d (b_mem b) (b_alv b) ltac:(lia)) as (mem & E & L & N).
    rewrite E. simpl. eexists. split; [reflexivity|]. split; [reflexivity|].
    apply G.
    + congruence.
    + unfold norm. replace (length q + length d =? 0) with false by lia.
      destruct (length q =? 0) eqn:E0; destruct (b_cur b + length q <=? T) eqn:E1;
      destruct (b_cur b + (length q + p) <=? T) eqn:E2;
      destruct (b_cur b + (length q + length d) <=? T) eqn:E3; lia.
    + intros i Hi. rewrite N.
      destruct (i <? b_cur b) eqn:Ei.
      * destruct ((b_alv b <=? i) && (i <? b_alv b + length d)) eqn:F.
        -- replace (length q <=? T - b_cur b + i) with true
             by (destruct (length q =? 0) eqn:E0; destruct (b_cur b + length q <=? T) eqn:E1; lia).
           replace (T - b_cur b + i <? length q + length d) with true
             by (destruct (length q =? 0) eqn:E0; destruct (b_cur b + length q <=? T) eqn:E1;
                 destruct (b_cur b + (length q + p) <=? T) eqn:E2; lia).
           simpl. f_equal.
           destruct (length q =? 0) eqn:E0; destruct (b_cur b + length q <=? T) eqn:E1; 
           destruct (b_cur b + (length q + p) <=? T) eqn:E2; lia.
        -- replace ((length q <=? T - b_cur b + i) && (T - b_cur b + i <? length q + length d)) with false; [reflexivity|].
           destruct (length q =? 0) eqn:E0; destruct (b_cur b + length q <=? T) eqn:E1;
             destruct (b_cur b + (length q + p) <=? T) eqn:E2; lia.
      * destruct ((b_alv b <=? i) && (i <? b_alv b + length d)) eqn:F.
        -- replace (length q <=? i - b_cur b) with true
             by (destruct (length q =? 0) eqn:E0; destruct (b_cur b + length q <=? T) eqn:E1;
                 destruct (b_cur b + (length q + p) <=? T) eqn:E2; lia).
           replace (i - b_cur b <? length q + length d) with true
             by (destruct (length q =? 0) eqn:E0; destruct (b_cur b + length q <=? T) eqn:E1;
                 destruct (b_cur b + (length q + p) <=? T) eqn:E2; lia).
           simpl. f_equal.
           destruct (length q =? 0) eqn:E0; destruct (b_cur b + length q <=? T) eqn:E1; 
           destruct (b_cur b + (length q + p) <=? T) eqn:E2; lia.
        -- replace ((length q <=? i - b_cur b) && (i - b_cur b <? length q + length d)) with false; [reflexivity|].
           destruct (length q =? 0) eqn:E0; destruct (b_cur b + length q <=? T) eqn:E1;
             destruct (b_cur b + (length q + p) <=? T) eqn:E2; lia.
  - assert (Hw : b_alv b = b_cur b + length q /\ b_cur b + length q <= T /\
                 b_cur b + (length q + p) > T /\ b_alc b = b_cur b + (length q + p) - T).
    { destruct (length q =? 0) eqn:E0; destruct (b_cur b + length q <=? T) eqn:E1;
      destruct (b_cur b + (length q + p) <=? T) eqn:E2; lia. }
    destruct Hw as (W1 & W2 & W3 & W4).
    destruct (length d <=? T - b_alv b) eqn:C2.
    + destruct (copy2buf_spec d (b_mem b) (b_alv b) ltac:(lia)) as (mem & E & L & N).
      rewrite E. simpl. eexists. split; [reflexivity|]. split; [reflexivity|].
      apply G.
      * congruence.
      * unfold norm. replace (length q + length d =? 0) with false by lia.
        destruct (b_cur b + (length q + length d) <=? T) eqn:E3; lia.
      * intros i Hi. rewrite N.
        destruct (i <? b_cur b) eqn:Ei.
        -- replace ((b_alv b <=? i) && (i <? b_alv b + length d)) with false by lia.
           replace (T - b_cur b + i <? length q + length d) with false by lia.
           rewrite andb_false_r. reflexivity.
        -- replace ((b_alv b <=? i) && (i <? b_alv b + length d)) with
             ((length q <=? i - b_cur b) && (i - b_cur b <? length q + length d)) by lia.
           replace (i - b_cur b - length q) with (i - b_alv b) by lia. reflexivity.
    + set (n1 := T - b_alv b).
      assert (Lf : length (firstn n1 d) = n1) by (rewrite firstn_length; lia).
      destruct (copy2buf_spec (firstn n1 d) (b_mem b) (b_alv b) ltac:(lia)) as (mem & E & L & N).
      rewrite E. simpl.
      replace (if length d - n1 <? b_alc b then length d - n1 else b_alc b) with (length d - n1)
        by (destruct (length d - n1 <? b_alc b) eqn:F; lia).
      assert (Ls : length (skipn n1 d) = length d - n1) by apply skipn_length.
      rewrite (firstn_all2 (n := length d - n1)) by lia.
      destruct (copy2buf_spec (skipn n1 d) mem 0 ltac:(lia)) as (mem2 & E2 & L2 & N2).
      rewrite E2. simpl. eexists. split; [reflexivity|]. split; [reflexivity|].
      apply G.
      * congruence.
      * unfold norm. replace (length q + length d =? 0) with false by lia.
        destruct (b_cur b + (length q + length d) <=? T) eqn:E3; lia.
      * intros i Hi. rewrite N2, N. rewrite Lf, Ls. simpl.
        destruct (i <? b_cur b) eqn:Ei.
        -- destruct (i <? length d - n1) eqn:F.
           ++ replace ((length q <=? T - b_cur b + i) && (T - b_cur b + i <? length q + length d)) with true by lia.
              rewrite nth_error_skipn_some. f_equal. lia.
           ++ replace ((b_alv b <=? i) && (i <? b_alv b + n1)) with false by lia.
              replace (T - b_cur b + i <? length q + length d) with false by lia.
              rewrite andb_false_r. reflexivity.
        -- replace (i <? length d - n1) with false by lia.
           destruct ((b_alv b <=? i) && (i <? b_alv b + n1)) eqn:F.
           ++ replace ((length q <=? i - b_cur b) && (i - b_cur b <? length q + length d)) with true by lia.
              rewrite nth_error_firstn_lt by lia. f_equal. lia.
           ++ replace ((length q <=? i - b_cur b) && (i - b_cur b <? length q + length d)) with false by lia.
              reflexivity.
Qed.

(** ** Refinement *)
Record Rsys (T : nat) (s : sys A) (f : fifo A) : Prop := {
  Y_rep : rep T (y_buf s) (f_q f) (total (f_pend f));
  Y_pos : Forall (fun n => 1 <= n) (f_pend f);
  Y_held : match f_held f with
           | Some n => 1 <= n /\ n <= length (f_q f) /\ y_held s = Some (rng T (b_cur (y_buf s)) n)
           | None => True
           end
}.

Lemma remove_first_total n : forall l l', remove_first n l = Some l' ->
  total l = n + total l' /\ (forall P : nat -> Prop, Forall P l -> Forall P l').
Proof.
  induction l as [|x l IH]; intros l' H; simpl in H; [discriminate|].
  destruct (Nat.eqb_spec x n) as [->|].
  - injection H as <-. split; [reflexivity|]. intros P F. inversion F; assumption.
  - destruct (remove_first n l) as [r|] eqn:E; [|discriminate]. injection H as <-.
    destruct (IH _ eq_refl) as [H1 H2]. split; [simpl; lia|].
    intros P F. inversion F; subst. constructor; auto.
Qed.

Lemma step_refines T may s f o f' x :
  (forall g, may g = true -> not_all_claimed T g = true) ->
  Rsys T s f -> fifo_step T may f o = Some (f', x) ->
  exists s', sys_step s o = Some (s', x) /\ Rsys T s' f'.
Proof.
  intros Hmay [HR HP HH] H. destruct o as [n|k|k|n|d]; cbn [fifo_step sys_step] in *.
  - destruct (f_held f) as [m|] eqn:Eh; [discriminate|].
    rewrite (acquire_spec _ _ _ _ n HR).
    destruct ((1 <=? n) && (n <=? length (f_q f))) eqn:E; injection H as <- <-.
    + eexists. split; [reflexivity|]. constructor; simpl; auto. split; [lia|]. split; [lia|reflexivity].
    + exists s. split; [reflexivity|]. constructor; auto. rewrite Eh. exact I.
  - destruct (f_held f) as [m|] eqn:Eh; [|discriminate]. destruct HH as (H1 & H2 & H3).
    destruct (k <? m) eqn:E; [|discriminate].
    destruct (nth_error (f_q f) k) as [v|] eqn:Ev; [|discriminate]. injection H as <- <-.
    rewrite H3. simpl. rewrite (read_spec _ _ _ _ m k v HR H2 ltac:(lia) Ev). simpl.
    exists s. split; [reflexivity|]. constructor; auto. rewrite Eh. auto.
  - destruct (f_held f) as [m|] eqn:Eh; [|discriminate]. destruct HH as (H1 & H2 & H3).
    destruct ((1 <=? k) && (k <=? m)) eqn:E; [|discriminate]. injection H as <- <-.
    rewrite H3. simpl. eexists. split; [reflexivity|]. constructor; simpl; auto.
    apply release_spec; auto; lia.
  - destruct ((1 <=? n) && may f) eqn:E; [|discriminate]. injection H as <- <-.
    apply andb_true_iff in E. destruct E as [E1 E2]. specialize (Hmay _ E2).
    unfold not_all_claimed in Hmay.
    destruct (claim_spec _ _ _ _ n HR ltac:(lia) ltac:(lia)) as (b' & Eb & Ec & HR').
    rewrite Eb. eexists. split; [reflexivity|]. constructor; simpl.
    + destruct (Nat.min n (T - (length (f_q f) + total (f_pend f))) =? 0) eqn:Ez.
      * apply Nat.eqb_eq in Ez. rewrite Ez, Nat.add_0_r in HR'. assumption.
      * simpl. rewrite Nat.add_comm. assumption.
    + destruct (Nat.min n (T - (length (f_q f) + total (f_pend f))) =? 0) eqn:Ez; auto.
      constructor; auto. lia.
    + rewrite Ec. assumption.
  - destruct (remove_first (length d) (f_pend f)) as [p|] eqn:Er; [|discriminate]. cbn [obind] in H.
    destruct (1 <=? length d) eqn:E1; [|discriminate]. injection H as <- <-.
    destruct (remove_first_total _ _ _ Er) as [Ht HF].
    destruct (fill_spec _ _ _ _ d HR ltac:(lia) ltac:(lia)) as (b' & Eb & Ec & HR').
    rewrite Eb. simpl. eexists. split; [reflexivity|]. constructor; simpl.
    + replace (total (f_pend f) - length d) with (total p) in HR' by lia. assumption.
    + auto.
    + rewrite Ec. destruct (f_held f); [|exact I]. rewrite app_length. intuition lia.
Qed.

Lemma run_refines T may : (forall g, may g = true -> not_all_claimed T g = true) ->
  forall os s f outs, Rsys T s f -> fifo_run T may f os = Some outs -> sys_run s os = Some outs.
Proof.
  intros Hmay. induction os as [|o os IH]; intros s f outs HR H; simpl in *; [assumption|].
  destruct (fifo_step T may f o) as [[f' x]|] eqn:E; [|discriminate]. simpl in H.
  destruct (step_refines _ _ _ _ _ _ _ Hmay HR E) as (s' & Es & HR'). rewrite Es. simpl.
  destruct (fifo_run T may f' os) as [xs|] eqn:Ex; [|discriminate]. simpl in H.
  rewrite (IH _ _ _ HR' Ex). assumption.
Qed.

Lemma init_rep (mem : list A) :
  0 < length mem -> Rsys (length mem) (mkSys (db_new mem) None) fifo_empty.
Proof.
  intros H. constructor; simpl; auto. constructor; cbn [b_mem b_cur b_alv b_alc b_empty]; auto; try (simpl; lia).
  intros j v Hj. destruct j; discriminate.
Qed.

Lemma fifo_one_producer (mem : list A) os outs :
  0 < length mem -> fifo_run (length mem) one_producer fifo_empty os = Some outs ->
  sys_run (mkSys (db_new mem) None) os = Some outs.
Proof.
  intros Hm H. eapply (run_refines (length mem) one_producer); [|apply init_rep; assumption|exact H].
  intros g Hg. unfold one_producer in Hg. unfold not_all_claimed.
  destruct (f_pend g); [|discriminate]. change (total []) with 0. lia.
Qed.

Lemma fifo_many_producers (mem : list A) os outs :
  0 < length mem -> fifo_run (length mem) (not_all_claimed (length mem)) fifo_empty os = Some outs ->
  sys_run (mkSys (db_new mem) None) os = Some outs.
Proof.
  intros Hm H. eapply run_refines; [|apply init_rep; assumption|exact H]. auto.
Qed.

Lemma after_refines T may : (forall g, may g = true -> not_all_claimed T g = true) ->
  forall os s f f', Rsys T s f -> fifo_after T may f os = Some f' ->
  exists s', sys_after s os = Some s' /\ Rsys T s' f'.
Proof.
  intros Hmay. induction os as [|o os IH]; intros s f f' HR H; simpl in *.
  - injection H as <-. eauto.
  - destruct (fifo_step T may f o) as [[f1 x]|] eqn:E; [|discriminate]. simpl in H.
    destruct (step_refines _ _ _ _ _ _ _ Hmay HR E) as (s' & Es & HR'). rewrite Es. simpl. eauto.
Qed.

Lemma in_rng T cur n i : cur < T -> n <= T -> in_range (rng T cur n) i ->
  exists k, k < n /\ i = cellpos T cur k.
Proof.
  intros Hc Hn H. unfold in_range, rng in H. unfold cellpos.
  destruct (cur + n <=? T) eqn:E; simpl in H.
  - exists (i - cur). split; [lia|]. destruct (cur + (i - cur) <? T) eqn:E1; lia.
  - destruct H as [H|H].
    + exists (i - cur). split; [lia|]. destruct (cur + (i - cur) <? T) eqn:E1; lia.
    + exists (i + T - cur). split; [lia|]. destruct (cur + (i + T - cur) <? T) eqn:E1; lia.
Qed.

Lemma fill_disjoint (mem : list A) may os f :
  (forall g, may g = true -> not_all_claimed (length mem) g = true) ->
  0 < length mem -> fifo_after (length mem) may fifo_empty os = Some f ->
  exists s, sys_after (mkSys (db_new mem) None) os = Some s /\
    forall n r d, f_held f = Some n -> In (length d) (f_pend f) ->
    y_held s = Some r ->
    exists s', sys_step s (Fill d) = Some (s', OUnit) /\
    forall i, in_range r i -> nth_error (b_mem (y_buf s')) i = nth_error (b_mem (y_buf s)) i.
Proof.
  intros Hmay Hm H.
  destruct (after_refines _ _ Hmay _ _ _ _ (init_rep mem Hm) H) as (s & Es & HR).
  exists s. split; [assumption|]. intros n r d Hh Hin Hr.
  destruct HR as [HR HP HH]. rewrite Hh in HH. destruct HH as (H1 & H2 & H3).
  assert (1 <= length d) as Hd by (rewrite Forall_forall in HP; auto).
  assert (length d <= total (f_pend f)) as Hd2.
  { clear -Hin. induction (f_pend f) as [|x l IH]; simpl in *; [tauto|]. destruct Hin as [->|]; [lia|]. apply IH in H. lia. }
  destruct (fill_spec _ _ _ _ d HR Hd Hd2) as (b' & Eb & Ec & HR').
  simpl. rewrite Eb. simpl. eexists. split; [reflexivity|].
  intros i Hi. rewrite H3 in Hr. injection Hr as <-.
  pose proof HR as [Q1 Q2 Q3 Q4 _ _ _ Q5].
  apply in_rng in Hi; [|assumption|lia].
  destruct Hi as (k & Hk & ->).
  destruct (nth_error (f_q f) k) as [v|] eqn:Ev; [|apply nth_error_None in Ev; lia].
  rewrite (Q5 _ _ Ev). simpl. rewrite <- Ec. destruct HR' as [_ _ _ _ _ _ _ Q6]. apply Q6.
  rewrite nth_error_app1 by lia. assumption.
Qed.

Lemma one_not_all T g : 0 < T -> @one_producer A g = true -> not_all_claimed T g = true.
Proof.
  intros HT Hg. unfold one_producer in Hg. unfold not_all_claimed.
  destruct (f_pend g); [|discriminate]. change (total []) with 0. lia.
Qed.
End Proofs.
