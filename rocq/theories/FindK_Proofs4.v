From Coq Require Import Permutation Sorted.
From Verif Require Import Base BaseLemmas Workers_Model Workers_Spec Kern_Spec FindK_Model FindK_Spec FindK_Proofs FindK_Proofs2 FindK_Proofs3.

(** ** The layout of the helper *)
Lemma hlpr_layout s1 s2 k : 0 < s2 -> s2 <= s1 ->
  hlpr_k s1 s2 (hlpr_numel s1 s2 k) = k /\ k * s1 + k * s2 <= hlpr_numel s1 s2 k * s1.
Proof.
  intros H2 H1. unfold hlpr_k, hlpr_numel. destruct (Nat.eqb_spec s1 s2) as [->|Hne].
  - split; [rewrite Nat.mul_comm, Nat.div_mul; lia|nia].
  - assert (Hq : k * s2 <= s1 * ((k * s2 + s1 - 1) / s1) < k * s2 + s1).
    { pose proof (Nat.div_mod (k * s2 + s1 - 1) s1 ltac:(lia)) as D. pose proof (Nat.mod_upper_bound (k * s2 + s1 - 1) s1 ltac:(lia)). lia. }
    set (q := (k * s2 + s1 - 1) / s1) in *. split; [|nia].
    symmetry. apply (Nat.div_unique _ _ _ (s1 * q - k * s2)); nia.
Qed.

Section M.
Context {V : Type} (lt : V -> V -> bool) (bot : V) (ns : bool).

Definition upd1 (src : list (list V)) (bn : bool) (c : nat) (h : list (@column V)) : option (list (@column V)) :=
  do s <- bget src c; do old <- bget h c; do new <- find_k_column lt bot ns s old bn; bset h c new.

Lemma for_loop_fold {S} (f : nat -> S -> option S) n : forall lo s,
  for_loop lo n f s = fold_left (fun st c => do h <- st; f c h) (seq lo n) (Some s).
Proof.
  assert (N : forall l, fold_left (fun st c => do h <- st; f c h) l (@None S) = None) by (induction l; [reflexivity|assumption]).
  induction n as [|n IH]; intros lo s; [reflexivity|]. cbn [for_loop seq fold_left obind]. destruct (f lo s) as [s'|]; cbn [obind]; [apply IH|rewrite N; reflexivity].
Qed.

Lemma find_k_flat parts src bn : forall hlpr,
  find_k lt bot ns parts src hlpr bn = fold_left (fun st c => do h <- st; upd1 src bn c h) (flat_map idxs parts) (Some hlpr).
Proof.
  assert (N : forall l, fold_left (fun st c => do h <- st; upd1 src bn c h) l None = None) by (induction l; [reflexivity|assumption]).
  assert (N' : forall l, fold_left (fun st p => do h <- st;
    for_loop (r_ofs p) (r_cnt p) (fun c h => do s <- bget src c; do old <- bget h c;
      do new <- find_k_column lt bot ns s old bn; bset h c new) h) l None = None) by (induction l; [reflexivity|assumption]).
  unfold find_k. induction parts as [|p parts IH]; intros h; [reflexivity|]. cbn [fold_left flat_map obind].
  rewrite fold_left_app, for_loop_fold. unfold idxs at 2.
  change (fun (st : option (list column)) (c : nat) => do h0 <- st; do s <- bget src c; do old <- bget h0 c; do new <- find_k_column lt bot ns s old bn; bset h0 c new)
    with (fun st c => do h <- st; upd1 src bn c h).
  destruct (fold_left _ (seq _ _) (Some h)) as [h'|]; [apply IH|]. rewrite N, N'. reflexivity.
Qed.

Lemma fold_upd src bn (new : nat -> @column V) l : forall h, NoDup l ->
  (forall c, In c l -> exists s old, nth_error src c = Some s /\ nth_error h c = Some old /\ find_k_column lt bot ns s old bn = Some (new c)) ->
  exists h', fold_left (fun st c => do h <- st; upd1 src bn c h) l (Some h) = Some h' /\ length h' = length h /\
    forall c, nth_error h' c = if in_dec Nat.eq_dec c l then Some (new c) else nth_error h c.
Proof.
  induction l as [|c l IH]; intros h HN HC.
  - exists h. split; [reflexivity|]. split; [reflexivity|]. intros c. destruct (in_dec _ c []) as [[]|]. reflexivity.
  - inversion HN as [|? ? HN1 HN2]; subst. destruct (HC c (or_introl eq_refl)) as (s & old & E1 & E2 & E3).
    cbn [fold_left obind]. unfold upd1 at 2, bget. rewrite E1. cbn [obind]. rewrite E2. cbn [obind]. rewrite E3. cbn [obind].
    destruct (bset_lt h c (new c)) as [h1 E4]; [apply nth_error_Some; congruence|]. rewrite E4.
    destruct (bset_some _ _ _ _ E4) as (B1 & B2 & B3).
    destruct (IH h1 HN2) as (h' & F1 & F2 & F3).
    { intros c' Hc'. destruct (HC c' (or_intror Hc')) as (s' & old' & G1 & G2 & G3). exists s', old'. split; [exact G1|]. split; [|exact G3].
      specialize (B3 c'). destruct (Nat.eqb_spec c' c) as [Ec|_]; [rewrite Ec in Hc'; contradiction|]. unfold bget in B3. congruence. }
    exists h'. split; [exact F1|]. split; [rewrite F2; exact B2|]. intros c'. rewrite F3. specialize (B3 c'). unfold bget in B3.
    destruct (in_dec Nat.eq_dec c' l) as [Hi|Hi], (in_dec Nat.eq_dec c' (c :: l)) as [Hj|Hj]; try reflexivity.
    + exfalso. apply Hj. right. exact Hi.
    + destruct Hj as [<-|Hj]; [rewrite Nat.eqb_refl in B3; exact B3|contradiction].
    + destruct (Nat.eqb_spec c' c) as [Ec|_]; [exfalso; apply Hj; left; symmetry; exact Ec|exact B3].
Qed.

(** every column of the helper becomes what processing it alone makes of it *)
Lemma find_k_columns parts src hlpr bn : length hlpr = length src -> tiles parts (length src) ->
  (forall c s old, nth_error src c = Some s -> nth_error hlpr c = Some old -> exists new, find_k_column lt bot ns s old bn = Some new) ->
  exists h', find_k lt bot ns parts src hlpr bn = Some h' /\ length h' = length src /\
    forall c s old, nth_error src c = Some s -> nth_error hlpr c = Some old -> nth_error h' c = find_k_column lt bot ns s old bn.
Proof.
  intros HL [HP _] HC. rewrite find_k_flat.
  pose (new := fun c => match nth_error src c, nth_error hlpr c with
    | Some s, Some old => match find_k_column lt bot ns s old bn with Some x => x | None => ([], []) end | _, _ => ([], []) end).
  assert (IN : forall c, In c (flat_map idxs parts) <-> c < length src).
  { intros c. split; intros H.
    - apply (Permutation_in _ HP) in H. apply in_seq in H. lia.
    - apply (Permutation_in _ (Permutation_sym HP)), in_seq. lia. }
  destruct (fold_upd src bn new (flat_map idxs parts) hlpr) as (h' & F1 & F2 & F3).
  - apply (Permutation_NoDup (Permutation_sym HP)), seq_NoDup.
  - intros c Hc. apply IN in Hc. destruct (bget_lt src c Hc) as [s Es]. destruct (bget_lt hlpr c) as [old Eo]; [lia|].
    exists s, old. split; [exact Es|]. split; [exact Eo|]. unfold new, bget in *. rewrite Es, Eo. destruct (HC c s old Es Eo) as [x Ex]. rewrite Ex. reflexivity.
  - exists h'. split; [exact F1|]. split; [congruence|]. intros c s old Es Eo. rewrite F3.
    destruct (in_dec Nat.eq_dec c (flat_map idxs parts)) as [Hi|Hi].
    + unfold new. rewrite Es, Eo. destruct (HC c s old Es Eo) as [x Ex]. rewrite Ex. reflexivity.
    + exfalso. apply Hi, IN. apply nth_error_Some. congruence.
Qed.
End M.

Section A.
Context {V : Type} (lt eqv : V -> V -> bool) (bot : V) (OK : order_ok lt eqv).

Lemma strictly_nth l : ascending_distinct lt bot l -> ~ In bot l -> strictly lt l.
Proof.
  induction l as [|a l IH]; intros HA HB; [constructor|]. constructor.
  - apply IH; [|intros H; apply HB; right; exact H]. intros i j x y Hij Hx Hy. exact (HA (S i) (S j) x y ltac:(lia) Hx Hy).
  - apply Forall_forall. intros b Hb. destruct (In_nth_error _ _ Hb) as [j Hj].
    destruct (HA 0 (S j) a b ltac:(lia) eq_refl Hj) as [H|[-> _]]; [exact H|]. exfalso. apply HB. left. reflexivity.
Qed.

(** the batch holds k different values *)
Lemma distinct_full k b0 more : 0 < k ->
  (exists l, NoDup l /\ length l = k /\ forall v, In v l -> In v b0 /\ proper lt bot v) ->
  ~ In bot (vals lt bot false k (b0 ++ more)) /\ strictly lt (vals lt bot false k (b0 ++ more)).
Proof.
  intros Hk (l & HN & HL & HP).
  destruct (find_k_first lt bot false (b0 ++ more) (repeat bot k, repeat None k) k Hk (repeat_length _ _) (repeat_length _ _)) as [_ LP].
  destruct (arun_best_distinct lt eqv bot OK k (b0 ++ more) Hk LP) as (B1 & _ & B3 & _ & B5).
  fold (vals lt bot false k (b0 ++ more)) in *. cbn [col fst] in *.
  change (map fst (arun lt false (repeat (bot, None) k) 0 (b0 ++ more))) with (vals lt bot false k (b0 ++ more)) in *.
  assert (NB : ~ In bot (vals lt bot false k (b0 ++ more))).
  { intros HB. assert (HI : incl (bot :: l) (vals lt bot false k (b0 ++ more))).
    { intros v [<-|Hv]; [exact HB|]. destruct (HP v Hv) as [H1 H2]. destruct (B5 v) as [H|H]; [apply in_or_app; left; exact H1|exact H|].
      specialize (H bot HB). unfold proper in H2. rewrite (lt_le lt eqv OK _ _ H2) in H. discriminate. }
    apply NoDup_incl_length in HI; [cbn [length] in HI; lia|]. constructor; [|exact HN].
    intros Hb. destruct (HP bot Hb) as [_ H]. unfold proper in H. rewrite (lt_irr lt eqv OK) in H. discriminate. }
  split; [exact NB|]. apply strictly_nth; assumption.
Qed.

Lemma ascending_strictly l : ascending lt l -> NoDup l -> strictly lt l.
Proof.
  induction l as [|a l IH]; intros HA HN; [constructor|]. inversion HN as [|? ? HN1 HN2]; subst. constructor.
  - apply IH; [|exact HN2]. intros i j x y Hij Hx Hy. exact (HA (S i) (S j) x y ltac:(lia) Hx Hy).
  - apply Forall_forall. intros b Hb. destruct (In_nth_error _ _ Hb) as [j Hj].
    pose proof (HA 0 (S j) a b ltac:(lia) eq_refl Hj) as H. destruct (lt a b) eqn:E; [reflexivity|].
    exfalso. apply HN1. rewrite (lt_eq lt eqv OK a b E H). exact Hb.
Qed.

Lemma map_fst_combine {X Y} (a : list X) (b : list Y) : length a = length b -> map fst (combine a b) = a.
Proof.
  revert b. induction a as [|x a IH]; intros [|y b] H; try discriminate; [reflexivity|]. cbn [combine map fst]. f_equal. apply IH. cbn in H. lia.
Qed.

Lemma repeats_full k b0 more : 0 < k -> k <= length b0 -> NoDup (b0 ++ more) -> (forall v, In v (b0 ++ more) -> proper lt bot v) ->
  ~ In bot (vals lt bot true k (b0 ++ more)) /\ strictly lt (vals lt bot true k (b0 ++ more)).
Proof.
  intros Hk HL HN HP. set (src := b0 ++ more) in *.
  assert (HLs : k <= length src) by (unfold src; rewrite app_length; lia).
  destruct (find_k_first lt bot true src (repeat bot k, repeat None k) k Hk (repeat_length _ _) (repeat_length _ _)) as [_ LP].
  destruct (arun_best lt eqv bot OK k src Hk LP) as (B1 & B2 & B3 & lo & B4 & B5).
  cbn [col fst snd] in *.
  change (map fst (arun lt true (repeat (bot, None) k) 0 src)) with (vals lt bot true k src) in *.
  set (cs := vals lt bot true k src) in *.
  apply (Permutation_map fst) in B4. rewrite !map_app in B4.
  rewrite map_fst_combine in B4 by (rewrite B2; exact B1).
  rewrite map_fst_combine in B4 by (rewrite map_length, seq_length; reflexivity).
  assert (ER : map fst (repeat (bot, @None nat) k) = repeat bot k) by (clear; induction k; [reflexivity|cbn [repeat map fst]; f_equal; assumption]).
  rewrite ER in B4.
  (* proper elements of both sides *)
  assert (PF : Permutation (filter (lt bot) cs ++ filter (lt bot) (map fst lo)) src).
  { assert (PF : forall (l l' : list V), Permutation l l' -> Permutation (filter (lt bot) l) (filter (lt bot) l')).
    { induction 1; cbn [filter]; [constructor| | |eapply perm_trans; eassumption].
      - destruct (lt bot x); [constructor|]; assumption.
      - destruct (lt bot x), (lt bot y); try constructor; reflexivity. }
    apply PF in B4. rewrite !filter_app in B4.
    assert (E1 : filter (lt bot) (repeat bot k) = []).
    { clear -OK. induction k; [reflexivity|]. cbn [repeat filter]. rewrite (lt_irr lt eqv OK). assumption. }
    assert (E2 : filter (lt bot) src = src).
    { clear -HP. induction src as [|a l IH]; [reflexivity|]. cbn [filter].
      pose proof (HP a (or_introl eq_refl)) as Ha. unfold proper in Ha. rewrite Ha.
      f_equal. apply IH. intros v Hv. apply HP. right. exact Hv. }
    rewrite E1, E2 in B4. exact B4. }
  assert (NB : ~ In bot cs).
  { intros HB. assert (EL : filter (lt bot) (map fst lo) = []).
    { assert (HF : forall v, In v (map fst lo) -> lt bot v = false).
      { intros v Hv. apply in_map_iff in Hv. destruct Hv as ([v' i] & <- & Hv). exact (B5 v' i bot Hv HB). }
      clear -HF. induction (map fst lo) as [|a l IH]; [reflexivity|]. cbn [filter]. rewrite (HF a (or_introl eq_refl)). apply IH. intros v Hv. apply HF. right. exact Hv. }
    rewrite EL, app_nil_r in PF. apply Permutation_length in PF.
    assert (HS : length (filter (lt bot) cs) < length cs).
    { clear -HB OK. induction cs as [|a l IH]; [destruct HB|]. cbn [filter length].
      assert (HLE : length (filter (lt bot) l) <= length l) by (clear; induction l as [|x l IH]; [cbn; lia|]; cbn [filter]; destruct (lt bot x); cbn [length]; lia).
      destruct HB as [->|HB]; [rewrite (lt_irr lt eqv OK); lia|]. specialize (IH HB). destruct (lt bot a); cbn [length]; lia. }
    lia. }
  split; [exact NB|]. apply ascending_strictly; [exact B3|].
  assert (EC : filter (lt bot) cs = cs).
  { assert (HB : forall v, In v cs -> lt bot v = true).
    { intros v Hv. assert (Hi : In v (repeat bot k ++ src)) by (apply (Permutation_in _ B4), in_or_app; left; exact Hv).
      apply in_app_or in Hi. destruct Hi as [Hi|Hi]; [|exact (HP v Hi)]. apply repeat_spec in Hi. subst v. contradiction. }
    clear -HB. induction cs as [|a l IH]; [reflexivity|]. cbn [filter]. rewrite (HB a (or_introl eq_refl)). f_equal. apply IH. intros v Hv. apply HB. right. exact Hv. }
  rewrite EC in PF. apply (Permutation_NoDup (Permutation_sym PF)) in HN. clear -HN.
  induction cs as [|a l IH]; [constructor|]. cbn [app] in HN. inversion HN as [|? ? H1 H2]; subst. constructor; [|exact (IH H2)].
  intros H. apply H1, in_or_app. left. exact H.
Qed.

Lemma aggregate_whole ns k b0 bs c : 0 < k -> length (fst c) = k -> length (snd c) = k -> enough lt bot ns k b0 bs ->
  exists c' D one, aggregate_all lt eqv bot ns b0 bs c = Some (c', D) /\
    find_k_column lt bot ns (b0 ++ concat bs) c false = Some one /\
    export_values D = rev (fst one) /\ Forall (located (b0 :: bs)) D.
Proof.
  intros Hk L1 L2 HE.
  assert (K : forall m, ~ In bot (vals lt bot ns k (b0 ++ concat (firstn m bs))) /\ strictly lt (vals lt bot ns k (b0 ++ concat (firstn m bs)))).
  { intros m. destruct ns.
    - destruct HE as (H1 & H2 & H3). rewrite <- (firstn_skipn m bs), concat_app, app_assoc in H2, H3.
      apply repeats_full; [exact Hk|exact H1| |].
      + clear -H2. induction (b0 ++ concat (firstn m bs)) as [|a l IH]; [constructor|]. cbn [app] in H2. inversion H2; subst. constructor; [|apply IH; assumption].
        intros H. apply H1, in_or_app. left. exact H.
      + intros v Hv. apply H3, in_or_app. left. exact Hv.
    - apply distinct_full; assumption. }
  destruct (aggregate_all_spec lt eqv bot ns OK k b0 bs c Hk L1 L2) as (c' & D & E1 & E2 & E3 & E4).
  - intros m. apply K.
  - intros w Hw ->. destruct (K 0) as [NB _]. cbn [firstn concat] in NB. rewrite app_nil_r in NB. exact (NB Hw).
  - destruct (find_k_first lt bot ns (b0 ++ concat bs) c k Hk L1 L2) as [F _].
    eexists c', D, _. split; [exact E1|]. split; [exact F|]. split; [exact E3|exact E4].
Qed.
End A.
