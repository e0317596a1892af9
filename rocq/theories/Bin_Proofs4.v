(** Sequence data. *)
From Verif Require Import Base BaseLemmas Kern_Model Smx_Model Smx_Spec Smx_Proofs TData_Model Bin_Model Bin_Spec Bin_Proofs Bin_Proofs2 Bin_Proofs3.
From Coq Require Import NArith Nnat Permutation.

(** ** Names *)
Lemma is_digit_iff b : is_digit b = true <-> digit b.
Proof. unfold is_digit, digit. rewrite andb_true_iff, !N.leb_le. reflexivity. Qed.
Lemma is_space_iff b : is_space b = true <-> space b.
Proof. unfold is_space, space. rewrite orb_true_iff, andb_true_iff, N.eqb_eq, !N.leb_le. reflexivity. Qed.

Lemma digits_decimal ds : forall acc rest, Forall digit ds ->
  match rest with b :: _ => ~ digit b | [] => True end ->
  digits acc (ds ++ rest) = (acc * 10 ^ Z.of_nat (length ds) + Z.of_N (decimal ds))%Z.
Proof.
  induction ds as [|d ds IH]; intros acc rest HD HR.
  - cbn [app length decimal]. rewrite Z.pow_0_r, Z.mul_1_r, Z.add_0_r. destruct rest as [|b rest]; [reflexivity|].
    cbn [digits]. destruct (is_digit b) eqn:E; [|reflexivity]. apply is_digit_iff in E. contradiction.
  - inversion HD as [|x l Hd HD']; subst. cbn [app digits].
    rewrite (proj2 (is_digit_iff d) Hd), IH by assumption. cbn [length decimal].
    rewrite Nat2Z.inj_succ, Z.pow_succ_r by lia. rewrite N2Z.inj_add, N2Z.inj_mul, N2Z.inj_pow.
    rewrite nat_N_Z. change (Z.of_N 10) with 10%Z. unfold digit in Hd. rewrite N2Z.inj_sub by lia.
    change (Z.of_N 48) with 48%Z. ring.
Qed.

Lemma split_digits l : exists ds rest, l = ds ++ rest /\ Forall digit ds /\
  match rest with b :: _ => ~ digit b | [] => True end.
Proof.
  induction l as [|b l (ds & rest & -> & HD & HR)]; [exists [], []; simpl; auto|].
  destruct (is_digit b) eqn:E.
  - apply is_digit_iff in E. exists (b :: ds), rest. simpl. auto.
  - exists [], (b :: ds ++ rest). simpl. split; [reflexivity|]. split; [constructor|].
    intros H. apply is_digit_iff in H. congruence.
Qed.

Lemma skip_space_app sp l : Forall space sp -> match l with b :: _ => ~ space b | [] => True end ->
  skip_space (sp ++ l) = l.
Proof.
  induction 1 as [|b sp Hb Hsp IH]; intros HL.
  - destruct l as [|b l]; [reflexivity|]. cbn [app skip_space]. destruct (is_space b) eqn:E; [|reflexivity].
    apply is_space_iff in E. contradiction.
  - cbn [app skip_space]. rewrite (proj2 (is_space_iff b) Hb). auto.
Qed.

Lemma split_space l : exists sp, l = sp ++ skip_space l /\ Forall space sp.
Proof.
  induction l as [|b l (sp & E & H)]; [exists []; simpl; auto|]. cbn [skip_space].
  destruct (is_space b) eqn:Eb.
  - apply is_space_iff in Eb. exists (b :: sp). simpl. split; [congruence|auto].
  - exists []. simpl. auto.
Qed.

Definition sign_of (neg : bool) (k : N) : Z := if neg then (- Z.of_N k)%Z else Z.of_N k.

Lemma unsigned_ok ds rest : ds <> [] -> Forall digit ds ->
  match rest with b :: _ => ~ digit b | [] => True end ->
  unsigned_number (ds ++ rest) = Some (Z.of_N (decimal ds)).
Proof.
  intros N1 HD HR. destruct ds as [|d ds]; [congruence|]. pose proof HD as HD0. inversion HD as [|x l Hd HD']; subst.
  unfold unsigned_number. cbn [app]. rewrite (proj2 (is_digit_iff d) Hd).
  change (d :: ds ++ rest) with ((d :: ds) ++ rest). rewrite digits_decimal by assumption.
  rewrite Z.mul_0_l. reflexivity.
Qed.

Lemma unsigned_inv l z : unsigned_number l = Some z ->
  exists ds rest, l = ds ++ rest /\ ds <> [] /\ Forall digit ds /\ z = Z.of_N (decimal ds) /\
    match rest with b :: _ => ~ digit b | [] => True end.
Proof.
  destruct (split_digits l) as (ds & rest & -> & HD & HR).
  destruct ds as [|d ds].
  - destruct rest as [|b rest]; [discriminate|]. unfold unsigned_number. cbn [app].
    destruct (is_digit b) eqn:E; [apply is_digit_iff in E; contradiction|discriminate].
  - rewrite unsigned_ok by (assumption || discriminate). intros E. injection E as <-.
    exists (d :: ds), rest. split; [reflexivity|]. split; [discriminate|]. auto.
Qed.

Lemma scan_class_ok name k : class_name name k -> scan_class (cstr name) = Some (Z.of_nat k).
Proof.
  intros (sign & HS & sp & ds & rest & HC & Hsp & N1 & HD & Hk & HR).
  rewrite (cstring_cstr _ _ HC). unfold scan_class. rewrite N.eqb_refl. unfold scan_number.
  destruct ds as [|d ds]; [congruence|]. pose proof HD as HD0. inversion HD as [|x l Hd HD']; subst.
  unfold digit in Hd.
  rewrite skip_space_app; [|exact Hsp|destruct HS as [->| ->]; simpl; unfold space; lia].
  destruct HS as [->| ->].
  - cbn [app]. destruct (N.eqb_spec d 43); [lia|]. destruct (N.eqb_spec d 45); [lia|].
    change (d :: ds ++ rest) with ((d :: ds) ++ rest). rewrite unsigned_ok by assumption. rewrite Hk. f_equal. lia.
  - cbn [app]. rewrite N.eqb_refl.
    change (d :: ds ++ rest) with ((d :: ds) ++ rest). rewrite unsigned_ok by assumption. rewrite Hk. f_equal. lia.
Qed.

Lemma scan_class_inv name z : scan_class (cstr name) = Some z ->
  exists sign neg k, (sign = [] \/ sign = [43%N] \/ sign = [45%N]) /\ numbered name sign k /\
    z = sign_of neg k /\ (neg = true <-> sign = [45%N]).
Proof.
  unfold scan_class. pose proof (cstr_spec name) as HC. destruct (cstr name) as [|b l]; [discriminate|].
  destruct (N.eqb_spec b 99) as [->|]; [|discriminate]. unfold scan_number.
  destruct (split_space l) as (sp & El & Hsp). rewrite El in HC. destruct (skip_space l) as [|b l'] eqn:Es; [discriminate|].
  destruct (N.eqb_spec b 43) as [->|H43].
  - intros E. apply unsigned_inv in E. destruct E as (ds & rest & -> & N1 & HD & -> & HR).
    exists [43%N], false, (decimal ds). split; [auto|]. split; [|split; [reflexivity|split; discriminate]].
    exists sp, ds, rest. auto 10.
  - destruct (N.eqb_spec b 45) as [->|H45].
    + destruct (unsigned_number l') as [u|] eqn:E; [|discriminate]. simpl. intros Q. injection Q as <-.
      apply unsigned_inv in E. destruct E as (ds & rest & -> & N1 & HD & -> & HR).
      exists [45%N], true, (decimal ds). split; [auto|]. split; [|split; [reflexivity|split; reflexivity]].
      exists sp, ds, rest. auto 10.
    + intros E. apply unsigned_inv in E. destruct E as (ds & rest & Eb & N1 & HD & -> & HR).
      exists [], false, (decimal ds). split; [auto|]. split; [|split; [reflexivity|split; discriminate]].
      exists sp, ds, rest. rewrite Eb in HC. auto 10.
Qed.

(** ** Counting *)
Lemma of_class_cons k f ts j : of_class ((k, f) :: ts) j = if k =? j then f :: of_class ts j else of_class ts j.
Proof. unfold of_class. simpl. destruct (k =? j); reflexivity. Qed.
Lemma of_class_app a b j : of_class (a ++ b) j = of_class a j ++ of_class b j.
Proof.
  unfold of_class. induction a as [|t a IH]; [reflexivity|]. simpl.
  destruct (fst t =? j); simpl; rewrite IH; reflexivity.
Qed.

Lemma sum_add (g h : nat -> N) l :
  fold_right N.add 0%N (map (fun j => (g j + h j)%N) l) =
  (fold_right N.add 0%N (map g l) + fold_right N.add 0%N (map h l))%N.
Proof. induction l as [|a l IH]; [reflexivity|]. cbn [map fold_right]. rewrite IH. lia. Qed.

Lemma sum_indicator k n : forall lo, lo <= k < lo + n ->
  fold_right N.add 0%N (map (fun j => if k =? j then 1%N else 0%N) (seq lo n)) = 1%N.
Proof.
  induction n as [|n IH]; intros lo H; [lia|]. cbn [seq map fold_right].
  destruct (Nat.eqb_spec k lo) as [->|Hne].
  - assert (Z : forall a m, lo < a -> fold_right N.add 0%N (map (fun j => if lo =? j then 1%N else 0%N) (seq a m)) = 0%N).
    { clear. intros a m. revert a. induction m as [|m IH]; intros a Ha; [reflexivity|]. cbn [seq map fold_right].
      destruct (Nat.eqb_spec lo a); [lia|]. rewrite IH by lia. reflexivity. }
    rewrite Z by lia. reflexivity.
  - rewrite IH by lia. reflexivity.
Qed.

Lemma counts_sum n ts : (forall k f, In (k, f) ts -> 1 <= k <= n) ->
  fold_right N.add 0%N (class_counts n ts) = N.of_nat (length ts).
Proof.
  induction ts as [|[k f] ts IH]; intros H.
  - unfold class_counts. cbn [length]. generalize (seq 0 n) as l. induction l as [|a l IH]; [reflexivity|].
    cbn [map fold_right]. rewrite IH. reflexivity.
  - assert (E : class_counts n ((k, f) :: ts) =
      map (fun j => ((if Nat.eqb (Nat.sub k 1) j then 1%N else 0%N) + N.of_nat (length (of_class ts (S j))))%N) (seq 0 n)).
    { unfold class_counts. apply map_ext. intros j. rewrite of_class_cons.
      destruct (H k f (or_introl eq_refl)) as [H1 _].
      destruct (Nat.eqb_spec k (S j)); destruct (Nat.eqb_spec (k - 1) j); try lia. simpl length. lia. }
    rewrite E, sum_add. rewrite (sum_indicator (k - 1) n 0) by (destruct (H k f (or_introl eq_refl)); lia).
    unfold class_counts in IH. rewrite IH by (intros; eapply H; right; eauto). cbn [length]. lia.
Qed.

(** ** The class table *)
Lemma read_classes_ok cnt : forall tl, Forall (fun c => 0 < c < 2 ^ 16)%N cnt ->
  read_classes (length cnt) (concat (map (enc_int 2) cnt) ++ tl) = (Success, cnt, tl).
Proof.
  induction cnt as [|c cnt IH]; intros tl H; [reflexivity|]. inversion H as [|x l Hc Hl]; subst.
  cbn [length read_classes map concat]. rewrite <- app_assoc.
  rewrite (fread_app _ _ 2) by (rewrite enc_int_length; reflexivity).
  rewrite le_enc by (simpl; lia). destruct (N.eqb_spec c 0); [lia|]. rewrite IH by assumption. reflexivity.
Qed.

Lemma read_classes_inv n : forall f cnt f1, Forall is_byte f -> read_classes n f = (Success, cnt, f1) ->
  f = concat (map (enc_int 2) cnt) ++ f1 /\ length cnt = n /\ Forall (fun c => 0 < c)%N cnt.
Proof.
  induction n as [|n IH]; intros f cnt f1 B E.
  - simpl in E. injection E as <- <-. auto.
  - cbn [read_classes] in E. destruct (fread 2 f) as [[d f2]|] eqn:Ef; [|discriminate].
    apply fread_inv in Ef. destruct Ef as [-> L]. apply Forall_app in B. destruct B as [Bd B].
    destruct (N.eqb_spec (le d) 0); [discriminate|].
    destruct (read_classes n f2) as [[c l] f3] eqn:E2. injection E as -> <- ->.
    destruct (IH _ _ _ B E2) as (Q1 & Q2 & Q3). cbn [map concat length]. split; [|split; [congruence|constructor; [lia|assumption]]].
    rewrite <- app_assoc, <- Q1. f_equal. pose proof (enc_le d Bd) as Z. replace (length d) with 2 in Z by lia. congruence.
Qed.

Section B.
Context {A : Type} (one : A) (native : N) (dec : N -> list N -> A).
Implicit Types (m : smx A) (me : mem_env A).

Notation holds := (holds_field one dec).

Lemma first_empty_app (l1 : list (smx A)) n : Forall (fun m => empty m = false) l1 ->
  first_empty (l1 ++ repeat init n) = match n with O => None | S _ => Some (length l1) end.
Proof.
  induction 1 as [|m l1 Hm Hl IH]; [destruct n; reflexivity|]. cbn [app first_empty]. rewrite Hm, IH.
  destruct n; reflexivity.
Qed.

(** A class: the matrices filled so far, then empty ones *)
Definition filling (l : list (smx A)) (fs : list field) (n : nat) : Prop :=
  exists l1, l = l1 ++ repeat init n /\ Forall2 (fun m f => holds m f false) l1 fs.

Lemma filling_nonempty l1 fs : Forall2 (fun m f => holds m f false) l1 fs -> Forall (fun m => empty m = false) l1.
Proof. induction 1; constructor; auto. eapply holds_nonempty; eauto. Qed.

Lemma bset_app_mid {T} (l1 : list T) x l2 v : bset (l1 ++ x :: l2) (length l1) v = Some (l1 ++ v :: l2).
Proof. induction l1 as [|y l1 IH]; [reflexivity|]. cbn [app length bset]. rewrite IH. reflexivity. Qed.
Lemma bget_app_mid {T} (l1 : list T) x l2 : bget (l1 ++ x :: l2) (length l1) = Some x.
Proof. induction l1 as [|y l1 IH]; [reflexivity|]. exact IH. Qed.

Lemma fresh_init0 : fresh (@init A).
Proof. apply (fresh_init false). Qed.

Lemma seq_loop_ok (todo : list (nat * field)) : forall ms cs q done tl,
  (forall k l, bget q k = Some l -> filling l (of_class done (S k)) (length (of_class todo (S k)))) ->
  (forall k f, In (k, f) todo -> 1 <= k <= length q /\ (Z.of_nat k < 2 ^ 31)%Z /\ wf_field f /\ countable (f_rows f) (f_cols f) /\ class_name (f_name f) k) ->
  (forall i, ms i <> None) -> (forall i, cs i = true) ->
  exists q', seq_loop one native dec (length todo) ms cs q (concat (map (fun t => bytes_of_field (snd t)) todo) ++ tl) =
    Some (Success, q', false) /\ holds_seqs one dec q' (length q) (done ++ todo).
Proof.
  induction todo as [|[k f] todo IH]; intros ms cs q done tl HQ HT HM HC.
  - exists q. split; [reflexivity|]. split; [reflexivity|]. intros k l Hl. rewrite app_nil_r.
    destruct (HQ k l Hl) as (l1 & -> & H). cbn [repeat length of_class map filter]. rewrite app_nil_r. exact H.
  - destruct (HT k f (or_introl eq_refl)) as ((K1 & K2) & K3 & W & Cn & Hn).
    cbn [length seq_loop map concat snd]. rewrite <- app_assoc.
    pose proof (wf_entry f W) as [EP LP]. rewrite bytes_split.
    rewrite (fread_app _ _ 24) by (rewrite LP; reflexivity). rewrite EP. cbn [entry_of e_name].
    rewrite (scan_class_ok _ _ Hn).
    assert (G : (- 2 ^ 31 <=? Z.of_nat k)%Z && (Z.of_nat k <? 2 ^ 31)%Z = true).
    { apply andb_true_intro. split; [apply Z.leb_le; lia|apply Z.ltb_lt; lia]. }
    rewrite G. cbn [guard obind]. destruct (Z.ltb_spec (Z.of_nat k) 1); [lia|].
    replace (Z.to_nat (Z.of_nat k - 1)) with (k - 1) by lia.
    destruct (bget_lt q (k - 1)) as (l & El); [lia|].
    destruct (HQ (k - 1) l El) as (l1 & El1 & H1). replace (S (k - 1)) with k in * by lia.
    rewrite of_class_cons, Nat.eqb_refl in El1. cbn [length repeat] in El1.
    unfold next_mtx. unfold bget in El. rewrite El. rewrite El1.
    change (init :: repeat init (length (of_class todo k))) with (repeat (@init A) (S (length (of_class todo k)))).
    rewrite (first_empty_app l1 _ (filling_nonempty _ _ H1)).
    change (bget q (k - 1)) with (nth_error q (k - 1)). rewrite El. cbn [obind]. rewrite El1. cbn [repeat].
    rewrite bget_app_mid. cbn [obind].
    rewrite <- bytes_split.
    destruct (read_field_ok one native dec (ms 0) (cs 0) init false f
               (concat (map (fun t => bytes_of_field (snd t)) todo) ++ tl) None fresh_init0 ltac:(discriminate) W Cn (HM 0) (or_introl (HC 0)) eq_refl)
      as (m2 & E & Hm2).
    rewrite E. cbn [obind rd_m]. rewrite bset_app_mid. cbn [obind].
    destruct (bset_lt q (k - 1) (l1 ++ m2 :: repeat init (length (of_class todo k)))) as (q1 & E1); [lia|].
    rewrite E1. cbn [obind rd_code is_success negb rd_rest rd_leak orb].
    destruct (bset_some _ _ _ _ E1) as (_ & L1 & G1).
    destruct (IH (fun i => ms (S i)) (fun i => cs (S i)) q1 (done ++ [(k, f)]) tl) as (q' & E2 & L2 & H2).
    + intros j l' Hl'. rewrite of_class_app, of_class_cons. rewrite G1 in Hl'.
      destruct (Nat.eqb_spec j (k - 1)) as [->|Hj].
      * injection Hl' as <-. replace (S (k - 1)) with k by lia. rewrite Nat.eqb_refl.
        exists (l1 ++ [m2]). split; [rewrite <- app_assoc; reflexivity|].
        apply Forall2_app; [exact H1|]. constructor; [exact Hm2|constructor].
      * destruct (Nat.eqb_spec k (S j)); [lia|].
        destruct (HQ j l' Hl') as (l0 & -> & H0). exists l0. rewrite of_class_cons.
        destruct (Nat.eqb_spec k (S j)); [lia|]. split; [reflexivity|].
        change (of_class [] (S j)) with (@nil field). rewrite app_nil_r. exact H0.
    + intros j g Hj. destruct (HT j g (or_intror Hj)) as (A1 & A2 & A3). rewrite L1. auto.
    + intros i. apply HM.
    + intros i. apply HC.
    + rewrite E2. cbn [obind]. exists q'. split; [reflexivity|]. split; [congruence|].
      rewrite <- app_assoc in H2. exact H2.
Qed.

Lemma existsb_false_intro {T} (p : T -> bool) l : Forall (fun x => p x = false) l -> existsb p l = false.
Proof. induction 1; [reflexivity|]. simpl. rewrite H. exact IHForall. Qed.

Theorem seq_round_trip ms cs n tagged tl :
  wf_seq n tagged -> (forall k f, In (k, f) tagged -> countable (f_rows f) (f_cols f)) ->
  (forall i, ms i <> None) -> (forall i, cs i = true) ->
  exists q, read_seq one native dec ms cs [] (seq_bytes n tagged ++ tl) = Some (Success, q, false) /\
    holds_seqs one dec q n tagged.
Proof.
  intros (Hn & HL & HNE & HT) HC HM HV. unfold read_seq, seq_bytes. rewrite <- app_assoc.
  rewrite read_header_bytes by lia. unfold read_into_seq. cbn [h_fields h_classes].
  assert (Hlen : 0 < length tagged).
  { destruct tagged as [|]; [exfalso; apply (HNE 0 Hn); reflexivity|simpl; lia]. }
  destruct (N.leb_spec (N.of_nat (length tagged) + N.of_nat n) (N.of_nat n)); [lia|].
  rewrite Nat2N.id, <- app_assoc.
  assert (Lc : length (class_counts n tagged) = n) by (unfold class_counts; rewrite map_length, seq_length; reflexivity).
  pose proof (counts_sum n tagged (fun k f H => proj1 (HT k f H))) as HS.
  assert (HP : Forall (fun c => 0 < c < 2 ^ 16)%N (class_counts n tagged)).
  { apply Forall_forall. intros c Hc.
    assert (Le : (c <= fold_right N.add 0 (class_counts n tagged))%N).
    { clear - Hc. induction (class_counts n tagged) as [|x l IH]; [destruct Hc|]. cbn [fold_right].
      destruct Hc as [->|Hc]; [lia|]. specialize (IH Hc). lia. }
    split; [|lia]. unfold class_counts in Hc. apply in_map_iff in Hc. destruct Hc as (j & <- & Hj).
    apply in_seq in Hj. specialize (HNE j ltac:(lia)). destruct (of_class tagged (S j)); [congruence|simpl; lia]. }
  replace (read_classes n) with (read_classes (length (class_counts n tagged))) by (rewrite Lc; reflexivity).
  rewrite read_classes_ok by exact HP. cbn [is_success negb]. rewrite HS, N.eqb_refl. cbn [negb].
  assert (PA : prealloc_classes [] (class_counts n tagged) =
               (true, map (fun c => repeat (@init A) (N.to_nat c)) (class_counts n tagged))).
  { unfold prealloc_classes. destruct (class_counts n tagged); [simpl in Lc; lia|reflexivity]. }
  rewrite PA. cbn [negb]. rewrite Nat2N.id.
  set (q0 := map _ (class_counts n tagged)).
  assert (L0 : length q0 = n) by (unfold q0; rewrite map_length; exact Lc).
  destruct (seq_loop_ok tagged ms cs q0 [] tl) as (q & E & HQ); auto.
  - intros k l Hl. unfold q0, bget in Hl.
    rewrite nth_error_map in Hl. unfold class_counts in Hl. rewrite nth_error_map in Hl.
    destruct (nth_error (seq 0 n) k) as [j|] eqn:Ej; [|discriminate]. simpl in Hl. injection Hl as <-.
    assert (Hk : k < n) by (rewrite <- (seq_length n 0); apply nth_error_Some; congruence).
    rewrite (nth_error_nth' _ 0) in Ej by (rewrite seq_length; exact Hk).
    rewrite seq_nth in Ej by exact Hk. injection Ej as <-. rewrite Nat2N.id. exists []. split; [reflexivity|constructor].
  - intros k f Hk. destruct (HT k f Hk) as (A1 & A2 & A3). rewrite L0. split; [exact A1|].
    split; [lia|]. split; [exact A2|]. split; [eapply HC; eauto|exact A3].
  - rewrite E. cbn [obind is_success negb]. rewrite L0 in HQ. cbn [app] in HQ.
    exists q. split; [|exact HQ]. destruct HQ as [LQ HQ].
    assert (SE : seq_empty q = false).
    { unfold seq_empty. destruct q as [|e q]; [simpl in LQ; lia|].
      apply existsb_false_intro. apply Forall_forall. intros l Hl. apply In_nth_error in Hl. destruct Hl as (k & Hk).
      pose proof (HQ k l Hk) as F2. assert (Hkn : k < n) by (rewrite <- LQ; apply nth_error_Some; congruence).
      specialize (HNE k Hkn). destruct F2 as [|m g l gs Hm Hl']; [congruence|].
      apply existsb_false_intro. constructor; [eapply holds_nonempty; eauto|]. eapply filling_nonempty; eauto. }
    rewrite SE. reflexivity.
Qed.
End B.
