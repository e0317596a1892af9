(** Sequence data: accepted files are well-formed. *)
From Verif Require Import Base BaseLemmas Kern_Model Smx_Model Smx_Spec Smx_Proofs TData_Model Bin_Model Bin_Spec Bin_Proofs Bin_Proofs2 Bin_Proofs3 Bin_Proofs4.
From Coq Require Import NArith Nnat Permutation.

Lemma Forall2_len {X Y} (R : X -> Y -> Prop) l l' : Forall2 R l l' -> length l = length l'.
Proof. induction 1; simpl; congruence. Qed.

Section B.
Context {A : Type} (one : A) (native : N) (dec : N -> list N -> A).
Implicit Types (m : smx A) (me : mem_env A).
Notation holds := (holds_field one dec).

Lemma first_empty_spec (l : list (smx A)) : forall j, first_empty l = Some j -> exists m, bget l j = Some m /\ empty m = true.
Proof.
  induction l as [|m l IH]; intros j E; [discriminate|]. cbn [first_empty] in E. destruct (empty m) eqn:Em.
  - injection E as <-. exists m. auto.
  - destruct (first_empty l) as [i|]; [|discriminate]. injection E as <-. apply (IH i eq_refl).
Qed.

Lemma seq_step n ms cs (q : list (list (smx A))) f q' lk :
  seq_loop one native dec (S n) ms cs q f = Some (Success, q', lk) ->
  exists d f0 k j row m r id row' q1 lk2,
    fread 24 f = Some (d, f0) /\ scan_class (cstr (e_name (parse_entry d))) = Some (Z.of_nat (S k)) /\
    (Z.of_nat (S k) < 2 ^ 31)%Z /\ first_empty row = Some j /\ bget q k = Some row /\
    bget row j = Some m /\ empty m = true /\ read_field one native dec (ms 0) (cs 0) m false f = Some (r, id) /\
    rd_code r = Success /\ bset row j (rd_m r) = Some row' /\ bset q k row' = Some q1 /\
    seq_loop one native dec n (fun i => ms (S i)) (fun i => cs (S i)) q1 (rd_rest r) = Some (Success, q', lk2) /\
    lk = rd_leak r || lk2.
Proof.
  cbn [seq_loop]. intros E. destruct (fread 24 f) as [[d f0]|]; [|discriminate].
  destruct (scan_class _) as [z|] eqn:Ez; [|discriminate].
  destruct ((- 2 ^ 31 <=? z)%Z && (z <? 2 ^ 31)%Z) eqn:Eg; [|discriminate]. cbn [guard obind] in E.
  apply andb_prop in Eg. destruct Eg as [_ Eg]. apply Z.ltb_lt in Eg.
  destruct (Z.ltb_spec z 1); [discriminate|].
  destruct (next_mtx q (Z.to_nat (z - 1))) as [j|] eqn:En; [|discriminate].
  set (k := Z.to_nat (z - 1)) in *. assert (Zk : z = Z.of_nat (S k)) by (unfold k; lia). clearbody k.
  destruct (bget q k) as [row|] eqn:Er; [|discriminate]. cbn [obind] in E.
  unfold next_mtx in En. change (nth_error q k) with (bget q k) in En. rewrite Er in En.
  destruct (first_empty_spec _ _ En) as (m & Em & He). rewrite Em in E. cbn [obind] in E.
  destruct (read_field _ _ _ _ _ _ _ _) as [[r id]|] eqn:Ef; [|discriminate]. cbn [obind] in E.
  destruct (bset row j (rd_m r)) as [row'|] eqn:E1; [|discriminate]. cbn [obind] in E.
  destruct (bset q k row') as [q1|] eqn:E2; [|discriminate]. cbn [obind] in E.
  destruct (is_success (rd_code r)) eqn:Es; cbn [negb] in E.
  2:{ injection E as E _ _. rewrite E in Es. discriminate. }
  apply is_success_true in Es.
  destruct (seq_loop one native dec n _ _ q1 _) as [[[c q2] lk2]|] eqn:E3; [|discriminate]. cbn [obind] in E.
  injection E as -> -> <-. subst z.
  exists d, f0, k, j, row, m, r, id, row', q1, lk2. auto 20.
Qed.

Lemma seq_loop_keeps n : forall ms cs (q : list (list (smx A))) f q' lk a b row m,
  seq_loop one native dec n ms cs q f = Some (Success, q', lk) ->
  bget q a = Some row -> bget row b = Some m -> empty m = false ->
  exists row', bget q' a = Some row' /\ bget row' b = Some m.
Proof.
  induction n as [|n IH]; intros ms cs q f q' lk a b row m E Ha Hb He.
  - simpl in E. injection E as <- _. eauto.
  - apply seq_step in E.
    destruct E as (d & f0 & k & j & row0 & m0 & r & id & row0' & q1 & lk2 & _ & _ & _ & _ & Hk & Hj & H0 & _ & _ & E1 & E2 & E3 & _).
    destruct (bset_some _ _ _ _ E1) as (_ & _ & G1). destruct (bset_some _ _ _ _ E2) as (_ & _ & G2).
    destruct (Nat.eq_dec a k) as [->|Hak].
    + rewrite Hk in Ha. injection Ha as ->.
      apply (IH _ _ _ _ _ _ k b row0' m E3); [rewrite G2, Nat.eqb_refl; reflexivity| |exact He].
      rewrite G1. destruct (Nat.eqb_spec b j); [subst; congruence|exact Hb].
    + apply (IH _ _ _ _ _ _ a b row m E3); [|exact Hb|exact He].
      rewrite G2. destruct (Nat.eqb_spec a k); [contradiction|exact Ha].
Qed.

Definition filled q (done : list (nat * field)) : Prop :=
  forall k l, bget q k = Some l -> exists n, filling one dec l (of_class done (S k)) n.

Lemma filling_first l fs n j : filling one dec l fs n -> first_empty l = Some j ->
  exists l1 n', l = l1 ++ init :: repeat init n' /\ j = length l1 /\ Forall2 (fun m f => holds m f false) l1 fs.
Proof.
  intros (l1 & -> & H) E. rewrite (first_empty_app l1 n (filling_nonempty one dec _ _ H)) in E.
  destruct n as [|n']; [discriminate|]. injection E as <-. exists l1, n'. auto.
Qed.

Lemma seq_loop_inv n : native_ok native -> forall ms cs q f q' lk done,
  Forall is_byte f -> seq_loop one native dec n ms cs q f = Some (Success, q', lk) ->
  filled q done -> (forall k l m, bget q' k = Some l -> In m l -> small m) ->
  lk = false /\ length q' = length q /\
  (forall k l l', bget q k = Some l -> bget q' k = Some l' -> length l' = length l) /\
  exists todo tl, length todo = n /\ f = concat (map (fun t => bytes_of_field (snd t)) todo) ++ tl /\
    filled q' (done ++ todo) /\
    forall k fl, In (k, fl) todo -> 1 <= k <= length q /\ wf_field fl /\ class_name (f_name fl) k.
Proof.
  intros NO. induction n as [|n IH]; intros ms cs q f q' lk done B E FQ HS.
  - simpl in E. injection E as <- <-. split; [reflexivity|]. split; [reflexivity|].
    split; [intros k l l' H1 H2; congruence|]. exists [], f. simpl. rewrite app_nil_r.
    split; [reflexivity|]. split; [reflexivity|]. split; [exact FQ|intros ? ? []].
  - apply seq_step in E.
    destruct E as (d & f0 & k & j & row & m & r & id & row' & q1 & lk2 & Ed & Ez & Hz & Fe & Hk & Hj & H0 & Er & Es & E1 & E2 & E3 & ->).
    destruct (bset_some _ _ _ _ E1) as (_ & L1 & G1). destruct (bset_some _ _ _ _ E2) as (Lk & L2 & G2).
    destruct (FQ k row Hk) as (n0 & FL). destruct (filling_first _ _ _ _ FL Fe) as (l1 & n' & Erow & -> & HF).
    assert (Em : m = init) by (rewrite Erow, bget_app_mid in Hj; congruence). subst m.
    pose proof (read_field_nonempty one native dec _ _ _ false _ _ _ (fresh_init0) ltac:(discriminate) Er Es) as NE.
    destruct (seq_loop_keeps _ _ _ _ _ _ _ k (length l1) row' (rd_m r) E3) as (rowf & R1 & R2);
      [rewrite G2, Nat.eqb_refl; reflexivity|rewrite G1, Nat.eqb_refl; reflexivity|exact NE|].
    assert (SM : small (rd_m r)) by (apply (HS k rowf); [exact R1|eapply nth_error_In; exact R2]).
    destruct (read_field_inv one native dec _ _ _ false _ _ _ NO (fresh_init0) ltac:(discriminate) B Er Es SM)
      as (fl & W & Ef & LK & Hh & Hid).
    destruct id; [destruct Hid; discriminate|]. cbn [bias_of] in Hh.
    assert (CN : class_name (f_name fl) (S k)).
    { pose proof (wf_entry fl W) as [EP LP]. rewrite Ef, bytes_split in Ed.
      rewrite (fread_app _ _ 24) in Ed by (rewrite LP; reflexivity). injection Ed as <- _.
      rewrite EP in Ez. cbn [entry_of e_name] in Ez. apply scan_class_inv in Ez.
      destruct Ez as (sign & neg & z & HSg & HN & EZ & HB). exists sign.
      destruct neg.
      - unfold sign_of in EZ. lia.
      - unfold sign_of in EZ. replace (N.of_nat (S k)) with z by lia. split; [|exact HN].
        destruct HSg as [?|[?|Hs]]; auto. apply HB in Hs. discriminate. }
    assert (B1 : Forall is_byte (rd_rest r)) by (rewrite Ef in B; apply Forall_app in B; apply B).
    rewrite Erow, bset_app_mid in E1. injection E1 as <-.
    destruct (IH _ _ _ _ _ _ (done ++ [(S k, fl)]) B1 E3) as (-> & L3 & L4 & todo & tl & T1 & T2 & T3 & T4).
    { intros a l Hl. rewrite G2 in Hl. rewrite of_class_app, of_class_cons.
      destruct (Nat.eqb_spec a k) as [->|Hak].
      - injection Hl as <-. exists n', (l1 ++ [rd_m r]). rewrite Nat.eqb_refl. split; [rewrite <- app_assoc; reflexivity|].
        apply Forall2_app; [exact HF|]. constructor; [exact Hh|constructor].
      - destruct (FQ a l Hl) as (na & l0 & -> & H00). exists na, l0. split; [reflexivity|].
        destruct (Nat.eqb_spec (S k) (S a)); [lia|]. change (of_class [] (S a)) with (@nil field). rewrite app_nil_r. exact H00. }
    { exact HS. }
    split; [rewrite LK; reflexivity|]. split; [congruence|]. split.
    { intros a l l' Hl Hl'. destruct (Nat.eq_dec a k) as [->|Hak].
      - rewrite Hk in Hl. injection Hl as <-. rewrite <- L1.
        apply (L4 k); [rewrite G2, Nat.eqb_refl; reflexivity|exact Hl'].
      - apply (L4 a); [|exact Hl']. rewrite G2. destruct (Nat.eqb_spec a k); [contradiction|exact Hl]. }
    exists ((S k, fl) :: todo), tl. split; [simpl; congruence|]. split.
    { cbn [map concat snd]. rewrite <- app_assoc, <- T2. exact Ef. }
    split; [rewrite <- app_assoc in T3; exact T3|].
    intros a g [Q|Ha].
    + injection Q as <- <-. split; [lia|]. split; [exact W|exact CN].
    + rewrite <- L2. apply T4. exact Ha.
Qed.

Theorem seq_sound ms cs f q lk : native_ok native -> Forall is_byte f ->
  read_seq one native dec ms cs [] f = Some (Success, q, lk) ->
  (forall k l m, nth_error q k = Some l -> In m l -> small m) ->
  lk = false /\ exists n tagged tl, f = seq_bytes n tagged ++ tl /\ wf_seq n tagged /\ holds_seqs one dec q n tagged.
Proof.
  intros NO B. unfold read_seq. destruct (read_header f) as [c|[h f1]] eqn:E.
  { intros E1. injection E1 as -> <- <-. exfalso. unfold read_header in E.
    destruct (fread 10 f) as [[d f1]|]; [|discriminate]. destruct (negb _); [discriminate|].
    destruct (negb _); discriminate. }
  destruct (read_header_inv f h f1 B E) as (Ef & HF & HC). unfold read_into_seq.
  destruct (N.leb_spec (h_fields h) (h_classes h)) as [|Hlt]; [discriminate|].
  rewrite Ef in B. apply Forall_app in B. destruct B as [_ B1].
  destruct (read_classes _ f1) as [[c cnt] f2] eqn:Ec.
  destruct (is_success c) eqn:Es; cbn [negb]; [|intros Q; injection Q as -> _ _; discriminate].
  apply is_success_true in Es. subst c.
  destruct (read_classes_inv _ _ _ _ B1 Ec) as (Ef1 & Lc & HPos).
  destruct (N.eqb_spec (fold_right N.add 0%N cnt + h_classes h) (h_fields h)) as [Et|]; cbn [negb]; [|discriminate].
  unfold prealloc_classes. destruct cnt as [|c0 cnt']; [discriminate|]. set (cnt := c0 :: cnt') in *. cbn [negb].
  set (q0 := map _ cnt).
  destruct (seq_loop _ _ _ _ _ _ _ _) as [[[c q2] lk2]|] eqn:El; [|discriminate]. cbn [obind].
  destruct (is_success c) eqn:Es; cbn [negb]; [|intros Q; injection Q as -> _ _; discriminate].
  apply is_success_true in Es. subst c.
  destruct (seq_empty q2) eqn:SE; [discriminate|]. intros Q HS. injection Q as <- <-.
  rewrite Ef1 in B1. apply Forall_app in B1. destruct B1 as [_ B2].
  destruct (seq_loop_inv _ NO _ _ _ _ _ _ [] B2 El) as (LK & LQ & LL & todo & tl & T1 & T2 & T3 & T4); [|exact HS|].
  { intros k l Hl. unfold q0, bget in Hl. rewrite nth_error_map in Hl. destruct (nth_error cnt k) as [c|]; [|discriminate].
    simpl in Hl. injection Hl as <-. exists (N.to_nat c), []. split; [reflexivity|constructor]. }
  split; [exact LK|]. cbn [app] in T3.
  assert (L0 : length q0 = length cnt) by (unfold q0; apply map_length).
  (* no matrix is left empty *)
  assert (ALL : forall k l, nth_error q2 k = Some l -> l <> [] /\ Forall2 (fun m f => holds m f false) l (of_class todo (S k))).
  { intros k l Hl. unfold seq_empty in SE. destruct q2 as [|x q2]; [destruct k; discriminate|].
    assert (NE : (match l with [] => true | _ => existsb empty l end) = false).
    { destruct (match l with [] => true | _ => existsb empty l end) eqn:Q; [|reflexivity].
      rewrite (proj2 (existsb_exists _ _)) in SE; [discriminate|]. exists l. split; [eapply nth_error_In; eauto|exact Q]. }
    split; [destruct l; [discriminate|discriminate]|].
    destruct (T3 k l Hl) as (nk & l1 & -> & H1). destruct nk as [|nk].
    - cbn [repeat]. rewrite app_nil_r. exact H1.
    - exfalso. assert (X : existsb empty (l1 ++ repeat init (S nk)) = true).
      { rewrite existsb_app. cbn [repeat existsb]. change (empty (@init A)) with true. cbn [orb]. apply orb_true_r. }
      destruct (l1 ++ repeat init (S nk)); [discriminate|congruence]. }
  assert (HN : length cnt = N.to_nat (h_classes h)) by exact Lc.
  (* the counts are those of the table *)
  assert (CC : class_counts (length cnt) todo = cnt).
  { apply (list_eq_bget). intros k. unfold bget, class_counts. rewrite nth_error_map.
    destruct (le_lt_dec (length cnt) k) as [Hge|Hlt'].
    - rewrite (proj2 (nth_error_None cnt k)) by exact Hge.
      rewrite (proj2 (nth_error_None (seq 0 (length cnt)) k)) by (rewrite seq_length; exact Hge). reflexivity.
    - rewrite (nth_error_nth' (seq 0 (length cnt)) 0) by (rewrite seq_length; exact Hlt').
      rewrite seq_nth by exact Hlt'. cbn [option_map Nat.add].
      destruct (nth_error cnt k) as [c|] eqn:Eck; [|apply nth_error_None in Eck; lia]. f_equal.
      destruct (nth_error q2 k) as [l|] eqn:Eqk; [|apply nth_error_None in Eqk; lia].
      destruct (ALL k l Eqk) as [_ F2]. rewrite <- (Forall2_len _ _ _ F2).
      assert (Q0 : bget q0 k = Some (repeat init (N.to_nat c))).
      { unfold q0, bget. rewrite nth_error_map, Eck. reflexivity. }
      rewrite (LL k _ l Q0 Eqk), repeat_length. lia. }
  exists (length cnt), todo, tl. split; [|split].
  - unfold seq_bytes. rewrite CC, Ef, Ef1, T2, <- !app_assoc. f_equal.
    rewrite T1. f_equal; lia.
  - split; [simpl; lia|]. split; [lia|]. split.
    + intros k Hk. destruct (nth_error q2 k) as [l|] eqn:Eqk; [|apply nth_error_None in Eqk; lia].
      destruct (ALL k l Eqk) as [NE F2]. intros Q. rewrite Q in F2. inversion F2. congruence.
    + intros k fl Hk. destruct (T4 k fl Hk) as (A1 & A2 & A3). rewrite L0 in A1. auto.
  - split; [congruence|]. intros k l Hl. apply (ALL k l Hl).
Qed.

Lemma sub_mid d : length d = 24 -> exists a b, d = a ++ sub 8 15 d ++ b.
Proof.
  intros L. exists (firstn 8 d), (skipn 23 d).
  do 24 (destruct d as [|? d]; [discriminate|]). destruct d; [reflexivity|discriminate].
Qed.

Definition clean (q : list (list (smx A))) : Prop :=
  forall k l j m, bget q k = Some l -> bget l j = Some m -> empty m = true -> fresh m.

Lemma seq_loop_total n : forall ms cs q f, Forall is_byte f -> clean q ->
  seq_loop one native dec n ms cs q f = None -> announces_huge f \/ announces_big_class f.
Proof.
  induction n as [|n IH]; intros ms cs q f B HI E; [discriminate|]. cbn [seq_loop] in E.
  destruct (fread 24 f) as [[d f0]|] eqn:Ed; [|discriminate].
  destruct (scan_class _) as [z|] eqn:Ez; [|discriminate].
  pose proof (fread_inv _ _ _ _ Ed) as [Ef Ld].
  destruct ((- 2 ^ 31 <=? z)%Z && (z <? 2 ^ 31)%Z) eqn:Eg.
  2:{ right. apply scan_class_inv in Ez. destruct Ez as (sign & neg & k & _ & HN & EZ & _).
      destruct (sub_mid d) as (a & b & Es); [lia|].
      exists a, (sub 8 15 d), (b ++ f0), sign, k. split; [|split; [apply sub_length; lia|split; [exact HN|]]].
      - rewrite Ef. rewrite Es at 1. rewrite <- !app_assoc. reflexivity.
      - apply andb_false_iff in Eg. rewrite Z.leb_gt, Z.ltb_ge in Eg. unfold sign_of in EZ. destruct neg; lia. }
  cbn [guard obind] in E.
  destruct (Z.ltb_spec z 1); [discriminate|].
  destruct (next_mtx q (Z.to_nat (z - 1))) as [j|] eqn:En; [|discriminate].
  set (k := Z.to_nat (z - 1)) in *. unfold next_mtx in En. change (nth_error q k) with (bget q k) in En.
  destruct (bget q k) as [row|] eqn:Er; [|discriminate]. cbn [obind] in E.
  destruct (first_empty_spec _ _ En) as (m & Em & He). rewrite Em in E. cbn [obind] in E.
  pose proof (HI k row j m Er Em He) as FM.
  destruct (read_field _ _ _ _ _ _ _ _) as [[r id]|] eqn:Erf.
  2:{ left. destruct (read_field_total one native dec _ _ _ false _ FM ltac:(discriminate) B Erf) as (r & c & name & post & E1 & L & R & C & H1).
      rewrite <- (app_nil_l f). eapply huge_app; eauto. }
  cbn [obind] in E.
  destruct (bset_lt row j (rd_m r)) as (row' & E1); [apply bget_some_lt in Em; exact Em|]. rewrite E1 in E. cbn [obind] in E.
  destruct (bset_lt q k row') as (q1 & E2); [apply bget_some_lt in Er; exact Er|]. rewrite E2 in E. cbn [obind] in E.
  destruct (is_success (rd_code r)) eqn:Es; cbn [negb] in E; [|discriminate]. apply is_success_true in Es.
  pose proof (read_field_nonempty one native dec _ _ _ false _ _ _ FM ltac:(discriminate) Erf Es) as NE.
  apply read_field_suffix in Erf. destruct Erf as [(pre & Ep) _].
  destruct (seq_loop one native dec n _ _ q1 _) as [[[c q2] lk2]|] eqn:E3; [discriminate|].
  rewrite Ep in B |- *. apply Forall_app in B. destruct B as [_ B].
  destruct (IH (fun i => ms (S i)) (fun i => cs (S i)) q1 (rd_rest r) B) as [H1|(p & name & post & sign & kk & Eq & H1)]; [|exact E3| |].
  - destruct (bset_some _ _ _ _ E1) as (_ & _ & G1). destruct (bset_some _ _ _ _ E2) as (_ & _ & G2).
    intros a l b mm Ha Hb Hm. rewrite G2 in Ha. destruct (Nat.eqb_spec a k) as [Eak|Hak].
    + injection Ha as <-. rewrite G1 in Hb. destruct (Nat.eqb_spec b j); [injection Hb as <-; congruence|].
      apply (HI k row b mm Er Hb Hm).
    + apply (HI a l b mm Ha Hb Hm).
  - left. apply huge_suffix. exact H1.
  - right. exists (pre ++ p), name, post, sign, kk. split; [rewrite Eq, <- app_assoc; reflexivity|exact H1].
Qed.

Theorem seq_total ms cs f : Forall is_byte f ->
  read_seq one native dec ms cs [] f = None -> announces_huge f \/ announces_big_class f.
Proof.
  intros B. unfold read_seq. destruct (read_header f) as [c|[h f1]] eqn:E; [discriminate|].
  destruct (read_header_inv f h f1 B E) as (Ef & _ & _). unfold read_into_seq.
  destruct (_ <=? _)%N; [discriminate|]. rewrite Ef in B |- *. apply Forall_app in B. destruct B as [_ B1].
  destruct (read_classes _ f1) as [[c cnt] f2] eqn:Ec.
  destruct (is_success c) eqn:Es; cbn [negb]; [|discriminate]. apply is_success_true in Es. subst c.
  destruct (read_classes_inv _ _ _ _ B1 Ec) as (Ef1 & Lc & HPos). rewrite Ef1 in B1 |- *.
  apply Forall_app in B1. destruct B1 as [_ B2].
  destruct (negb _); [discriminate|]. unfold prealloc_classes. destruct cnt as [|c0 cnt']; [discriminate|]. cbn [negb].
  set (cnt := c0 :: cnt') in *.
  destruct (seq_loop _ _ _ _ _ _ _ _) as [[[c q2] lk2]|] eqn:El.
  { cbn [obind]. destruct (negb _); discriminate. }
  intros _. apply seq_loop_total in El; [|exact B2|].
  - destruct El as [H|(p & name & post & sign & kk & -> & H)].
    + left. do 2 apply huge_suffix. exact H.
    + right. exists ((header_bytes (h_fields h) (h_classes h) ++ concat (map (enc_int 2) cnt)) ++ p), name, post, sign, kk. split; [|exact H]. rewrite <- !app_assoc. reflexivity.
  - intros k l j m Hl Hm _. unfold bget in Hl. rewrite nth_error_map in Hl.
    destruct (nth_error cnt k); [|discriminate]. simpl in Hl. injection Hl as <-.
    apply nth_error_In, repeat_spec in Hm. subst m. apply fresh_init0.
Qed.
End B.
