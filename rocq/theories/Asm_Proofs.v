(** Proofs about assembling networks *)
From Verif Require Import Base BaseLemmas Util_Proofs Asm_Model Asm_Spec.
Local Open Scope Z_scope.

Scheme lay_mind := Induction for lay Sort Prop
with lays_mind := Induction for lays Sort Prop
with phls_mind := Induction for phls Sort Prop.
Combined Scheme lay_ind3 from lay_mind, lays_mind, phls_mind.

Lemma obnd_ok : forall (A B : Type) (x : outcome A) (f : A -> outcome B) y,
  obnd x f = Ok y -> exists a, x = Ok a /\ f a = Ok y.
Proof. intros A B x f y H. destruct x; cbn in H; [exists a; auto|discriminate H|discriminate H]. Qed.

(** ** What a successful step does to the objects *)
Record good (idl : list nat) (wl : list (nat * Z)) (s s' : asm) : Prop := mkGood {
  g_cnt : a_cnt s' = a_cnt s + Z.of_nat (length idl);
  g_len : length (a_objs s') = length (a_objs s);
  g_idx : forall k id, nth_error idl k = Some id ->
    exists o w, nth_error (a_objs s) id = Some o /\ fst o = 65535 /\
                nth_error (a_objs s') id = Some (a_cnt s + Z.of_nat k, w);
  g_out : forall id, ~ In id idl -> nth_error (a_objs s') id = nth_error (a_objs s) id;
  g_dup : NoDup idl;
  g_wir : forall id w, In (id, w) wl -> In id idl /\ exists i, nth_error (a_objs s') id = Some (i, w) }.

Lemma nodup_app_intro : forall (A : Type) (a b : list A),
  NoDup a -> NoDup b -> (forall x, In x a -> In x b -> False) -> NoDup (a ++ b).
Proof.
  intros A a. induction a as [|x a IH]; intros b Ha Hb Hd; [exact Hb|]. cbn. inversion Ha as [|y l Hx Ha']; subst.
  constructor.
  - intro Hin. apply in_app_iff in Hin. destruct Hin as [Hin|Hin]; [exact (Hx Hin)|]. exact (Hd x (or_introl eq_refl) Hin).
  - apply IH; [exact Ha'|exact Hb|]. intros y H1 H2. exact (Hd y (or_intror H1) H2).
Qed.

Lemma good_nil : forall s, good [] [] s s.
Proof.
  intro s. constructor.
  - cbn. lia.
  - reflexivity.
  - intros k id H. destruct k; discriminate H.
  - reflexivity.
  - constructor.
  - intros id w [].
Qed.

Lemma good_app : forall i1 i2 w1 w2 s s1 s2, 0 <= a_cnt s ->
  a_cnt s + Z.of_nat (length (i1 ++ i2)) <= 65535 ->
  good i1 w1 s s1 -> good i2 w2 s1 s2 -> good (i1 ++ i2) (w1 ++ w2) s s2.
Proof.
  intros i1 i2 w1 w2 s s1 s2 Hc Hb [C1 L1 X1 O1 D1 W1] [C2 L2 X2 O2 D2 W2].
  rewrite app_length in Hb.
  assert (Hdis : forall x, In x i1 -> In x i2 -> False).
  { intros x H1 H2. apply In_nth_error in H1. destruct H1 as [k1 H1]. apply In_nth_error in H2. destruct H2 as [k2 H2].
    destruct (X1 k1 x H1) as (o & w & _ & _ & E1). destruct (X2 k2 x H2) as (o2 & w' & E2 & F2 & _).
    rewrite E1 in E2. injection E2 as E2. subst o2. cbn in F2.
    assert (k1 < length i1)%nat by (apply nth_error_Some; rewrite H1; discriminate). lia. }
  constructor.
  - rewrite C2, C1, app_length. lia.
  - rewrite L2. exact L1.
  - intros k id Hk. destruct (Nat.lt_ge_cases k (length i1)) as [Hlt|Hge].
    + rewrite nth_error_app1 in Hk by exact Hlt. destruct (X1 k id Hk) as (o & w & A1 & A2 & A3).
      exists o, w. repeat split; [exact A1|exact A2|]. rewrite O2; [exact A3|].
      intro Hin. apply (Hdis id); [exact (nth_error_In _ _ Hk)|exact Hin].
    + rewrite nth_error_app2 in Hk by exact Hge. destruct (X2 _ id Hk) as (o & w & A1 & A2 & A3).
      assert (Hn : ~ In id i1). { intro Hin. apply (Hdis id Hin). exact (nth_error_In _ _ Hk). }
      rewrite (O1 id Hn) in A1. exists o, w. repeat split; [exact A1|exact A2|]. rewrite A3, C1. do 2 f_equal. lia.
  - intros id Hn. rewrite O2; [apply O1|]; intro Hin; apply Hn; apply in_app_iff; auto.
  - apply nodup_app_intro; assumption.
  - intros id w Hin. apply in_app_iff in Hin. destruct Hin as [Hin|Hin].
    + destruct (W1 id w Hin) as (A & i & B). split; [apply in_app_iff; auto|]. exists i. rewrite O2; [exact B|].
      intro H2. exact (Hdis id A H2).
    + destruct (W2 id w Hin) as (A & i & B). split; [apply in_app_iff; auto|]. exists i. exact B.
Qed.

Lemma good_one : forall id s s' i w o wl, nth_error (a_objs s) id = Some o -> fst o = 65535 ->
  i = a_cnt s -> a_cnt s < 65535 -> 0 <= a_cnt s ->
  s' = mkA ((a_cnt s + 1) mod 65536) (upd (a_objs s) id (i, w)) ->
  (forall id' w', In (id', w') wl -> id' = id /\ w' = w) ->
  good [id] wl s s'.
Proof.
  intros id s s' i w o wl Ho Hf Hi Hb Hc Hs Hw. subst s' i.
  assert (Hlt : (id < length (a_objs s))%nat) by (apply nth_error_Some; rewrite Ho; discriminate).
  constructor.
  - cbn [a_cnt length]. rewrite Z.mod_small by lia. lia.
  - cbn [a_objs]. apply upd_length.
  - intros k id' Hk. destruct k as [|k]; [|destruct k; discriminate Hk]. cbn in Hk. injection Hk as Hk. subst id'.
    exists o, w. split; [exact Ho|split; [exact Hf|]]. cbn [a_objs]. rewrite (upd_nth_error _ _ _ _ Hlt), Nat.eqb_refl.
    do 2 f_equal. lia.
  - intros id' Hn. cbn [a_objs]. rewrite upd_nth_error by exact Hlt. destruct (Nat.eqb_spec id' id) as [E|E]; [|reflexivity].
    exfalso. apply Hn. left. symmetry. exact E.
  - constructor; [intros []|constructor].
  - intros id' w' Hin. destruct (Hw id' w' Hin) as (E1 & E2). subst id' w'. split; [left; reflexivity|]. exists (a_cnt s).
    cbn [a_objs]. rewrite (upd_nth_error _ _ _ _ Hlt), Nat.eqb_refl. reflexivity.
Qed.

Lemma base_ok : forall id inc s s', base_preinit id inc s = Ok s' -> 0 <= a_cnt s -> a_cnt s < 65535 ->
  0 < a_cnt s \/ inc = 0 -> good [id] [(id, inc)] s s'.
Proof.
  intros id inc s s' H Hc Hb Hz. unfold base_preinit, aget in H. destruct (nth_error (a_objs s) id) as [o|] eqn:Ho; [|discriminate H].
  cbn [obnd newIndex] in H.
  destruct (Z.eqb_spec (fst o) invalid_layer_index) as [Ef|Ef]; [|discriminate H].
  destruct (Z.eqb_spec (snd o) 0) as [Es|Es]; [|discriminate H]. cbn [negb orb a_cnt a_objs] in H. injection H as H. symmetry in H.
  refine (good_one _ _ _ _ _ _ _ Ho Ef eq_refl Hb Hc H _).
  intros id' w' [E|[]]. injection E as E1 E2. subst id' w'. split; [reflexivity|].
  destruct (Z.eqb_spec (a_cnt s) 0) as [E|E]; cbn [negb]; [|reflexivity]. rewrite Es. destruct Hz as [Hz|Hz]; [lia|exact Hz].
Qed.

Lemma fwd_ok : forall id s s', fwd_preinit id s = Ok s' -> 0 <= a_cnt s -> a_cnt s < 65535 -> good [id] [] s s'.
Proof.
  intros id s s' H Hc Hb. unfold fwd_preinit, aget in H. destruct (nth_error (a_objs s) id) as [o|] eqn:Ho; [|discriminate H].
  cbn [obnd newIndex] in H.
  destruct (Z.eqb_spec (fst o) invalid_layer_index) as [Ef|Ef]; [|discriminate H].
  cbn [negb a_cnt a_objs] in H. injection H as H. symmetry in H.
  refine (good_one _ _ _ _ _ _ _ Ho Ef eq_refl Hb Hc H _). intros id' w' [].
Qed.

(** ** The check storage *)
Lemma nthf : forall n (l : list bool) k, (k < n)%nat -> nth k (firstn n l) false = nth k l false.
Proof. induction n as [|n IH]; intros l k H; [lia|]. destruct l as [|x l]; [destruct k; reflexivity|]. destruct k; [reflexivity|]. cbn. apply IH. lia. Qed.
Lemma nths : forall n (l : list bool) k, nth k (skipn n l) false = nth (n + k) l false.
Proof. induction n as [|n IH]; intros l k; [reflexivity|]. destruct l as [|x l]; [destruct k; reflexivity|]. cbn. apply IH. Qed.

Lemma fill_ok : forall ofs cnt chk chk', fill_range ofs cnt chk = Ok chk' ->
  inside (Z.of_nat (length chk)) (ofs, cnt) /\ length chk' = length chk /\
  (forall k, (k < length chk)%nat -> (nth k chk' false = true <-> nth k chk false = true \/ ofs <= Z.of_nat k < ofs + cnt)).
Proof.
  intros ofs cnt chk chk' H. unfold fill_range in H.
  destruct (Z.ltb_spec ofs 0); [discriminate H|]. destruct (Z.ltb_spec cnt 0); [discriminate H|].
  destruct (Z.ltb_spec (Z.of_nat (length chk)) (ofs + cnt)); [discriminate H|]. cbn [orb] in H. injection H as H. subst chk'.
  assert (L1 : length (firstn (Z.to_nat ofs) chk) = Z.to_nat ofs) by (rewrite firstn_length; lia).
  split; [unfold inside; cbn [fst snd]; lia|]. split.
  { rewrite !app_length, L1, repeat_length, skipn_length. lia. }
  intros k Hk. destruct (Nat.lt_ge_cases k (Z.to_nat ofs)) as [Hlt|Hge].
  - rewrite app_nth1 by (rewrite L1; exact Hlt). rewrite nthf by exact Hlt. split; [auto|]. intros [E|E]; [exact E|lia].
  - rewrite app_nth2 by (rewrite L1; exact Hge). rewrite L1.
    destruct (Nat.lt_ge_cases (k - Z.to_nat ofs) (Z.to_nat cnt)) as [Hl2|Hg2].
    + rewrite app_nth1 by (rewrite repeat_length; exact Hl2).
      assert (E : nth (k - Z.to_nat ofs) (repeat true (Z.to_nat cnt)) false = true).
      { apply (repeat_spec (Z.to_nat cnt) true). apply nth_In. rewrite repeat_length. exact Hl2. }
      rewrite E. split; [intros _; right; lia|reflexivity].
    + rewrite app_nth2 by (rewrite repeat_length; exact Hg2). rewrite repeat_length, nths.
      replace (Z.to_nat (ofs + cnt) + (k - Z.to_nat ofs - Z.to_nat cnt))%nat with k by lia.
      split; [auto|]. intros [E|E]; [exact E|lia].
Qed.

Lemma fill_def : forall ofs cnt chk, inside (Z.of_nat (length chk)) (ofs, cnt) -> exists chk', fill_range ofs cnt chk = Ok chk'.
Proof.
  intros ofs cnt chk (H1 & H2 & H3). cbn [fst snd] in *. unfold fill_range.
  destruct (Z.ltb_spec ofs 0); [lia|]. destruct (Z.ltb_spec cnt 0); [lia|].
  destruct (Z.ltb_spec (Z.of_nat (length chk)) (ofs + cnt)); [lia|]. cbn [orb]. eexists. reflexivity.
Qed.

Lemma forallb_nth : forall l : list bool, forallb (fun c => c) l = true <-> (forall k, (k < length l)%nat -> nth k l false = true).
Proof.
  intro l. rewrite forallb_forall. split.
  - intros H k Hk. apply H. apply nth_In. exact Hk.
  - intros H x Hx. destruct (In_nth l x false Hx) as (k & Hk & E). rewrite <- E. apply H. exact Hk.
Qed.

Lemma covered_check : forall inc rs chk, length chk = Z.to_nat inc ->
  (forall k, (k < length chk)%nat -> (nth k chk false = true <-> exists r, In r rs /\ fst r <= Z.of_nat k < fst r + snd r)) ->
  (forallb (fun c => c) chk = true <-> covered inc rs).
Proof.
  intros inc rs chk Hl H. rewrite forallb_nth. unfold covered. split.
  - intros Ha k Hk. assert (Hk' : (Z.to_nat k < length chk)%nat) by lia.
    destruct (proj1 (H _ Hk') (Ha _ Hk')) as (r & Hin & Hr). exists r. split; [exact Hin|lia].
  - intros Hc k Hk. apply H; [exact Hk|]. apply Hc. lia.
Qed.

(** ** Success *)
Lemma preinit_good :
  (forall l inc s s', preinit l inc s = Ok s' -> 0 <= a_cnt s -> a_cnt s + Z.of_nat (length (ids l)) <= 65535 ->
     0 < a_cnt s \/ inc = 0 -> good (ids l) (wires inc l) s s' /\ pluggable inc l) /\
  (forall ls inc s s', preinit_up ls inc s = Ok s' -> 0 <= a_cnt s -> a_cnt s + Z.of_nat (length (lids ls)) <= 65535 ->
     0 < a_cnt s \/ inc = 0 -> good (lids ls) (lwires inc ls) s s' /\ lpluggable inc ls) /\
  (forall ps s chk s' chk', preinit_phls ps (s, chk) = Ok (s', chk') -> 0 < a_cnt s ->
     a_cnt s + Z.of_nat (length (pids ps)) <= 65535 ->
     good (pids ps) (pwires ps) s s' /\ ppluggable ps /\
     Forall (inside (Z.of_nat (length chk))) (ranges ps) /\ length chk' = length chk /\
     (forall k, (k < length chk)%nat -> (nth k chk' false = true <->
        nth k chk false = true \/ exists r, In r (ranges ps) /\ fst r <= Z.of_nat k < fst r + snd r))).
Proof.
  apply lay_ind3.
  - intros id n inc s s' H Hc Hb Hz. cbn [preinit] in H. cbn [ids length] in Hb. split; [|exact I].
    apply base_ok; [exact H|exact Hc|lia|exact Hz].
  - intros id ls IH inc s s' H Hc Hb Hz. cbn [preinit] in H. cbn [ids] in Hb |- *. cbn [length] in Hb.
    apply obnd_ok in H. destruct H as (s1 & H1 & H2).
    assert (G1 : good [id] [] s s1) by (apply fwd_ok; [exact H1|exact Hc|lia]).
    pose proof (g_cnt _ _ _ _ G1) as C1. cbn [length] in C1.
    destruct (IH inc s1 s' H2) as (G2 & P2); [lia|lia|left; lia|].
    split; [|exact P2]. cbn [wires].
    apply (good_app [id] (lids ls) [] (lwires inc ls) s s1 s'); [exact Hc|rewrite app_length; cbn [length]; lia|exact G1|exact G2].
  - intros id add ps IH inc s s' H Hc Hb Hz. cbn [preinit] in H. cbn [ids] in Hb |- *. cbn [length] in Hb.
    apply obnd_ok in H. destruct H as (s1 & H1 & H2). destruct (Z.ltb_spec inc 0) as [Hi|Hi]; [discriminate H2|].
    apply obnd_ok in H2. destruct H2 as ((s2 & chk) & H2 & H3).
    cbn [fst snd] in H3. destruct (forallb (fun c => c) chk) eqn:Ec; [|discriminate H3]. injection H3 as H3. subst s2.
    assert (G1 : good [id] [(id, inc)] s s1) by (apply base_ok; [exact H1|exact Hc|lia|exact Hz]).
    pose proof (g_cnt _ _ _ _ G1) as C1. cbn [length] in C1.
    destruct (IH s1 _ s' chk H2) as (G2 & P2 & I2 & L2 & K2); [lia|lia|]. rewrite repeat_length in *.
    split.
    + apply (good_app [id] (pids ps) [(id, inc)] (pwires ps) s s1 s'); [exact Hc|rewrite app_length; cbn [length]; lia|exact G1|exact G2].
    + cbn [pluggable].
      assert (Hcov : covered inc (ranges ps)).
      { apply (covered_check inc (ranges ps) chk); [exact L2| |exact Ec]. rewrite L2. intros k Hk. rewrite (K2 k Hk).
        assert (E : nth k (repeat false (Z.to_nat inc)) false = false).
        { apply (repeat_spec (Z.to_nat inc) false). apply nth_In. rewrite repeat_length. exact Hk. }
        rewrite E. split; [intros [A|A]; [discriminate A|exact A]|auto]. }
      split; [exact Hi|]. split; [|split; [exact Hcov|exact P2]].
      rewrite Z2Nat.id in I2 by exact Hi. exact I2.
  - intros id k l IH inc s s' H Hc Hb Hz. cbn [preinit] in H. cbn [ids] in Hb |- *. cbn [length] in Hb.
    apply obnd_ok in H. destruct H as (s1 & H1 & H2). destruct (Z.eqb_spec k 0) as [Ek|Ek]; [discriminate H2|].
    assert (G1 : good [id] [(id, inc)] s s1) by (apply base_ok; [exact H1|exact Hc|lia|exact Hz]).
    pose proof (g_cnt _ _ _ _ G1) as C1. cbn [length] in C1.
    destruct (IH _ s1 s' H2) as (G2 & P2); [lia|lia|left; lia|].
    split; [|split; [exact Ek|exact P2]]. cbn [wires].
    apply (good_app [id] (ids l) [(id, inc)] (wires (Z.quot inc k) l) s s1 s'); [exact Hc|rewrite app_length; cbn [length]; lia|exact G1|exact G2].
  - intros inc s s' H Hc Hb Hz. cbn [preinit_up] in H. injection H as H. subst s'. split; [apply good_nil|exact I].
  - intros l IHl ls IHs inc s s' H Hc Hb Hz. cbn [preinit_up] in H. cbn [lids] in Hb |- *. rewrite app_length in Hb.
    apply obnd_ok in H. destruct H as (s1 & H1 & H2).
    destruct (IHl inc s s1 H1) as (G1 & P1); [exact Hc|lia|exact Hz|].
    pose proof (g_cnt _ _ _ _ G1) as C1.
    assert (Hne : (0 < length (ids l))%nat) by (destruct l; cbn [ids length]; lia).
    destruct (IHs (lneurons l) s1 s' H2) as (G2 & P2); [lia|lia|left; lia|].
    split; [|split; assumption].
    cbn [lwires]. apply (good_app _ _ _ _ s s1 s'); [exact Hc|rewrite app_length; lia|exact G1|exact G2].
  - intros s chk s' chk' H Hc Hb. cbn [preinit_phls] in H. injection H as H1 H2. subst s' chk'.
    split; [apply good_nil|]. split; [exact I|]. split; [constructor|]. split; [reflexivity|].
    intros k Hk. split; [auto|]. intros [A|(r & [] & _)]. exact A.
  - intros ofs cnt l IHl ps IHp s chk s' chk' H Hc Hb. cbn [preinit_phls] in H. cbn [pids] in Hb |- *. rewrite app_length in Hb.
    apply obnd_ok in H. destruct H as (chk1 & H0 & H). cbn [snd fst] in H0, H. apply obnd_ok in H. destruct H as (s1 & H1 & H2).
    destruct (fill_ok _ _ _ _ H0) as (F1 & F2 & F3).
    destruct (IHl cnt s s1 H1) as (G1 & P1); [lia|lia|left; exact Hc|].
    pose proof (g_cnt _ _ _ _ G1) as C1.
    destruct (IHp s1 chk1 s' chk' H2) as (G2 & P2 & I2 & L2 & K2); [lia|lia|]. rewrite F2 in *.
    split; [|split; [split; assumption|split; [|split]]].
    + cbn [pwires]. apply (good_app _ _ _ _ s s1 s'); [lia|rewrite app_length; lia|exact G1|exact G2].
    + cbn [ranges]. constructor; [exact F1|exact I2].
    + exact L2.
    + intros k Hk. rewrite (K2 k Hk), (F3 k Hk). cbn [ranges]. split.
      * intros [[A|A]|(r & B1 & B2)]; [left; exact A|right; exists (ofs, cnt); split; [left; reflexivity|exact A]|right; exists r; split; [right; exact B1|exact B2]].
      * intros [A|(r & [B1|B1] & B2)]; [left; left; exact A|subst r; left; right; exact B2|right; exists r; auto].
Qed.
