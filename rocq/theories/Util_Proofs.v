(** Proofs about the epoch conditions. *)
From Verif Require Import Base BaseLemmas Util_Model Util_Spec.
From Coq Require Import Znumtheory.
Local Open Scope Z_scope.

Lemma selected_mod : forall beg en s e, 1 <= s ->
  (selected beg en s e <-> beg - 1 <= e < en /\ (e - (beg - 1)) mod s = 0).
Proof.
  intros beg en s e Hs; split.
  - intros [k [H1 [H2 H3]]]; split; [nia|].
    rewrite H2. replace (beg - 1 + k * s - (beg - 1)) with (k * s) by lia.
    apply Z.mod_mul; lia.
  - intros [H1 H2]. exists ((e - (beg - 1)) / s).
    pose proof (Z.div_mod (e - (beg - 1)) s ltac:(lia)).
    pose proof (Z.div_pos (e - (beg - 1)) s ltac:(lia) ltac:(lia)).
    repeat split; try lia.
Qed.

Lemma selected_dec : forall beg en s e, 1 <= s -> selected beg en s e \/ ~ selected beg en s e.
Proof.
  intros beg en s e Hs. rewrite (selected_mod beg en s e Hs).
  destruct (Z_le_dec (beg - 1) e); [|right; lia].
  destruct (Z_lt_dec e en); [|right; lia].
  destruct (Z.eq_dec ((e - (beg - 1)) mod s) 0); [left|right]; lia.
Qed.

Lemma bset_is_upd {A} : forall (v : list A) i b, (i < length v)%nat ->
  bset v i b = Some (upd v i b).
Proof.
  induction v as [|x v IH]; intros i b H; cbn in H; [lia|].
  destruct i as [|i]; cbn; [reflexivity|]. rewrite IH by lia. reflexivity.
Qed.

Lemma zset_some {A} : forall (v : list A) i b, 0 <= i < Z.of_nat (length v) ->
  zset v i b = Some (upd v (Z.to_nat i) b).
Proof.
  intros v i b H. unfold zset. destruct (Z.ltb_spec i 0); [lia|].
  apply bset_is_upd; lia.
Qed.

Lemma bset_inv {A} : forall (v : list A) i b v', bset v i b = Some v' ->
  (i < length v)%nat /\ v' = upd v i b.
Proof.
  induction v as [|x v IH]; intros i b v' H; [discriminate H|].
  destruct i as [|i]; cbn in H.
  - injection H as <-. cbn; split; [lia|reflexivity].
  - destruct (bset v i b) as [t|] eqn:E; [|discriminate H]. injection H as <-.
    destruct (IH i b t E) as [H1 ->]. cbn; split; [lia|reflexivity].
Qed.

Lemma zset_inv {A} : forall (v : list A) i b v', zset v i b = Some v' ->
  0 <= i < Z.of_nat (length v) /\ v' = upd v (Z.to_nat i) b.
Proof.
  intros v i b v' H. unfold zset in H. destruct (Z.ltb_spec i 0); [discriminate H|].
  apply bset_inv in H as [H1 ->]. split; [lia|reflexivity].
Qed.

Lemma upd_nth_error {A} : forall (v : list A) i b j, (i < length v)%nat ->
  nth_error (upd v i b) j = if (j =? i)%nat then Some b else nth_error v j.
Proof.
  induction v as [|x v IH]; intros i b j H; cbn in H; [lia|].
  destruct i, j; cbn; try reflexivity. apply IH; lia.
Qed.

(** The loop of [set(beg, end, stride, v)]. *)
Lemma stride_loop_ok : forall fuel i en s b v,
  1 <= s -> (Z.to_nat (en - i) <= fuel)%nat ->
  (forall x, selected (i + 1) en s x -> 0 <= x < Z.of_nat (length v)) ->
  exists v', stride_loop fuel i en s b v = Some v' /\ length v' = length v /\
    forall e, 0 <= e < Z.of_nat (length v) ->
      (selected (i + 1) en s e -> nth_error v' (Z.to_nat e) = Some b) /\
      (~ selected (i + 1) en s e -> nth_error v' (Z.to_nat e) = nth_error v (Z.to_nat e)).
Proof.
  induction fuel as [|fuel IH]; intros i en s b v Hs Hf Hin; cbn [stride_loop].
  - destruct (Z.ltb_spec i en); [lia|]. exists v; split; [reflexivity|split; [reflexivity|]].
    intros e He; split; [|reflexivity].
    intros [k [H1 [H2 H3]]]; nia.
  - destruct (Z.ltb_spec i en) as [L|L].
    + assert (I : 0 <= i < Z.of_nat (length v)).
      { apply Hin. exists 0; lia. }
      rewrite (zset_some v i b I). cbn [obind].
      assert (E : forall x, selected (i + 1) en s x <-> x = i \/ selected (i + s + 1) en s x).
      { intros x; split.
        - intros [k [H1 [H2 H3]]]. destruct (Z.eq_dec k 0) as [->|N]; [left; lia|right].
          exists (k - 1); lia.
        - intros [->|[k [H1 [H2 H3]]]]; [exists 0; lia|exists (k + 1); lia]. }
      destruct (IH (i + s) en s b (upd v (Z.to_nat i) b)) as [v' [V1 [V2 V3]]];
        [exact Hs|lia| |].
      { rewrite upd_length. intros x Hx. apply Hin. apply E. right; exact Hx. }
      rewrite upd_length in V2, V3.
      exists v'; split; [exact V1|split; [exact V2|]].
      intros e He. destruct (V3 e He) as [V4 V5].
      destruct (selected_dec (i + s + 1) en s e Hs) as [D|D].
      * split; [intros _; exact (V4 D)|].
        intros N; exfalso; apply N, E; right; exact D.
      * rewrite (V5 D), upd_nth_error by lia.
        destruct (Nat.eqb_spec (Z.to_nat e) (Z.to_nat i)).
        -- split; [reflexivity|]. intros N; exfalso; apply N, E; left; lia.
        -- split; [|reflexivity]. intros H; apply E in H as [H|H]; [lia|contradiction].
    + exists v; split; [reflexivity|split; [reflexivity|]].
      intros e He; split; [|reflexivity].
      intros [k [H1 [H2 H3]]]; nia.
Qed.

Lemma stride_loop_inside : forall fuel i en s b v v',
  1 <= s -> stride_loop fuel i en s b v = Some v' ->
  forall x, selected (i + 1) en s x -> 0 <= x < Z.of_nat (length v).
Proof.
  induction fuel as [|fuel IH]; intros i en s b v v' Hs H x [k [K1 [K2 K3]]];
    cbn [stride_loop] in H.
  - destruct (Z.ltb_spec i en); [discriminate H|nia].
  - destruct (Z.ltb_spec i en) as [L|L]; [|nia].
    destruct (zset v i b) as [w|] eqn:E; [|discriminate H]. cbn in H.
    apply zset_inv in E as [E1 ->].
    destruct (Z.eq_dec k 0) as [->|N]; [lia|].
    rewrite <- (upd_length v (Z.to_nat i) b).
    apply (IH _ _ _ _ _ _ Hs H x). exists (k - 1); lia.
Qed.

Lemma set_range_ok : forall beg en s b v, 1 <= s ->
  (forall x, selected beg en s x -> 0 <= x < Z.of_nat (length v)) ->
  exists v', vc_set_range beg en s b v = Some v' /\ length v' = length v /\
    forall e, 0 <= e < Z.of_nat (length v) ->
      (selected beg en s e -> nth_error v' (Z.to_nat e) = Some b) /\
      (~ selected beg en s e -> nth_error v' (Z.to_nat e) = nth_error v (Z.to_nat e)).
Proof.
  intros beg en s b v Hs H. unfold vc_set_range.
  replace beg with (beg - 1 + 1) in H |- * by lia.
  replace (beg - 1 + 1 - 1) with (beg - 1) by lia.
  apply stride_loop_ok; auto with arith.
Qed.

Lemma set_range_inside : forall beg en s b v v', 1 <= s ->
  vc_set_range beg en s b v = Some v' ->
  forall x, selected beg en s x -> 0 <= x < Z.of_nat (length v).
Proof.
  intros beg en s b v v' Hs H x Hx. unfold vc_set_range in H.
  replace beg with (beg - 1 + 1) in Hx by lia.
  exact (stride_loop_inside _ _ _ _ _ _ _ Hs H x Hx).
Qed.

(** ** The constructors *)

Lemma repeat_nth : forall (b : bool) n e, (e < n)%nat -> nth_error (repeat b n) e = Some b.
Proof.
  intros b n; induction n; intros e H; [lia|]. destruct e; cbn; [reflexivity|apply IHn; lia].
Qed.

Lemma vc_ctor_start_ok : forall n st s, 1 <= n -> 1 <= st -> 1 <= s ->
  exists v, vc_ctor_start n st s = Some v /\ Z.of_nat (length v) = n /\
    forall e, 0 <= e < n ->
      exists b, vc_ask v e = Some b /\ (b = true <-> selected st n s e \/ e = n - 1).
Proof.
  intros n st s Hn Hst Hs. unfold vc_ctor_start.
  set (v0 := repeat false (Z.to_nat n)).
  assert (L0 : Z.of_nat (length v0) = n) by (unfold v0; rewrite repeat_length; lia).
  destruct (set_range_ok st n s true v0 Hs) as [v1 [V1 [V2 V3]]].
  { intros x [k [K1 [K2 K3]]]. nia. }
  rewrite V1. cbn [obind]. unfold vc_set.
  rewrite zset_some by lia.
  exists (upd v1 (Z.to_nat (n - 1)) true); split; [reflexivity|].
  rewrite upd_length, V2. split; [exact L0|].
  intros e He. unfold vc_ask, zget. destruct (Z.ltb_spec e 0); [lia|]. unfold bget.
  rewrite upd_nth_error by lia.
  destruct (Nat.eqb_spec (Z.to_nat e) (Z.to_nat (n - 1))) as [E|E].
  - exists true; split; [reflexivity|]. split; [right; lia|reflexivity].
  - destruct (V3 e ltac:(lia)) as [V4 V5].
    destruct (selected_dec st n s e Hs) as [D|D].
    + rewrite (V4 D). exists true; split; [reflexivity|]. split; auto.
    + rewrite (V5 D). unfold v0. rewrite repeat_nth by lia.
      exists false; split; [reflexivity|]. split; [discriminate|].
      intros [F|F]; [contradiction|lia].
Qed.

Lemma vc_ctor_start_0 : forall n s, 1 <= n -> 1 <= s -> vc_ctor_start n 0 s = None.
Proof.
  intros n s Hn Hs. unfold vc_ctor_start.
  destruct (vc_set_range 0 n s true (repeat false (Z.to_nat n))) as [v|] eqn:E; [|reflexivity].
  pose proof (set_range_inside _ _ _ _ _ _ Hs E (-1)) as H.
  assert (selected 0 n s (-1)) as S by (exists 0; lia).
  apply H in S; lia.
Qed.

Lemma vc_ctor_def_ok : forall n d, 1 <= n ->
  exists v, vc_ctor_def n d = Some v /\ Z.of_nat (length v) = n /\
    forall e, 0 <= e < n -> vc_ask v e = Some (if e =? n - 1 then true else d).
Proof.
  intros n d Hn. unfold vc_ctor_def, vc_set.
  set (v0 := repeat d (Z.to_nat n)).
  assert (L0 : Z.of_nat (length v0) = n) by (unfold v0; rewrite repeat_length; lia).
  rewrite zset_some by lia.
  eexists; split; [reflexivity|]. rewrite upd_length; split; [exact L0|].
  intros e He. unfold vc_ask, zget. destruct (Z.ltb_spec e 0); [lia|]. unfold bget.
  rewrite upd_nth_error by lia.
  destruct (Nat.eqb_spec (Z.to_nat e) (Z.to_nat (n - 1))); destruct (Z.eqb_spec e (n - 1));
    try lia; [reflexivity|].
  unfold v0. apply repeat_nth; lia.
Qed.

(** ** epochs_props *)

Lemma ep_ctor_iff : forall n st s, 1 <= n -> 0 <= st <= n -> 1 <= s ->
  ((exists v, ep_ctor_start n st s = Some v) <-> (n - st) mod s <> 0).
Proof.
  intros n st s Hn Hst Hs. unfold ep_ctor_start.
  set (v0 := repeat false (Z.to_nat n)).
  assert (L0 : Z.of_nat (length v0) = n) by (unfold v0; rewrite repeat_length; lia).
  assert (Q : forall x, selected (st + 1) (n + 1) s x <-> st <= x < n + 1 /\ (x - st) mod s = 0).
  { intros x. rewrite selected_mod by exact Hs.
    replace (st + 1 - 1) with st by lia. reflexivity. }
  split.
  - intros [v H] M.
    pose proof (stride_loop_inside _ _ _ _ _ _ _ Hs H n) as I.
    assert (selected (st + 1) (n + 1) s n) as S by (apply Q; split; [lia|exact M]).
    apply I in S. lia.
  - intros M.
    destruct (stride_loop_ok (Z.to_nat (n + 1 - st)) st (n + 1) s true v0 Hs (le_n _))
      as [v [V _]]; [|exists v; exact V].
    intros x Hx. apply Q in Hx as [X1 X2].
    destruct (Z.eq_dec x n) as [->|N]; [contradiction|lia].
Qed.

Lemma ep_ctor_ok : forall n st s v, 1 <= n -> 0 <= st <= n -> 1 <= s ->
  ep_ctor_start n st s = Some v ->
  forall e, 0 <= e < n -> (vc_ask v e = Some true <-> selected (st + 1) n s e).
Proof.
  intros n st s v Hn Hst Hs H e He. unfold ep_ctor_start in H.
  set (v0 := repeat false (Z.to_nat n)) in *.
  assert (L0 : Z.of_nat (length v0) = n) by (unfold v0; rewrite repeat_length; lia).
  destruct (stride_loop_ok (Z.to_nat (n + 1 - st)) st (n + 1) s true v0 Hs (le_n _))
    as [w [W1 [W2 W3]]].
  { apply (stride_loop_inside _ _ _ _ _ _ _ Hs H). }
  rewrite W1 in H. injection H as ->.
  destruct (W3 e ltac:(lia)) as [W4 W5].
  assert (Q : selected (st + 1) (n + 1) s e <-> selected (st + 1) n s e).
  { rewrite !selected_mod by exact Hs. lia. }
  unfold vc_ask, zget. destruct (Z.ltb_spec e 0); [lia|]. unfold bget.
  destruct (selected_dec (st + 1) (n + 1) s e Hs) as [D|D].
  - rewrite (W4 D). tauto.
  - rewrite (W5 D). unfold v0. rewrite repeat_nth by lia. split; [discriminate|tauto].
Qed.

(** ** Histories of calls *)

Lemma holds_ask : forall v n f, holds v n f -> forall e,
  (0 <= e < n -> vc_ask v e = Some (f e)) /\ (~ 0 <= e < n -> vc_ask v e = None).
Proof.
  intros v n f [H1 H2] e; split; intros He; unfold vc_ask, zget, bget.
  - destruct (Z.ltb_spec e 0); [lia|]. apply H2; lia.
  - destruct (Z.ltb_spec e 0); [reflexivity|]. apply nth_error_None. lia.
Qed.

Lemma firstn_nth {A} : forall n (v : list A) i, (i < n)%nat ->
  nth_error (firstn n v) i = nth_error v i.
Proof.
  induction n; intros v i H; [lia|]. destruct v; cbn; [destruct i; reflexivity|].
  destruct i; cbn; [reflexivity|apply IHn; lia].
Qed.

Lemma vc_do_ok : forall o v n f, holds v n f ->
  (op_inside n o -> exists v' f', vc_do o v = Some v' /\ holds v' (op_size n o) f' /\
                                  op_effect n f o f') /\
  (forall f', op_inside n o -> op_effect n f o f' ->
     exists v', vc_do o v = Some v' /\ holds v' (op_size n o) f').
Proof.
  intros o v n f [H1 H2].
  assert (SET : forall i b, 0 <= i < n ->
    exists v', vc_set i b v = Some v' /\
      forall f', f' i = b -> (forall e, e <> i -> f' e = f e) -> holds v' n f').
  { intros i b Hi. unfold vc_set. rewrite zset_some by lia.
    eexists; split; [reflexivity|]. intros f' F1 F2. split; [rewrite upd_length; exact H1|].
    intros e He. rewrite upd_nth_error by lia.
    destruct (Nat.eqb_spec (Z.to_nat e) (Z.to_nat i)).
    - replace e with i by lia. congruence.
    - rewrite F2 by lia. apply H2; exact He. }
  assert (RNG : forall b en s x, 1 <= s -> (forall y, selected b en s y -> 0 <= y < n) ->
    exists v', vc_set_range b en s x v = Some v' /\
      forall f', (forall e, selected b en s e -> f' e = x) ->
        (forall e, ~ selected b en s e -> f' e = f e) -> holds v' n f').
  { intros b en s x Hs Hi. rewrite <- H1 in Hi.
    destruct (set_range_ok b en s x v Hs Hi) as [v' [V1 [V2 V3]]].
    exists v'; split; [exact V1|]. intros f' F1 F2. split; [lia|].
    intros e He. destruct (V3 e ltac:(lia)) as [V4 V5].
    destruct (selected_dec b en s e Hs) as [D|D].
    - rewrite (V4 D), (F1 e D). reflexivity.
    - rewrite (V5 D), (F2 e D). apply H2; exact He. }
  assert (RSZ : forall m b, 0 <= m ->
    forall f', (forall e, e < n -> f' e = f e) -> (forall e, n <= e -> f' e = b) ->
      holds (vc_resize m b v) m f').
  { intros m b Hm f' F1 F2. unfold vc_resize. split.
    - rewrite app_length, firstn_length, repeat_length. lia.
    - intros e He. destruct (Z_lt_dec e n) as [L|L].
      + rewrite nth_error_app1 by (rewrite firstn_length; lia).
        rewrite firstn_nth by lia. rewrite F1 by exact L. apply H2; lia.
      + rewrite nth_error_app2 by (rewrite firstn_length; lia).
        rewrite firstn_length, F2 by lia. apply repeat_nth. lia. }
  assert (SELB : forall b en s, 1 <= s -> forall e,
     {selected b en s e} + {~ selected b en s e}).
  { intros b en s Hs e.
    destruct (Z_le_dec (b - 1) e); [|right; rewrite selected_mod by exact Hs; lia].
    destruct (Z_lt_dec e en); [|right; rewrite selected_mod by exact Hs; lia].
    destruct (Z.eq_dec ((e - (b - 1)) mod s) 0); [left|right];
      rewrite selected_mod by exact Hs; lia. }
  destruct o as [i|b en s|i|b en s|m d|]; cbn [op_inside op_size op_effect vc_do].
  - split.
    + intros Hi. destruct (SET i true Hi) as [v' [V1 V2]].
      exists v', (fun e => if e =? i then true else f e). split; [exact V1|].
      assert (E : (if i =? i then true else f i) = true) by (rewrite Z.eqb_refl; reflexivity).
      assert (E' : forall e, e <> i -> (if e =? i then true else f e) = f e).
      { intros e N. destruct (Z.eqb_spec e i); [contradiction|reflexivity]. }
      split; [apply V2; assumption|split; assumption].
    + intros f' Hi [F1 F2]. destruct (SET i true Hi) as [v' [V1 V2]].
      exists v'; split; [exact V1|apply V2; assumption].
  - split.
    + intros [Hs Hi]. destruct (RNG b en s true Hs Hi) as [v' [V1 V2]].
      exists v', (fun e => if SELB b en s Hs e then true else f e). split; [exact V1|].
      assert (E : forall e, selected b en s e -> (if SELB b en s Hs e then true else f e) = true).
      { intros e D. destruct (SELB b en s Hs e); [reflexivity|contradiction]. }
      assert (E' : forall e, ~ selected b en s e -> (if SELB b en s Hs e then true else f e) = f e).
      { intros e D. destruct (SELB b en s Hs e); [contradiction|reflexivity]. }
      split; [apply V2; assumption|split; assumption].
    + intros f' [Hs Hi] [F1 F2]. destruct (RNG b en s true Hs Hi) as [v' [V1 V2]].
      exists v'; split; [exact V1|apply V2; assumption].
  - split.
    + intros Hi. destruct (SET i false Hi) as [v' [V1 V2]].
      exists v', (fun e => if e =? i then false else f e). split; [exact V1|].
      assert (E : (if i =? i then false else f i) = false) by (rewrite Z.eqb_refl; reflexivity).
      assert (E' : forall e, e <> i -> (if e =? i then false else f e) = f e).
      { intros e N. destruct (Z.eqb_spec e i); [contradiction|reflexivity]. }
      split; [apply V2; assumption|split; assumption].
    + intros f' Hi [F1 F2]. destruct (SET i false Hi) as [v' [V1 V2]].
      exists v'; split; [exact V1|apply V2; assumption].
  - split.
    + intros [Hs Hi]. destruct (RNG b en s false Hs Hi) as [v' [V1 V2]].
      exists v', (fun e => if SELB b en s Hs e then false else f e). split; [exact V1|].
      assert (E : forall e, selected b en s e -> (if SELB b en s Hs e then false else f e) = false).
      { intros e D. destruct (SELB b en s Hs e); [reflexivity|contradiction]. }
      assert (E' : forall e, ~ selected b en s e -> (if SELB b en s Hs e then false else f e) = f e).
      { intros e D. destruct (SELB b en s Hs e); [contradiction|reflexivity]. }
      split; [apply V2; assumption|split; assumption].
    + intros f' [Hs Hi] [F1 F2]. destruct (RNG b en s false Hs Hi) as [v' [V1 V2]].
      exists v'; split; [exact V1|apply V2; assumption].
  - split.
    + intros Hm. exists (vc_resize m d v), (fun e => if e <? n then f e else d).
      assert (E : forall e, e < n -> (if e <? n then f e else d) = f e).
      { intros e L. destruct (Z.ltb_spec e n); [reflexivity|lia]. }
      assert (E' : forall e, n <= e -> (if e <? n then f e else d) = d).
      { intros e L. destruct (Z.ltb_spec e n); [lia|reflexivity]. }
      split; [reflexivity|]. split; [apply RSZ; assumption|split; assumption].
    + intros f' Hm [F1 F2]. eexists; split; [reflexivity|]. apply RSZ; assumption.
  - split.
    + intros _. exists [], f. split; [reflexivity|]. split; [split; [reflexivity|]|exact I].
      intros e He; lia.
    + intros f' _ _. exists []. split; [reflexivity|]. split; [reflexivity|].
      intros e He; lia.
Qed.

Lemma vc_run_ok : forall ops v n f, holds v n f -> ops_inside n ops ->
  exists v' n' f', vc_run ops v = Some v' /\ holds v' n' f' /\ ops_effect n f ops n' f'.
Proof.
  induction ops as [|o t IH]; intros v n f H I.
  - exists v, n, f. split; [reflexivity|split; [exact H|constructor]].
  - destruct I as [I1 I2]. destruct (vc_do_ok o v n f H) as [A _].
    destruct (A I1) as [v' [f' [D [H' E]]]].
    destruct (IH v' _ f' H' I2) as [v'' [n'' [f'' [R [H'' E'']]]]].
    exists v'', n'', f''. cbn [vc_run]. rewrite D. cbn [obind].
    split; [exact R|split; [exact H''|]]. econstructor; eassumption.
Qed.

Lemma vc_run_any : forall ops v n f n' f', holds v n f -> ops_inside n ops ->
  ops_effect n f ops n' f' ->
  exists v', vc_run ops v = Some v' /\ holds v' n' f'.
Proof.
  induction ops as [|o t IH]; intros v n f n' f' H I E.
  - inversion E; subst. exists v; split; [reflexivity|exact H].
  - destruct I as [I1 I2]. inversion E as [|? ? ? g ? ? ? E1 E2]; subst.
    destruct (vc_do_ok o v n f H) as [_ A].
    destruct (A g I1 E1) as [v1 [D H1]].
    destruct (IH v1 _ g n' f' H1 I2 E2) as [v2 [R H2]].
    exists v2. cbn [vc_run]. rewrite D. split; [exact R|exact H2].
Qed.

Lemma vc_do_inside : forall o v n f v', holds v n f -> 
  (forall b e s, o = OVerboseR b e s \/ o = OSilenceR b e s -> 1 <= s) ->
  (forall m d, o = OResize m d -> 0 <= m) ->
  vc_do o v = Some v' -> op_inside n o.
Proof.
  intros o v n f v' [H1 _] HS HM D. destruct o as [i|b en s|i|b en s|m d|];
    cbn [op_inside vc_do] in *; unfold vc_set in *; try exact I.
  - apply zset_inv in D as [D _]; lia.
  - assert (1 <= s) as Hs by (apply (HS b en s); auto). split; [exact Hs|].
    rewrite <- H1. exact (set_range_inside _ _ _ _ _ _ Hs D).
  - apply zset_inv in D as [D _]; lia.
  - assert (1 <= s) as Hs by (apply (HS b en s); auto). split; [exact Hs|].
    rewrite <- H1. exact (set_range_inside _ _ _ _ _ _ Hs D).
  - exact (HM m d eq_refl).
Qed.

(** ** Black and white lists *)

Definition bw_rep (w : bwlist) (l : listing) : Prop :=
  bw_white w = l_white l /\
  (forall t, In t (bw_types w) <-> In t (l_types l)) /\
  (forall i, In i (bw_idxs w) <-> In i (l_idxs l)).

Lemma bw_checkset_rep : forall b w l, bw_rep w l -> bw_rep (bw_checkset b w) (in_mode b l) /\
  bw_white (bw_checkset b w) = b /\ l_white (in_mode b l) = b.
Proof.
  intros b w l [R1 [R2 R3]]. unfold bw_checkset, in_mode. rewrite R1.
  destruct (l_white l) eqn:E, b; cbn; repeat split; try assumption; try tauto;
    try (apply R2); try (apply R3); try congruence.
Qed.

Lemma bw_do_rep : forall o w l, bw_rep w l -> bw_rep (bw_do o w) (list_op l o).
Proof.
  intros o w l R. destruct o as [b t|b i|b ts|b is| |b]; cbn [bw_do list_op];
    try (destruct (bw_checkset_rep b w l R) as [[R1 [R2 R3]] [Q1 Q2]]).
  - unfold bw_addType; split; [exact Q1|]; split; cbn; intros x.
    + rewrite in_app_iff, R2. cbn. tauto.
    + apply R3.
  - unfold bw_addIdx; split; [exact Q1|]; split; cbn; intros x.
    + apply R2.
    + rewrite in_app_iff, R3. cbn. tauto.
  - split; [exact Q1|]; split; cbn; intros x; [tauto|apply R3].
  - split; [exact Q1|]; split; cbn; intros x; [apply R2|tauto].
  - destruct R as [R1 _]. split; [exact R1|]; split; cbn; tauto.
  - split; [reflexivity|]; split; cbn; tauto.
Qed.

Lemma bw_ops_rep : forall ops w l, bw_rep w l ->
  bw_rep (fold_left (fun w o => bw_do o w) ops w) (fold_left list_op ops l).
Proof.
  induction ops as [|o t IH]; intros w l R; cbn; [exact R|].
  apply IH, bw_do_rep, R.
Qed.

Definition hit (w : bwlist) (i ty : Z) : bool :=
  existsb (fun e => e =? ty) (bw_types w) || existsb (fun e => e =? i) (bw_idxs w).

Lemma hit_listed : forall w l i ty, bw_rep w l -> (hit w i ty = true <-> listed l i ty).
Proof.
  intros w l i ty [_ [R2 R3]]. unfold hit, listed.
  rewrite orb_true_iff, !existsb_exists.
  split.
  - intros [[x [X1 X2]]|[x [X1 X2]]]; apply Z.eqb_eq in X2; subst x;
      [left; apply R2|right; apply R3]; exact X1.
  - intros [H|H]; [left; exists ty|right; exists i]; rewrite Z.eqb_refl;
      (split; [|reflexivity]); [apply R2|apply R3]; exact H.
Qed.

Lemma bw_updateAll_ok : forall ls w,
  (forall i ty, In (i, ty) ls -> 0 <= i < Z.of_nat (length (bw_cond w))) ->
  exists w', bw_updateAll ls w = Some w' /\
    bw_types w' = bw_types w /\ bw_idxs w' = bw_idxs w /\ bw_white w' = bw_white w /\
    length (bw_cond w') = length (bw_cond w) /\
    forall e, 0 <= e < Z.of_nat (length (bw_cond w)) ->
      ((exists ty, In (e, ty) ls /\ hit w e ty = true) ->
         nth_error (bw_cond w') (Z.to_nat e) = Some (bw_white w)) /\
      ((forall ty, In (e, ty) ls -> hit w e ty = false) ->
         nth_error (bw_cond w') (Z.to_nat e) = nth_error (bw_cond w) (Z.to_nat e)).
Proof.
  induction ls as [|[i ty] t IH]; intros w H; cbn [bw_updateAll].
  - exists w. repeat (split; [reflexivity|]). intros e He; split; [|reflexivity].
    intros [ty [[] _]].
  - unfold bw_updateLayer. fold (hit w i ty).
    pose proof (H i ty (or_introl eq_refl)) as Hi.
    destruct (hit w i ty) eqn:E.
    + unfold vc_set. rewrite (zset_some _ i _ Hi). cbn [obind].
      set (w1 := mkBw (upd (bw_cond w) (Z.to_nat i) (bw_white w)) (bw_types w) (bw_idxs w)
                      (bw_white w)).
      assert (HH : forall a b, hit w1 a b = hit w a b) by reflexivity.
      destruct (IH w1) as [w' [W1 [W2 [W3 [W4 [W5 W6]]]]]].
      { intros a b Hab. cbn [w1 bw_cond]. rewrite upd_length.
        apply (H a b). right; exact Hab. }
      cbn [w1 bw_cond bw_types bw_idxs bw_white] in W2, W3, W4, W5, W6.
      rewrite upd_length in W5, W6.
      exists w'; split; [exact W1|]. repeat (split; [assumption|]).
      intros e He. destruct (W6 e He) as [W7 W8].
      destruct (existsb (fun p => (fst p =? e) && hit w e (snd p)) t) eqn:X.
      * apply existsb_exists in X as [[a b] [X1 X2]]. cbn in X2.
        apply andb_prop in X2 as [X2 X3]. apply Z.eqb_eq in X2; subst a.
        split; [intros _; apply W7; exists b; split; assumption|].
        intros F. rewrite (F b) in X3 by (right; exact X1). discriminate X3.
      * assert (N : forall b, In (e, b) t -> hit w e b = false).
        { intros b Hb. destruct (hit w e b) eqn:Y; [|reflexivity].
          assert (existsb (fun p => (fst p =? e) && hit w e (snd p)) t = true) as Z.
          { apply existsb_exists. exists (e, b); cbn. rewrite Z.eqb_refl, Y; auto. }
          congruence. }
        rewrite (W8 N), upd_nth_error by lia.
        destruct (Nat.eqb_spec (Z.to_nat e) (Z.to_nat i)) as [Q|Q].
        -- split; [reflexivity|]. intros F. replace e with i in F by lia.
           rewrite (F ty) in E by (left; reflexivity). discriminate E.
        -- split; [|reflexivity]. intros [b [[B1|B1] B2]].
           ++ injection B1 as -> ->. lia.
           ++ rewrite (N b B1) in B2; discriminate B2.
    + cbn [obind]. destruct (IH w) as [w' [W1 [W2 [W3 [W4 [W5 W6]]]]]].
      { intros a b Hab; apply (H a b); right; exact Hab. }
      exists w'; split; [exact W1|]. repeat (split; [assumption|]).
      intros e He. destruct (W6 e He) as [W7 W8]. split.
      * intros [b [[B1|B1] B2]]; [injection B1 as -> ->; congruence|].
        apply W7; exists b; split; assumption.
      * intros F. apply W8. intros b Hb. apply F; right; exact Hb.
Qed.

Lemma bw_session_ok : forall white ops total ls,
  let l := fold_left list_op ops (mkL white [] []) in
  0 <= total ->
  (forall i ty, In (i, ty) ls -> 0 <= i < total) ->
  NoDup (map fst ls) ->
  exists w, bw_session total ls (fold_left (fun w o => bw_do o w) ops (bw_ctor white)) = Some w /\
    forall i ty, In (i, ty) ls ->
      exists b, bw_allowed w i = Some b /\
        (b = true <-> (if l_white l then listed l i ty else ~ listed l i ty)).
Proof.
  intros white ops total ls l Ht Hin ND.
  set (w0 := fold_left (fun w o => bw_do o w) ops (bw_ctor white)).
  assert (R0 : bw_rep w0 l).
  { apply bw_ops_rep. split; [reflexivity|]. split; cbn; tauto. }
  unfold bw_session.
  assert (R : bw_rep (bw_init total w0) l) by exact R0.
  assert (LEN : Z.of_nat (length (bw_cond (bw_init total w0))) = total).
  { cbn [bw_init bw_cond]. unfold vc_resize. rewrite app_length, firstn_length, repeat_length.
    cbn [length]. lia. }
  destruct (bw_updateAll_ok ls (bw_init total w0)) as [w' [W1 [_ [_ [W4 [W5 W6]]]]]].
  { rewrite LEN. exact Hin. }
  rewrite LEN in W6.
  exists w'; split; [exact W1|].
  intros i ty Hi. pose proof (Hin i ty Hi) as Bi.
  destruct (W6 i Bi) as [W7 W8].
  unfold bw_allowed, vc_ask, zget. destruct (Z.ltb_spec i 0); [lia|]. unfold bget.
  assert (U : forall ty', In (i, ty') ls -> ty' = ty).
  { clear - ND Hi. induction ls as [|[a b] t IH]; [destruct Hi|]. cbn in ND.
    inversion ND as [|? ? N1 N2]; subst. intros ty' [H|H]; destruct Hi as [Hi|Hi].
    - congruence.
    - injection H as -> ->. exfalso; apply N1. apply in_map_iff; exists (i, ty); auto.
    - injection Hi as -> ->. exfalso; apply N1. apply in_map_iff; exists (i, ty'); auto.
    - apply IH; assumption. }
  pose proof (hit_listed _ _ i ty R) as HL.
  destruct R as [RW _]. 
  destruct (hit (bw_init total w0) i ty) eqn:E.
  - rewrite W7 by (exists ty; auto). rewrite RW.
    exists (l_white l); split; [reflexivity|].
    assert (listed l i ty) as L by (apply HL; reflexivity).
    destruct (l_white l); [tauto|]. split; [discriminate|tauto].
  - rewrite W8 by (intros ty' Hy; rewrite (U ty' Hy); exact E).
    assert (~ listed l i ty) as L by (rewrite <- HL; discriminate).
    cbn [bw_init bw_cond]. unfold vc_resize. cbn [length].
    rewrite firstn_nil. cbn [app]. rewrite repeat_nth by lia.
    exists (negb (bw_white w0)); split; [reflexivity|].
    replace (bw_white w0) with (l_white l) by (symmetry; exact RW).
    destruct (l_white l); cbn; [split; [discriminate|tauto]|tauto].
Qed.
