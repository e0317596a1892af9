(** One buffer: what is in it was put there, whatever the producers do. *)
From Coq Require Import Lia.
From Verif Require Import Base BaseLemmas DataBuf_Model DataBuf_Spec DataBuf_Proofs.

Section B.
Context {A : Type} (P : A -> Prop).
Definition okc (b : dbuf A) (i : nat) : Prop := exists v, nth_error (b_mem b) i = Some v /\ P v.
Definition all_ok (b : dbuf A) : Prop := forall i, i < b_total b -> okc b i.
Record binv (b : dbuf A) : Prop := {
  bi_cur : b_cur b <= b_total b; bi_alv : b_alv b <= b_total b; bi_alc : b_alc b <= b_total b;
  bi_lo : forall i, i < b_alv b -> okc b i; bi_lc : forall i, i < b_cur b -> okc b i;
  bi_e : b_empty b = true -> b_cur b = b_alv b;
  bi_f : b_empty b = false -> b_alv b <= b_cur b -> all_ok b }.
(** a range of n elements the consumer holds *)
Record hinv (b : dbuf A) (r : range) (n : nat) : Prop := {
  hi_p : r_p1 r = b_cur b; hi_in : r_p1 r + r_n1 r <= b_total b;
  hi_n : n = r_n1 r + match r_p2 r with Some _ => r_n2 r | None => 0 end;
  hi_2 : forall p, r_p2 r = Some p -> p = 0 /\ r_n2 r <= b_total b /\ all_ok b;
  hi_e : b_empty b = false;
  hi_ok : all_ok b \/ (r_p2 r = None /\ b_cur b + r_n1 r <= b_alv b) }.
Definition ext (b b' : dbuf A) : Prop := b_total b' = b_total b /\ forall i, okc b i -> okc b' i.

Lemma ext_all b b' : ext b b' -> all_ok b -> all_ok b'.
Proof. intros [E X] H i Hi. apply X, H. lia. Qed.

Lemma new_inv mem : binv (db_new mem).
Proof. unfold db_new. constructor; cbn; try lia; discriminate. Qed.

Lemma claim_inv b n r b' : binv b -> should_work b n = (r, b') ->
  binv b' /\ r <= n /\ ext b b' /\ (forall h k, hinv b h k -> hinv b' h k).
Proof.
  intros I E.
  assert (K : exists a, b' = mkB (b_mem b) (b_cur b) (b_alv b) a (b_empty b) /\ a <= b_total b /\ r <= n).
  { destruct b as [mem cur alv alc e]. destruct I as [I1 I2 I3 _ _ _ _]. unfold should_work, b_total in *. cbn [b_mem b_cur b_alv b_alc b_empty] in *. cbv zeta in *.
    repeat match type of E with (if ?c then _ else _) = _ => destruct c eqn:? end; injection E as <- <-; (eexists; split; [reflexivity|]);
    rewrite ?Bool.negb_true_iff, ?Bool.negb_false_iff, ?Nat.leb_le, ?Nat.leb_gt, ?Nat.ltb_lt, ?Nat.ltb_ge in *;
    repeat match goal with |- context[if ?c then _ else _] => destruct c eqn:? | H : context[if ?c then _ else _] |- _ => destruct c eqn:? end; lia. }
  destruct K as (a & -> & Ha & Hr). destruct I as [I1 I2 I3 I4 I5 I6 I7].
  split; [constructor; assumption|]. split; [exact Hr|]. split; [split; [reflexivity|auto]|].
  intros h k [H1 H2 H3 H4 H5 H6]. constructor; assumption.
Qed.

Lemma put_ok (mem mem' : list A) ofs d : Forall P d ->
  (forall i, nth_error mem' i = if (ofs <=? i) && (i <? ofs + length d) then nth_error d (i - ofs) else nth_error mem i) ->
  forall i, (ofs <= i < ofs + length d -> exists v, nth_error mem' i = Some v /\ P v) /\
            ((exists v, nth_error mem i = Some v /\ P v) -> exists v, nth_error mem' i = Some v /\ P v).
Proof.
  intros F E i. assert (K : ofs <= i < ofs + length d -> exists v, nth_error mem' i = Some v /\ P v).
  { intros H. rewrite E. replace ((ofs <=? i) && (i <? ofs + length d)) with true by (symmetry; apply Bool.andb_true_iff; rewrite Nat.leb_le, Nat.ltb_lt; lia).
    destruct (nth_error d (i - ofs)) as [v|] eqn:Ev; [|apply nth_error_None in Ev; lia].
    exists v. split; [reflexivity|]. rewrite Forall_forall in F. apply F. eapply nth_error_In; eassumption. }
  split; [exact K|]. intros H. destruct ((ofs <=? i) && (i <? ofs + length d)) eqn:C.
  - apply K. apply Bool.andb_true_iff in C. rewrite Nat.leb_le, Nat.ltb_lt in C. exact C.
  - rewrite E, C. exact H.
Qed.
Lemma Forall_firstn' {B} (Q : B -> Prop) n l : Forall Q l -> Forall Q (firstn n l).
Proof. intros H. rewrite <- (firstn_skipn n l) in H. apply Forall_app in H. tauto. Qed.
Lemma Forall_skipn' {B} (Q : B -> Prop) n l : Forall Q l -> Forall Q (skipn n l).
Proof. intros H. rewrite <- (firstn_skipn n l) in H. apply Forall_app in H. tauto. Qed.

(** the position the producers have reached moves over cells that were just written *)
Lemma moved b mem' alv' : binv b -> length mem' = b_total b -> alv' <= b_total b -> b_alv b < alv' ->
  (forall i, okc b i -> exists v, nth_error mem' i = Some v /\ P v) ->
  (forall i, b_alv b <= i < alv' -> exists v, nth_error mem' i = Some v /\ P v) ->
  let b' := mkB mem' (b_cur b) alv' (b_alc b) false in
  binv b' /\ ext b b' /\ forall h k, hinv b h k -> hinv b' h k.
Proof.
  intros [I1 I2 I3 I4 I5 I6 I7] L Ha Hl X N b'. assert (T : b_total b' = b_total b) by exact L.
  assert (XX : ext b b') by (split; [exact T|exact X]).
  split; [|split; [exact XX|]].
  - constructor; try rewrite T; cbn; try lia; try assumption.
    + intros i Hi. destruct (Nat.lt_ge_cases i (b_alv b)); [apply X, I4; assumption|apply N; lia].
    + intros i Hi. apply X, I5, Hi.
    + intros _ Hc. destruct (b_empty b) eqn:Ee; [specialize (I6 eq_refl); lia|]. apply (ext_all b); [exact XX|]. apply I7; [reflexivity|lia].
  - intros h k [H1 H2 H3 H4 H5 H6]. constructor; try rewrite T; try assumption; try reflexivity.
    + intros p Hp. destruct (H4 p Hp) as (? & ? & ?). split; [assumption|]. split; [assumption|]. apply (ext_all b); assumption.
    + destruct H6 as [H6|[H6 H7]]; [left; apply (ext_all b); assumption|right]. split; [exact H6|]. cbn. lia.
Qed.

Lemma fill_inv b d : binv b -> Forall P d -> 0 < length d ->
  exists b', as_done b d = Some b' /\ binv b' /\ ext b b' /\ forall h k, hinv b h k -> hinv b' h k.
Proof.
  intros I F Hd. pose proof I as [I1 I2 I3 I4 I5 I6 I7]. unfold as_done.
  destruct (b_alv b <? b_alc b) eqn:C1; [apply Nat.ltb_lt in C1|apply Nat.ltb_ge in C1].
  - set (ds := if b_alc b - b_alv b <? length d then b_alc b - b_alv b else length d).
    assert (Hds : 0 < ds /\ ds <= length d /\ b_alv b + ds <= b_alc b).
    { unfold ds. destruct (Nat.ltb_spec (b_alc b - b_alv b) (length d)); lia. }
    assert (Lf : length (firstn ds d) = ds) by (rewrite firstn_length; lia).
    destruct (copy2buf_spec (firstn ds d) (b_mem b) (b_alv b)) as (m & -> & L & E); [unfold b_total in *; lia|].
    cbn [obind]. eexists. split; [reflexivity|].
    pose proof (put_ok _ _ _ _ (Forall_firstn' P ds d F) E) as K.
    apply moved; [exact I|exact L|lia|lia|intros i Hi; apply (proj2 (K i)), Hi|intros i Hi; apply (proj1 (K i)); lia].
  - destruct (length d <=? b_total b - b_alv b) eqn:C2; [apply Nat.leb_le in C2|apply Nat.leb_gt in C2].
    + destruct (copy2buf_spec d (b_mem b) (b_alv b)) as (m & -> & L & E); [unfold b_total in *; lia|].
      cbn [obind]. eexists. split; [reflexivity|].
      pose proof (put_ok _ _ _ _ F E) as K.
      apply moved; [exact I|exact L|lia|lia|intros i Hi; apply (proj2 (K i)), Hi|intros i Hi; apply (proj1 (K i)); lia].
    + set (bs1 := b_total b - b_alv b) in *.
      assert (Lf : length (firstn bs1 d) = bs1) by (rewrite firstn_length; lia).
      destruct (copy2buf_spec (firstn bs1 d) (b_mem b) (b_alv b)) as (m & -> & L & E); [unfold b_total in *; lia|]. cbn [obind].
      set (bs2 := if length d - bs1 <? b_alc b then length d - bs1 else b_alc b).
      assert (Hb2 : bs2 <= b_alc b /\ bs2 <= length d - bs1) by (unfold bs2; destruct (Nat.ltb_spec (length d - bs1) (b_alc b)); lia).
      assert (Lf2 : length (firstn bs2 (skipn bs1 d)) = bs2) by (rewrite firstn_length, skipn_length; lia).
      destruct (copy2buf_spec (firstn bs2 (skipn bs1 d)) m 0) as (m' & -> & L' & E'); [unfold b_total in *; lia|]. cbn [obind].
      eexists. split; [reflexivity|].
      pose proof (put_ok _ _ _ _ (Forall_firstn' P bs1 d F) E) as K. pose proof (put_ok _ _ _ _ (Forall_firstn' P bs2 _ (Forall_skipn' P bs1 d F)) E') as K'.
      set (b' := mkB m' (b_cur b) bs2 (b_alc b) false). assert (T : b_total b' = b_total b) by (unfold b_total, b'; cbn; congruence).
      assert (XX : ext b b'). { split; [exact T|]. intros i Hi. apply (proj2 (K' i)), (proj2 (K i)), Hi. }
      assert (AO : all_ok b').
      { intros i Hi. rewrite T in Hi. apply (proj2 (K' i)). destruct (Nat.lt_ge_cases i (b_alv b)) as [Hc|Hc]; [apply (proj2 (K i)), I4, Hc|apply (proj1 (K i)); lia]. }
      split; [|split; [exact XX|]].
      * constructor; try rewrite T; cbn; try lia; try assumption.
        -- intros i Hi. apply AO. rewrite T. lia.
        -- intros i Hi. apply AO. rewrite T. lia.
        -- intros _ _. exact AO.
      * intros h k [H1 H2 H3 H4 H5 H6]. constructor; try rewrite T; try assumption; try reflexivity.
        -- intros p Hp. destruct (H4 p Hp) as (? & ? & ?). auto.
        -- left. exact AO.
Qed.

Lemma acquire_inv b n r : binv b -> acquire b n = Some r -> hinv b r n /\ 0 < n.
Proof.
  intros [I1 I2 I3 I4 I5 I6 I7]. unfold acquire. destruct (b_empty b) eqn:Ee; cbn [negb andb]; [discriminate|].
  destruct (n =? 0) eqn:En; cbn [negb]; [discriminate|]. apply Nat.eqb_neq in En.
  destruct (b_cur b <? b_alv b) eqn:C1; [apply Nat.ltb_lt in C1|apply Nat.ltb_ge in C1].
  - destruct (b_cur b + n <=? b_alv b) eqn:C2; [apply Nat.leb_le in C2|discriminate]. intros [= <-]. split; [|lia].
    constructor; cbn; try lia; try reflexivity; try discriminate; try assumption. right. split; [reflexivity|lia].
  - specialize (I7 eq_refl C1). destruct (b_cur b + n <=? b_total b) eqn:C2; [apply Nat.leb_le in C2|apply Nat.leb_gt in C2].
    + intros [= <-]. split; [|lia]. constructor; cbn; try lia; try reflexivity; try discriminate; try assumption. left; assumption.
    + destruct (n - (b_total b - b_cur b) <=? b_alv b) eqn:C3; [apply Nat.leb_le in C3|discriminate]. intros [= <-]. split; [|lia].
      constructor; cbn; try lia; try reflexivity; try assumption; [|left; assumption]. intros p [= <-]. split; [reflexivity|]. split; [lia|assumption].
Qed.

Lemma held_get b r n k : binv b -> hinv b r n -> k < n -> exists v, feeder_get b r k = Some v /\ P v.
Proof.
  intros [I1 I2 I3 I4 I5 I6 I7] [H1 H2 H3 H4 H5 H6] Hk. unfold feeder_get, bget.
  destruct (r_n1 r <=? k) eqn:C; [apply Nat.leb_le in C|apply Nat.leb_gt in C].
  - destruct (r_p2 r) as [p|] eqn:Ep; [|lia]. destruct (H4 p eq_refl) as (-> & B & AO).
    rewrite (proj2 (Nat.ltb_lt _ _)) by lia. cbn [Nat.add]. apply AO. lia.
  - destruct H6 as [AO|[_ Hl]]; [apply AO; lia|]. apply I4. lia.
Qed.

Lemma release_inv b r n : binv b -> hinv b r n -> binv (release b r).
Proof.
  intros [I1 I2 I3 I4 I5 I6 I7] [H1 H2 H3 H4 H5 H6]. unfold release.
  set (cur := match r_p2 r with Some _ => r_n2 r | None => b_cur b + r_n1 r end).
  assert (Hc : cur <= b_total b). { unfold cur. destruct (r_p2 r) as [p|] eqn:Ep; [destruct (H4 p eq_refl) as (_ & ? & _); assumption|lia]. }
  assert (Hcells : all_ok b \/ cur <= b_alv b).
  { destruct H6 as [AO|[Ep Hl]]; [left; exact AO|right]. unfold cur. rewrite Ep. exact Hl. }
  destruct (b_total b <=? cur) eqn:C; [apply Nat.leb_le in C|apply Nat.leb_gt in C].
  - assert (AO : all_ok b). { destruct Hcells as [AO|Hl]; [exact AO|]. intros i Hi. apply I4. lia. }
    set (alv := if b_alv b =? b_total b then 0 else b_alv b). set (alc := if b_alc b =? b_total b then 0 else b_alc b).
    assert (Ha : alv <= b_total b) by (unfold alv; destruct (b_alv b =? b_total b); lia).
    assert (Hb : alc <= b_total b) by (unfold alc; destruct (b_alc b =? b_total b); lia).
    set (b' := mkB (b_mem b) 0 alv alc (0 =? alv)). assert (T : b_total b' = b_total b) by reflexivity. assert (AO' : all_ok b') by exact AO.
    constructor; rewrite ?T.
    + cbn [b_cur b']. lia.
    + exact Ha.
    + exact Hb.
    + intros i Hi. apply AO'. rewrite T. cbn [b_alv b'] in Hi. lia.
    + intros i Hi. cbn [b_cur b'] in Hi. lia.
    + intros Hz. apply Nat.eqb_eq in Hz. exact Hz.
    + intros _ _. exact AO'.
  - constructor; cbn; try lia; try assumption.
    + intros i Hi. destruct Hcells as [AO|Hl]; [apply AO; lia|apply I4; lia].
    + intros Hz Hl. apply Nat.eqb_neq in Hz. destruct Hcells as [AO|Hl']; [exact AO|lia].
Qed.
End B.
