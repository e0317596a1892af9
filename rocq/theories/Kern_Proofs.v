From Coq Require Import Permutation.
From Verif Require Import Base BaseLemmas Workers_Model Workers_Spec Workers_Final
  Kern_Model Kern_Spec.

(** ** Ranges *)

Lemma in_idxs r i : In i (idxs r) <-> r_ofs r <= i < r_ofs r + r_cnt r.
Proof. unfold idxs. rewrite in_seq. reflexivity. Qed.

Lemma tiles_in parts cnt p i : tiles parts cnt -> In p parts -> In i (idxs p) -> i < cnt.
Proof.
  intros [HP _] Hp Hi.
  assert (H : In i (flat_map idxs parts)) by (apply in_flat_map; eauto).
  rewrite HP in H. apply in_seq in H. lia.
Qed.

Lemma tiles_cover parts cnt i : tiles parts cnt -> i < cnt -> exists p, In p parts /\ In i (idxs p).
Proof.
  intros [HP _] Hi.
  assert (H : In i (flat_map idxs parts)) by (rewrite HP; apply in_seq; lia).
  apply in_flat_map in H. exact H.
Qed.

Lemma tiles_bound parts cnt p : tiles parts cnt -> In p parts ->
  0 < r_cnt p /\ r_ofs p + r_cnt p <= cnt.
Proof.
  intros HT Hp. pose proof (proj2 HT p Hp) as H0. split; [exact H0|].
  assert (r_ofs p + r_cnt p - 1 < cnt); [|lia].
  apply (tiles_in parts cnt p); auto. apply in_idxs. lia.
Qed.

Lemma whole_tiles cnt : 0 < cnt -> tiles (whole cnt) cnt.
Proof.
  intros H. unfold tiles, whole. simpl. unfold idxs. simpl. rewrite app_nil_r.
  split; [reflexivity|]. intros p [<-|[]]. exact H.
Qed.

Lemma run_ranges_tiles rs req cnt : 0 < cnt -> tiles (run_ranges rs req cnt) cnt.
Proof.
  intros H. unfold run_ranges. destruct (Nat.leb_spec cnt 1) as [Hc|Hc].
  - apply whole_tiles. exact H.
  - destruct (partition cnt req rs) as [[w rs'] ofs] eqn:E.
    destruct (partition_exact _ _ _ _ _ _ Hc E) as (H1 & _ & _ & H2 & _).
    unfold tiles. rewrite H1. split; [reflexivity|]. intros p Hp. apply H2. exact Hp.
Qed.

Lemma NoDup_app_r {X} (l l' : list X) : NoDup (l ++ l') -> NoDup l'.
Proof. induction l as [|x l IH]; simpl; intros H; [exact H|]. inversion_clear H. auto. Qed.

Lemma NoDup_flat_map_disjoint {X Y} (f : X -> list Y) l i j x y b :
  NoDup (flat_map f l) -> nth_error l i = Some x -> nth_error l j = Some y -> i <> j ->
  In b (f x) -> ~ In b (f y).
Proof.
  revert i j. induction l as [|z l IH]; intros i j HN Hi Hj Hij Hx Hy.
  - destruct i; discriminate.
  - simpl in HN. 
    assert (Hd : forall b, In b (f z) -> ~ In b (flat_map f l)).
    { clear - HN. intros b H1 H2. induction (f z) as [|c k IHk]; [destruct H1|].
      simpl in HN. inversion_clear HN. destruct H1 as [->|H1].
      - apply H. apply in_or_app. auto.
      - auto. }
    apply NoDup_app_r in HN.
    destruct i as [|i], j as [|j]; simpl in Hi, Hj.
    + lia.
    + injection Hi as ->. apply (Hd _ Hx). apply in_flat_map.
      exists y. split; [eapply nth_error_In; eauto|assumption].
    + injection Hj as ->. apply (Hd _ Hy). apply in_flat_map.
      exists x. split; [eapply nth_error_In; eauto|assumption].
    + eapply (IH i j); eauto.
Qed.

(** ** Writes *)

Lemma apply_writes_consistent {A} (F : nat -> option A) ws : forall d,
  (forall a v, In (a, v) ws -> a < length d /\ F a = Some v) ->
  exists d', apply_writes d ws = Some d' /\ length d' = length d /\
    (forall a, (exists v, In (a, v) ws) -> bget d' a = F a) /\
    (forall a, (forall v, ~ In (a, v) ws) -> bget d' a = bget d a).
Proof.
  induction ws as [|[a v] ws IH]; intros d H; simpl.
  - exists d. split; [reflexivity|]. split; [reflexivity|]. split; [|auto].
    intros a [v []].
  - destruct (H a v) as [Hl HF]; [left; reflexivity|].
    destruct (bset_lt d a v Hl) as [d1 E1]. rewrite E1. simpl.
    destruct (bset_some _ _ _ _ E1) as (_ & HL & Hb).
    destruct (IH d1) as (d' & E' & HL' & Hin & Hout).
    { intros a' v' Hin. rewrite HL. apply H. right. exact Hin. }
    exists d'. split; [exact E'|]. split; [congruence|].
    assert (Hdec : forall a', (exists v', In (a', v') ws) \/ (forall v', ~ In (a', v') ws)).
    { intros a'. destruct (in_dec Nat.eq_dec a' (map fst ws)) as [Hi|Hn].
      - left. apply in_map_iff in Hi. destruct Hi as [[a2 v2] [<- Hi]]. eauto.
      - right. intros v' Hi. apply Hn. apply in_map_iff. exists (a', v'). auto. }
    split.
    + intros a' [v' [Heq|Hi]].
      * injection Heq as <- <-. destruct (Hdec a) as [Hy|Hn].
        -- apply Hin. exact Hy.
        -- rewrite Hout by exact Hn. rewrite Hb, Nat.eqb_refl. congruence.
      * apply Hin. eauto.
    + intros a' Hn. rewrite Hout.
      * rewrite Hb. destruct (Nat.eqb_spec a' a) as [->|_]; [|reflexivity].
        exfalso. apply (Hn v). left. reflexivity.
      * intros v' Hi. apply (Hn v'). right. exact Hi.
Qed.

Lemma in_upd {X} (l : list X) i v y : In y (upd l i v) -> y = v \/ In y l.
Proof.
  revert i. induction l as [|x l IH]; intros [|i] H; simpl in *; auto.
  - destruct H as [<-|H]; auto.
  - destruct H as [<-|H]; auto. apply IH in H. destruct H; auto.
Qed.

Lemma interleaving_in {X} (ts : list (list X)) ws :
  interleaving ts ws -> forall y, In y ws <-> exists t, In t ts /\ In y t.
Proof.
  induction 1 as [ts Hn|ts i x t ws Hi Hil IH]; intros y.
  - rewrite Forall_forall in Hn. split; [intros []|]. intros (t & Ht & Hy).
    rewrite (Hn t Ht) in Hy. destruct Hy.
  - simpl. rewrite IH. split.
    + intros [<-|(t' & Ht' & Hy)].
      * exists (x :: t). split; [eapply nth_error_In; eauto|left; reflexivity].
      * apply in_upd in Ht'. destruct Ht' as [->|Ht']; [|eauto].
        exists (x :: t). split; [eapply nth_error_In; eauto|right; exact Hy].
    + intros (t' & Ht' & Hy).
      apply In_nth_error in Ht'. destruct Ht' as [j Hj].
      destruct (Nat.eq_dec j i) as [->|Hne].
      * rewrite Hi in Hj. injection Hj as <-. destruct Hy as [<-|Hy]; [auto|].
        right. exists t. split; [|exact Hy].
        eapply nth_error_In. eapply upd_nth_same; eauto.
      * right. exists t'. split; [|exact Hy].
        eapply nth_error_In. rewrite upd_nth_other; eauto.
Qed.

Theorem computes_intro {A} (kern : prange -> option (list (wr A))) parts cnt (d : list A)
  (F : nat -> option A) (dom : nat -> Prop) (owner : nat -> nat) (post : list A -> Prop) :
  tiles parts cnt ->
  (forall p, In p parts -> 0 < r_cnt p -> r_ofs p + r_cnt p <= cnt ->
     exists t, kern p = Some t /\
     (forall a v, In (a, v) t -> dom a /\ r_ofs p <= owner a < r_ofs p + r_cnt p /\ F a = Some v) /\
     (forall a, dom a -> r_ofs p <= owner a < r_ofs p + r_cnt p -> exists v, In (a, v) t)) ->
  (forall a, dom a -> a < length d /\ owner a < cnt) ->
  (forall d', length d' = length d ->
     (forall a, dom a -> bget d' a = F a /\ F a <> None) ->
     (forall a, ~ dom a -> bget d' a = bget d a) -> post d') ->
  computes (par kern parts) d post.
Proof.
  intros HT Hk Hdom Hpost.
  assert (HF : exists trs, Forall2 (fun p t => kern p = Some t) parts trs).
  { assert (Hk' : forall p, In p parts -> exists t, kern p = Some t).
    { intros p Hp. destruct (tiles_bound _ _ _ HT Hp).
      destruct (Hk p) as (t & Ht & _); eauto. }
    clear - Hk'. induction parts as [|p parts IH].
    - exists []. constructor.
    - destruct (Hk' p) as [t Ht]; [left; reflexivity|].
      destruct IH as [trs Htrs]; [intros q Hq; apply Hk'; right; exact Hq|].
      exists (t :: trs). constructor; assumption. }
  destruct HF as [trs HF]. exists trs. split; [clear - HF; induction HF as [|p t parts trs Hpt _ IH]; simpl; [reflexivity|]; rewrite Hpt, IH; reflexivity|].
  assert (Hnth : forall i t, nth_error trs i = Some t ->
            exists p, nth_error parts i = Some p /\ kern p = Some t).
  { clear - HF. induction HF as [|p t parts trs Hpt _ IH]; intros i t' Hi.
    - destruct i; discriminate.
    - destruct i as [|i]; simpl in *; [injection Hi as <-; eauto|auto]. }
  assert (Hnth2 : forall p, In p parts -> exists t, In t trs /\ kern p = Some t).
  { clear - HF. induction HF as [|p t parts trs Hpt _ IH]; intros q Hq; [destruct Hq|].
    destruct Hq as [<-|Hq]; [exists t; simpl; auto|].
    destruct (IH q Hq) as (t' & ? & ?). exists t'. simpl. auto. }
  assert (Hsnd : forall i t a v, nth_error trs i = Some t -> In (a, v) t ->
            exists p, nth_error parts i = Some p /\ dom a /\ In (owner a) (idxs p) /\ F a = Some v).
  { intros i t a v Hi Hin. destruct (Hnth _ _ Hi) as (p & Hp & Ht).
    exists p. split; [exact Hp|]. apply nth_error_In in Hp.
    destruct (tiles_bound _ _ _ HT Hp).
    destruct (Hk p) as (t' & Ht' & Hs & _); auto.
    rewrite Ht in Ht'. injection Ht' as <-. destruct (Hs _ _ Hin) as (H1 & H2 & H3).
    split; [exact H1|]. split; [apply in_idxs; exact H2|exact H3]. }
  split.
  - intros i j ti tj a v v' Hij Hi Hj Hai Haj.
    destruct (Hsnd _ _ _ _ Hi Hai) as (p & Hp & _ & Ho & _).
    destruct (Hsnd _ _ _ _ Hj Haj) as (q & Hq & _ & Ho' & _).
    refine (NoDup_flat_map_disjoint idxs parts i j p q (owner a) _ Hp Hq Hij Ho Ho').
    eapply Permutation_NoDup; [symmetry; apply (proj1 HT)|apply seq_NoDup].
  - intros ws Hil. pose proof (interleaving_in _ _ Hil) as Hin.
    destruct (apply_writes_consistent F ws d) as (d' & E & HL & Hw & Hnw).
    { intros a v Hav. apply Hin in Hav. destruct Hav as (t & Ht & Hav).
      apply In_nth_error in Ht. destruct Ht as [i Ht].
      destruct (Hsnd _ _ _ _ Ht Hav) as (p & _ & Hd & _ & HFa).
      split; [apply Hdom; exact Hd|exact HFa]. }
    exists d'. split; [exact E|]. split; [exact HL|].
    apply Hpost; [exact HL| |].
    + intros a Ha. destruct (Hdom a Ha) as [_ Hoc].
      destruct (tiles_cover _ _ _ HT Hoc) as (p & Hp & Hop).
      destruct (Hnth2 p Hp) as (t & Ht & Hkp). destruct (tiles_bound _ _ _ HT Hp).
      destruct (Hk p) as (t' & Ht' & Hs & Hc); auto.
      rewrite Hkp in Ht'. injection Ht' as <-.
      destruct (Hc a Ha) as [v Hv]; [apply in_idxs; exact Hop|].
      split.
      * apply Hw. exists v. apply Hin. eauto.
      * destruct (Hs _ _ Hv) as (_ & _ & ->). discriminate.
    + intros a Ha. apply Hnw. intros v Hv. apply Ha. apply Hin in Hv.
      destruct Hv as (t & Ht & Hv). apply In_nth_error in Ht. destruct Ht as [i Ht].
      destruct (Hsnd _ _ _ _ Ht Hv) as (p & _ & Hd & _). exact Hd.
Qed.

(** ** Loops *)

Lemma wfor_closed {S W} lo n body (st : nat -> S) (ws : nat -> list W) :
  (forall i, lo <= i < lo + n -> body i (st i) = Some (st (i + 1), ws i)) ->
  wfor lo n body (st lo) = Some (st (lo + n), flat_map ws (seq lo n)).
Proof.
  revert lo. induction n as [|n IH]; intros lo H; simpl.
  - rewrite Nat.add_0_r. reflexivity.
  - rewrite H by lia. simpl.
    replace (lo + 1) with (Datatypes.S lo) by lia.
    rewrite IH.
    + simpl. replace (lo + Datatypes.S n) with (Datatypes.S (lo + n)) by lia. reflexivity.
    + intros i Hi. apply H. lia.
Qed.

Lemma wwhile_closed {S W} k : forall fuel p pE step body (st : nat -> S) (ws : nat -> list W) i0,
  0 < step -> pE = p + k * step -> k <= fuel ->
  (forall i, i0 <= i < i0 + k -> body (p + (i - i0) * step) (st i) = Some (st (i + 1), ws i)) ->
  wwhile fuel p pE step body (st i0) = Some (st (i0 + k), flat_map ws (seq i0 k)).
Proof.
  induction k as [|k IH]; intros fuel p pE step body st ws i0 Hs HE Hf H.
  - replace pE with p by lia. destruct fuel; simpl; rewrite Nat.eqb_refl, Nat.add_0_r; reflexivity.
  - destruct fuel as [|fuel]; [lia|]. simpl wwhile.
    destruct (Nat.eqb_spec p pE) as [He|_]; [nia|].
    destruct (Nat.ltb_spec pE p) as [He|_]; [nia|].
    pose proof (H i0) as H0. replace (p + (i0 - i0) * step) with p in H0 by lia.
    rewrite H0 by lia. cbn [obind].
    replace (i0 + 1) with (Datatypes.S i0) by lia.
    rewrite (IH fuel (p + step) pE step body st ws (Datatypes.S i0)); [|lia|nia|lia|].
    + cbn [obind]. replace (Datatypes.S i0 + k) with (i0 + Datatypes.S k) by lia. reflexivity.
    + intros i Hi. replace (p + step + (i - Datatypes.S i0) * step) with (p + (i - i0) * step) by nia.
      apply H. lia.
Qed.

Lemma ptr_loop_closed {S W} k p pE step body (st : nat -> S) (ws : nat -> list W) :
  0 < step -> pE = p + k * step ->
  (forall i, i < k -> body (p + i * step) (st i) = Some (st (i + 1), ws i)) ->
  ptr_loop p pE step body (st 0) = Some (st k, flat_map ws (seq 0 k)).
Proof.
  intros Hs HE H. unfold ptr_loop.
  rewrite (wwhile_closed k (pE - p) p pE step body st ws 0); auto; [nia|].
  intros i Hi. rewrite Nat.sub_0_r. apply H. lia.
Qed.

Lemma wfor_closed' {S W} lo n body s (st : nat -> S) (ws : nat -> list W) :
  s = st lo ->
  (forall i, lo <= i < lo + n -> body i (st i) = Some (st (i + 1), ws i)) ->
  wfor lo n body s = Some (st (lo + n), flat_map ws (seq lo n)).
Proof. intros ->. apply wfor_closed. Qed.

Lemma ptr_loop_closed' {S W} k p pE step body s (st : nat -> S) (ws : nat -> list W) :
  s = st 0 -> 0 < step -> pE = p + k * step ->
  (forall i, i < k -> body (p + i * step) (st i) = Some (st (i + 1), ws i)) ->
  ptr_loop p pE step body s = Some (st k, flat_map ws (seq 0 k)).
Proof. intros ->. apply ptr_loop_closed. Qed.

(** the writes of a memcpy *)
Definition mc {A} (src : list A) so dof n : list (wr A) :=
  flat_map (fun i => match bget src (so + i) with Some v => [(dof + i, v)] | None => [] end) (seq 0 n).

Lemma memcpy_closed {A} (src : list A) so dof n :
  so + n <= length src -> memcpy_tr src so dof n = Some (mc src so dof n).
Proof.
  intros H. unfold memcpy_tr.
  rewrite (wfor_closed 0 n _ (fun _ => tt)
    (fun i => match bget src (so + i) with Some v => [(dof + i, v)] | None => [] end)).
  - reflexivity.
  - intros i Hi. destruct (bget_lt src (so + i)) as [v Hv]; [lia|]. rewrite Hv. reflexivity.
Qed.

Lemma in_mc {A} (src : list A) so dof n a v :
  In (a, v) (mc src so dof n) <-> exists i, i < n /\ a = dof + i /\ bget src (so + i) = Some v.
Proof.
  unfold mc. rewrite in_flat_map. split.
  - intros (i & Hi & Hin). apply in_seq in Hi. exists i.
    destruct (bget src (so + i)) as [v'|] eqn:E; [|destruct Hin].
    destruct Hin as [Heq|[]]. injection Heq as <- <-. split; [lia|auto].
  - intros (i & Hi & -> & E). exists i. rewrite E. split; [apply in_seq; lia|left; reflexivity].
Qed.

(** ** Blocks *)

Lemma addr_inj ld i j i' j' : i < ld -> i' < ld -> i + ld * j = i' + ld * j' -> i = i' /\ j = j'.
Proof. intros. assert (j = j') by nia. subst. lia. Qed.

Theorem computes_block {A} (kern : prange -> option (list (wr A))) parts cnt (d : list A)
  ld r c (f : nat -> nat -> option A) (owner : nat -> nat -> nat) :
  tiles parts cnt -> r <= ld ->
  (forall i j, i < r -> j < c -> i + ld * j < length d /\ owner i j < cnt /\ f i j <> None) ->
  (forall p, In p parts -> 0 < r_cnt p -> r_ofs p + r_cnt p <= cnt ->
     exists t, kern p = Some t /\
     (forall a v, In (a, v) t <-> exists i j, i < r /\ j < c /\ a = i + ld * j /\ f i j = Some v /\
         r_ofs p <= owner i j < r_ofs p + r_cnt p)) ->
  computes (par kern parts) d (holds_block ld r c f d).
Proof.
  intros HT Hr Hf Hk.
  apply computes_intro with (cnt := cnt) (F := fun a => f (a mod ld) (a / ld))
    (dom := fun a => exists i j, i < r /\ j < c /\ a = i + ld * j)
    (owner := fun a => owner (a mod ld) (a / ld)).
  - exact HT.
  - intros p Hp H1 H2. destruct (Hk p Hp H1 H2) as (t & Ht & Hin). exists t. split; [exact Ht|].
    assert (Hdm : forall i j, i < r -> (i + ld * j) mod ld = i /\ (i + ld * j) / ld = j).
    { intros i j Hi. rewrite (Nat.mul_comm ld j). rewrite Nat.mod_add, Nat.div_add by lia.
      rewrite Nat.mod_small, Nat.div_small by lia. split; lia. }
    split.
    + intros a v Ha. apply Hin in Ha. destruct Ha as (i & j & Hi & Hj & -> & Hfv & Ho).
      destruct (Hdm i j Hi) as [-> ->]. split; [eauto|]. auto.
    + intros a (i & j & Hi & Hj & ->). destruct (Hdm i j Hi) as [-> ->]. intros Ho.
      destruct (Hf i j Hi Hj) as (_ & _ & Hn). destruct (f i j) as [v|] eqn:E; [|congruence].
      exists v. apply Hin. exists i, j. auto.
  - intros a (i & j & Hi & Hj & ->). destruct (Hf i j Hi Hj) as (H1 & H2 & _).
    split; [exact H1|]. rewrite (Nat.mul_comm ld j). rewrite Nat.mod_add, Nat.div_add by lia.
    rewrite Nat.mod_small, Nat.div_small by lia. exact H2.
  - intros d' HL Hin Hout. split.
    + intros i j Hi Hj. destruct (Hin (i + ld * j)) as [H1 H2]; [eauto|].
      rewrite (Nat.mul_comm ld j) in H1, H2 |- *. rewrite Nat.mod_add, Nat.div_add in H1, H2 by lia.
      rewrite Nat.mod_small, Nat.div_small in H1, H2 by lia. auto.
    + intros a Ha. apply Hout. intros (i & j & Hi & Hj & ->). apply (Ha i j Hi Hj). reflexivity.
Qed.

(** a call made of one thread *)
Theorem computes_single {A} (w : list (wr A)) (d : list A)
  ld r c (f : nat -> nat -> option A) :
  r <= ld ->
  (forall i j, i < r -> j < c -> i + ld * j < length d /\ f i j <> None) ->
  (forall a v, In (a, v) w <-> exists i j, i < r /\ j < c /\ a = i + ld * j /\ f i j = Some v) ->
  computes (Some [w]) d (holds_block ld r c f d).
Proof.
  intros Hr Hf Hin. change (Some [w]) with (par (fun _ => Some w) (whole 1)).
  apply (computes_block _ _ 1 d ld r c f (fun _ _ => 0)).
  - apply whole_tiles. lia.
  - exact Hr.
  - intros i j Hi Hj. destruct (Hf i j Hi Hj). auto.
  - intros p Hp _ _. destruct Hp as [<-|[]]. exists w. split; [reflexivity|].
    intros a v. rewrite Hin. simpl. split; intros (i & j & H); exists i, j; intuition lia.
Qed.
