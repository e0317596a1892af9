(** Lemmas about the building blocks of [Base]. *)
From Verif Require Import Base.
From Coq Require Import Permutation.

Lemma bget_lt {A} (b : list A) i : i < length b -> exists v, bget b i = Some v.
Proof.
  unfold bget. intros H. destruct (nth_error b i) eqn:E; eauto.
  apply nth_error_None in E. lia.
Qed.

Lemma bget_some_lt {A} (b : list A) i v : bget b i = Some v -> i < length b.
Proof. unfold bget. intros H. apply nth_error_Some. congruence. Qed.

Lemma bget_None {A} (b : list A) i : length b <= i -> bget b i = None.
Proof. intros H. apply nth_error_None. exact H. Qed.

Lemma bset_lt {A} (b : list A) i v : i < length b -> exists b', bset b i v = Some b'.
Proof.
  revert i. induction b as [|x b IH]; simpl; intros i H; [lia|].
  destruct i as [|i]; [eauto|].
  destruct (IH i) as [b' Hb']; [lia|]. rewrite Hb'. simpl. eauto.
Qed.

Lemma bset_some {A} (b b' : list A) i v :
  bset b i v = Some b' ->
  i < length b /\ length b' = length b /\
  forall j, bget b' j = if Nat.eqb j i then Some v else bget b j.
Proof.
  revert i b'. induction b as [|x b IH]; simpl; intros i b' H; [discriminate|].
  destruct i as [|i].
  - injection H as <-. split; [lia|]. split; [reflexivity|].
    intros [|j]; reflexivity.
  - destruct (bset b i v) as [t'|] eqn:E; simpl in H; [|discriminate].
    injection H as <-. destruct (IH _ _ E) as (H1 & H2 & H3).
    split; [lia|]. split; [simpl; lia|].
    intros [|j]; simpl; [reflexivity|]. apply H3.
Qed.

Lemma bset_length {A} (b b' : list A) i v :
  bset b i v = Some b' -> length b' = length b.
Proof. intros H. apply bset_some in H. tauto. Qed.

Lemma list_eq_bget {A} (l1 l2 : list A) :
  (forall i, bget l1 i = bget l2 i) -> l1 = l2.
Proof.
  revert l2. induction l1 as [|x l1 IH]; intros [|y l2] H; [reflexivity| | |].
  - specialize (H 0). discriminate.
  - specialize (H 0). discriminate.
  - f_equal.
    + specialize (H 0). simpl in H. congruence.
    + apply IH. intros i. apply (H (S i)).
Qed.

(** Invariant rule for [for_loop]. *)
Lemma for_loop_inv {S} (P : nat -> S -> Prop) lo n body s :
  P lo s ->
  (forall i st, lo <= i < lo + n -> P i st ->
     exists st', body i st = Some st' /\ P (i + 1) st') ->
  exists s', for_loop lo n body s = Some s' /\ P (lo + n) s'.
Proof.
  revert lo s. induction n as [|n IH]; simpl; intros lo s H0 Hstep.
  - exists s. rewrite Nat.add_0_r. auto.
  - destruct (Hstep lo s) as (s1 & E1 & H1); [lia|assumption|].
    rewrite E1. simpl.
    destruct (IH (Datatypes.S lo) s1) as (s2 & E2 & H2).
    + replace (Datatypes.S lo) with (lo + 1) by lia. exact H1.
    + intros i st Hi Hp. apply Hstep; [lia|assumption].
    + exists s2. split; [exact E2|].
      replace (lo + Datatypes.S n) with (Datatypes.S lo + n) by lia. exact H2.
Qed.

Lemma upd_length {A} (l : list A) i v : length (upd l i v) = length l.
Proof. revert i. induction l as [|x l IH]; intros [|i]; simpl; auto. Qed.

Lemma upd_nth {A} (l : list A) i v j :
  nth_error (upd l i v) j =
  if Nat.eqb j i then (if j <? length l then Some v else None) else nth_error l j.
Proof.
  revert i j. induction l as [|x l IH]; intros [|i] [|j]; simpl; try reflexivity.
  - destruct (Nat.eqb_spec j i) as [->|Hn]; reflexivity.
  - rewrite IH. destruct (Nat.eqb_spec j i) as [->|Hn]; [|reflexivity].
    reflexivity.
Qed.

Lemma upd_nth_same {A} (l : list A) i v x :
  nth_error l i = Some x -> nth_error (upd l i v) i = Some v.
Proof.
  intros H. rewrite upd_nth, Nat.eqb_refl.
  assert (i < length l) by (apply nth_error_Some; congruence).
  destruct (Nat.ltb_spec i (length l)); [reflexivity|lia].
Qed.

Lemma upd_nth_other {A} (l : list A) i v j :
  j <> i -> nth_error (upd l i v) j = nth_error l j.
Proof. intros H. rewrite upd_nth. destruct (Nat.eqb_spec j i); [lia|reflexivity]. Qed.

(** Sum of a measure over a list changes locally under [upd]. *)
Definition sum_of {A} (f : A -> nat) (l : list A) : nat := list_sum (map f l).

Lemma sum_of_cons {A} (f : A -> nat) x l : sum_of f (x :: l) = f x + sum_of f l.
Proof. reflexivity. Qed.

Lemma sum_of_upd {A} (f : A -> nat) l i v x :
  nth_error l i = Some x -> sum_of f (upd l i v) + f x = sum_of f l + f v.
Proof.
  revert i. induction l as [|y l IH]; intros [|i] H; simpl in H; try discriminate.
  - injection H as ->. simpl. rewrite !sum_of_cons. lia.
  - simpl. rewrite !sum_of_cons. specialize (IH _ H). lia.
Qed.

Lemma sum_of_le {A} (f : A -> nat) l i x :
  nth_error l i = Some x -> f x <= sum_of f l.
Proof.
  revert i. induction l as [|y l IH]; intros [|i] H; simpl in H; try discriminate.
  - injection H as ->. rewrite sum_of_cons. lia.
  - rewrite sum_of_cons. specialize (IH _ H). lia.
Qed.

Lemma sum_of_zero {A} (f : A -> nat) l :
  sum_of f l = 0 <-> forall i x, nth_error l i = Some x -> f x = 0.
Proof.
  split.
  - intros H i x Hx. pose proof (sum_of_le f l i x Hx). lia.
  - induction l as [|y l IH]; intros H; [reflexivity|].
    rewrite sum_of_cons. rewrite (H 0 y) by reflexivity.
    rewrite IH; [reflexivity|]. intros i x Hx. apply (H (S i) x Hx).
Qed.

Lemma sum_of_ext {A} (f g : A -> nat) l :
  (forall x, In x l -> f x = g x) -> sum_of f l = sum_of g l.
Proof.
  induction l as [|y l IH]; intros H; [reflexivity|].
  rewrite !sum_of_cons, IH, (H y); simpl; auto.
  intros x Hx. apply H. simpl. auto.
Qed.

Lemma sum_of_app {A} (f : A -> nat) l1 l2 : sum_of f (l1 ++ l2) = sum_of f l1 + sum_of f l2.
Proof. unfold sum_of. rewrite map_app, list_sum_app. reflexivity. Qed.

Lemma skipn_cons_inv {A} (l : list A) n x r :
  skipn n l = x :: r -> nth_error l n = Some x /\ skipn (n + 1) l = r.
Proof.
  revert n. induction l as [|y l IH]; intros [|n] H; simpl in *; try discriminate.
  - injection H as -> ->. auto.
  - apply IH. assumption.
Qed.
