(** Proofs about [Nz_Model]. *)
From Coq Require Import NArith ZArith Lia List Bool.
From Coq Require Import Floats.SpecFloat.
From Verif Require Import Base Nz_Model Nz_Spec.
Import ListNotations.
Local Open Scope N_scope.

Section Format.
Context (p e : N).

Lemma mag_eq b : mag p e b = b mod 2 ^ p + 2 ^ p * ((b / 2 ^ p) mod 2 ^ e).
Proof. unfold mag. rewrite N.pow_add_r. apply N.mod_mul_r; apply N.pow_nonzero; lia. Qed.

Definition one_elem (daz : bool) (b : N) : N :=
  b2N (SFltb (S754_zero false) (operand p e daz b)) + b2N (SFltb (operand p e daz b) (S754_zero true)).

Lemma one_elem_cases daz b : 0 < e ->
  (one_elem daz b = 1 /\ differs p e daz b /\ ~ is_nan p e b) \/ (one_elem daz b = 0 /\ ~ (differs p e daz b /\ ~ is_nan p e b)).
Proof.
  intros He. unfold one_elem, differs, is_zero, is_subnormal, is_nan, operand, decode. rewrite mag_eq.
  assert (P0 : 2 ^ p <> 0) by (apply N.pow_nonzero; lia).
  assert (E0 : 2 ^ e <> 0) by (apply N.pow_nonzero; lia).
  assert (E1 : 1 < 2 ^ e) by (apply N.pow_gt_1; lia).
  pose proof (N.mod_lt b (2 ^ p) P0) as Lm. pose proof (N.mod_lt (b / 2 ^ p) (2 ^ e) E0) as Le.
  set (m := b mod 2 ^ p) in *. set (x := (b / 2 ^ p) mod 2 ^ e) in *. set (A := 2 ^ p) in *. set (B := 2 ^ e) in *. generalize (N.testbit b (p + e)) as s. intros s. clearbody m x A B.
  destruct (N.eqb_spec x 0) as [->|Hx].
  - rewrite N.mul_0_r, N.add_0_r, andb_true_r. destruct daz.
    + right. split; [destruct s; reflexivity|]. intros ([H1 H2] & H3). specialize (H2 eq_refl). lia.
    + destruct m as [|m]; [right; split; [destruct s; reflexivity|]; intros ([H1 H2] & H3); lia|].
      left. split; [destruct s; reflexivity|]. split; [split; [lia|intros H; discriminate H]|]. nia.
  - rewrite andb_false_r. destruct (N.eqb_spec x (B - 1)) as [->|Hi].
    + destruct m as [|m].
      * left. split; [destruct s; reflexivity|]. split; [split; [nia|intros _; nia]|]. lia.
      * right. split; [reflexivity|]. intros (_ & H). apply H. lia.
    + destruct (A + m) as [|q] eqn:Eq; [lia|]. left. split; [destruct s; reflexivity|]. split; [split; [nia|intros _; nia]|].
      assert (x <= B - 2) by lia. assert (A * x <= A * (B - 2)) by (apply N.mul_le_mono_l; lia). nia.
Qed.

Lemma count_acc daz v : forall acc,
  fold_left (fun nz b => nz + (b2N (SFltb (S754_zero false) (operand p e daz b)) + b2N (SFltb (operand p e daz b) (S754_zero true)))) v acc = acc + vCountNonZeros p e daz v.
Proof.
  unfold vCountNonZeros. induction v as [|b v IH]; intros acc; cbn [fold_left]; [lia|]. rewrite IH, (IH (0 + _)). lia.
Qed.
Lemma count_cons daz b v : vCountNonZeros p e daz (b :: v) = one_elem daz b + vCountNonZeros p e daz v.
Proof. unfold vCountNonZeros at 1. cbn [fold_left]. rewrite count_acc. reflexivity. Qed.

Theorem count_ok daz v : 0 < e -> counts (fun b => differs p e daz b /\ ~ is_nan p e b) v (vCountNonZeros p e daz v).
Proof.
  intros He. induction v as [|b v IH]; [constructor|]. rewrite count_cons.
  destruct (one_elem_cases daz b He) as [(-> & H)|(-> & H)].
  - rewrite N.add_comm. apply counts_yes; assumption.
  - rewrite N.add_0_l. apply counts_no; assumption.
Qed.

Lemma counts_unique (P : N -> Prop) v n n' : counts P v n -> counts P v n' -> n = n'.
Proof.
  intros H. revert n'. induction H; intros n' H'; inversion H'; subst; try contradiction; [reflexivity|f_equal; auto|auto].
Qed.
Lemma counts_mono (P Q : N -> Prop) v n n' : (forall b, In b v -> P b -> Q b) -> counts P v n -> counts Q v n' ->
  n <= n' /\ (n = n' <-> forall b, In b v -> Q b -> P b).
Proof.
  intros HI H. revert n'. induction H as [|b v n Hb H IH|b v n Hb H IH]; intros n' H'; inversion H'; subst.
  - split; [lia|]. split; [intros _ b []|reflexivity].
  - match goal with K : counts Q v _ |- _ => destruct (IH (fun c Hc => HI c (or_intror Hc)) _ K) as [L E] end. split; [lia|]. split.
    + intros Q1 c [<-|Hc]; [auto|]. apply E; [lia|exact Hc].
    + intros Q1. f_equal. apply E. intros c Hc. apply Q1. right. exact Hc.
  - exfalso. match goal with K : ~ Q b |- _ => apply K end. apply HI; [left; reflexivity|exact Hb].
  - match goal with K : counts Q v _ |- _ => destruct (IH (fun c Hc => HI c (or_intror Hc)) _ K) as [L E] end. split; [lia|]. split; [lia|]. intros Q1. exfalso. apply Hb. apply Q1; [left; reflexivity|assumption].
  - match goal with K : counts Q v _ |- _ => destruct (IH (fun c Hc => HI c (or_intror Hc)) _ K) as [L E] end. split; [exact L|]. rewrite E. split; intros Q1 c Hc Q2; [destruct Hc as [<-|Hc]; [contradiction|auto]|]. apply Q1; [right|]; assumption.
Qed.

(** The rows taken by the kernels *)
Lemma taken_count v : counts (fun b => b <> 0) v (N.of_nat (length (rows_taken v))).
Proof.
  unfold rows_taken. induction v as [|b v IH]; [constructor|].
  assert (E : length (filter (fun i => negb (nth i (b :: v) 0 =? 0)) (seq 1 (length v))) = length (filter (fun i => negb (nth i v 0 =? 0)) (seq 0 (length v)))).
  { rewrite <- seq_shift. generalize (seq 0 (length v)) as l. clear. induction l as [|i l IH]; [reflexivity|]. cbn [map filter]. change (nth (S i) (b :: v) 0) with (nth i v 0). destruct (nth i v 0 =? 0); cbn [negb length]; rewrite IH; reflexivity. }
  cbn [length seq filter]. change (nth 0 (b :: v) 0) with b. destruct (N.eqb_spec b 0) as [->|Hb]; cbn [negb].
  - rewrite E. apply counts_no; [intros H; apply H; reflexivity|exact IH].
  - cbn [length]. rewrite E. rewrite Nat2N.inj_succ, <- N.add_1_r. apply counts_yes; assumption.
Qed.

Lemma strict_acc v : forall acc, fold_left (fun nz b => (nz + b2N (0 <? b)) mod 2 ^ (p + e + 1)) v (acc mod 2 ^ (p + e + 1)) =
  (acc + N.of_nat (length (rows_taken v))) mod 2 ^ (p + e + 1).
Proof.
  assert (W : 2 ^ (p + e + 1) <> 0) by (apply N.pow_nonzero; lia). set (w := 2 ^ (p + e + 1)) in *. clearbody w.
  assert (C : forall v acc, fold_left (fun nz b => (nz + b2N (0 <? b)) mod w) v (acc mod w) = (acc + fold_right (fun b n => b2N (0 <? b) + n) 0 v) mod w).
  { clear v. induction v as [|b v IH]; intros acc; cbn [fold_left fold_right]; [rewrite N.add_0_r; reflexivity|].
    rewrite N.add_mod_idemp_l by exact W. rewrite IH. f_equal. lia. }
  intros acc. rewrite C. f_equal. f_equal. refine (counts_unique (fun b => b <> 0) v _ _ _ (taken_count v)).
  clear. induction v as [|b v IH]; cbn [fold_right]; [constructor|]. destruct (N.ltb_spec 0 b); cbn [b2N].
  - rewrite N.add_comm. apply counts_yes; [lia|exact IH].
  - rewrite N.add_0_l. apply counts_no; [lia|exact IH].
Qed.

Theorem strict_eq v : vCountNonZerosStrict p e v = N.of_nat (length (rows_taken v)) mod 2 ^ (p + e + 1).
Proof.
  unfold vCountNonZerosStrict. pose proof (strict_acc v 0) as H. rewrite N.mod_0_l in H by (apply N.pow_nonzero; lia). rewrite H, N.add_0_l. reflexivity.
Qed.

Theorem strict_ok v : N.of_nat (length v) < 2 ^ (p + e + 1) -> counts (fun b => b <> 0) v (vCountNonZerosStrict p e v).
Proof.
  intros H. rewrite strict_eq, N.mod_small; [apply taken_count|]. eapply N.le_lt_trans; [|exact H].
  assert (length (rows_taken v) <= length v)%nat; [|lia]. unfold rows_taken. rewrite <- (seq_length (length v) 0) at 2.
  generalize (seq 0 (length v)) as l. clear. induction l as [|i l IH]; cbn [filter length]; [lia|]. destruct (negb _); cbn [length]; lia.
Qed.

(** Elements the two ways of counting disagree about *)
Theorem agree_iff daz v : 0 < e -> Forall (pattern p e) v ->
  vCountNonZeros p e daz v <= N.of_nat (length (rows_taken v)) /\
  (vCountNonZeros p e daz v = N.of_nat (length (rows_taken v)) <->
   forall b, In b v -> b <> neg_zero p e /\ ~ is_nan p e b /\ (daz = true -> ~ is_subnormal p e b)).
Proof.
  intros He Hv. assert (Z : forall b, In b v -> is_zero p e b -> b = 0 \/ b = neg_zero p e).
  { intros b Hb. rewrite Forall_forall in Hv. specialize (Hv b Hb). unfold pattern, is_zero, mag, neg_zero in *. rewrite N.add_1_r, N.pow_succ_r' in Hv.
    assert (W : 2 ^ (p + e) <> 0) by (apply N.pow_nonzero; lia). set (w := 2 ^ (p + e)) in *. clearbody w. intros H.
    pose proof (N.div_mod b w W) as D. rewrite H, N.add_0_r in D. assert (b / w < 2) by (apply N.div_lt_upper_bound; lia). assert (b / w = 0 \/ b / w = 1) as [Q|Q] by lia; rewrite Q in D; [left|right]; lia. }
  assert (M : forall b, In b v -> differs p e daz b /\ ~ is_nan p e b -> b <> 0).
  { intros b _ [[H _] _] ->. apply H. unfold is_zero, mag. apply N.mod_0_l. apply N.pow_nonzero. lia. }
  destruct (counts_mono _ _ v _ _ M (count_ok daz v He) (taken_count v)) as [L E].
  split; [exact L|]. rewrite E. split.
  - intros H b Hb.
    assert (W : 2 ^ (p + e) <> 0) by (apply N.pow_nonzero; lia).
    destruct (N.eq_dec b 0) as [->|Nb].
    + split; [intros Q; apply W; symmetry; exact Q|]. unfold is_nan, is_subnormal, mag. rewrite N.mod_0_l by exact W. split; [apply N.nlt_0_r|intros _ [Q _]; exact (N.nlt_0_r _ Q)].
    + destruct (H b Hb Nb) as [[H1 H2] H3]. split; [|split; assumption]. intros ->. apply H1. unfold is_zero, mag, neg_zero. apply N.mod_same. exact W.
  - intros H b Hb Nb. destruct (H b Hb) as (H1 & H2 & H3). split; [|exact H2]. split; [|exact H3]. intros Q. destruct (Z b Hb Q); contradiction.
Qed.

(** As many elements as the counter of the strict version can count *)
Theorem strict_wraps : exists v, Forall (fun b => b = 1) v /\ N.of_nat (length v) = 2 ^ (p + e + 1) /\ vCountNonZerosStrict p e v = 0.
Proof.
  exists (repeat 1 (N.to_nat (2 ^ (p + e + 1)))). assert (L : N.of_nat (length (repeat 1 (N.to_nat (2 ^ (p + e + 1))))) = 2 ^ (p + e + 1)) by (rewrite repeat_length; apply N2Nat.id).
  split; [apply Forall_forall; intros b H; apply repeat_spec in H; exact H|]. split; [exact L|]. rewrite strict_eq.
  replace (N.of_nat (length (rows_taken _))) with (2 ^ (p + e + 1)); [apply N.mod_same; apply N.pow_nonzero; lia|].
  refine (counts_unique (fun b => b <> 0) _ _ _ _ (taken_count _)). rewrite <- L at 2. generalize (N.to_nat (2 ^ (p + e + 1))) as n. clear.
  induction n as [|n IH]; cbn [repeat length]; [constructor|]. rewrite Nat2N.inj_succ, <- N.add_1_r. apply counts_yes; [discriminate|exact IH].
Qed.
End Format.

Theorem count_wrong :
  (exists v, Forall (pattern 23 8) v /\ Forall (differs 23 8 false) v /\ v <> [] /\ vCountNonZeros 23 8 false v = 0) /\
  (exists v, Forall (pattern 23 8) v /\ Forall (is_zero 23 8) v /\ vCountNonZeros 23 8 false v = 0 /\ rows_taken v = [0%nat] /\ vCountNonZerosStrict 23 8 v = 1) /\
  (exists v, Forall (fun b => b = 1) v /\ N.of_nat (length v) = 2 ^ 32 /\ vCountNonZerosStrict 23 8 v = 0).
Proof.
  split; [|split].
  - exists [0x7fc00000]. split; [repeat constructor|]. split; [|split; [discriminate|reflexivity]].
    constructor; [|constructor]. split; [vm_compute; discriminate|discriminate].
  - exists [0x80000000]. split; [repeat constructor|]. split; [repeat constructor|]. repeat split.
  - exact (strict_wraps 23 8).
Qed.
