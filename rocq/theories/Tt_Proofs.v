(** Proofs about [Tt_Model]. *)
From Coq Require Import Reals Lra Lia ZArith List.
From Verif Require Import Base Tt_Model Tt_Spec.
Import ListNotations.
Local Open Scope R_scope.

Theorem readable_iff u d n : (0 < n)%Z ->
  exists x, duration_readable u d n = Some x /\ (says x (IZR d / IZR n / per_second u) <-> room u (IZR d / IZR n)) /\
  ((d <= 1000000000000 * n - 1)%Z -> fst x < 1000) /\ ((0 <= d)%Z -> 0 <= fst x).
Proof.
  intros Hn. unfold duration_readable. destruct (Z.eqb_spec n 0) as [|_]; [lia|].
  assert (P : 0 < IZR n) by (apply IZR_lt; exact Hn).
  assert (B : (d <= 1000000000000 * n - 1)%Z -> IZR d / IZR n < 1000000000000).
  { intros H. apply (Rmult_lt_reg_r (IZR n)); [exact P|]. unfold Rdiv. rewrite Rmult_assoc, Rinv_l by lra. rewrite Rmult_1_r, <- mult_IZR. apply IZR_lt. lia. }
  assert (Q : (0 <= d)%Z -> 0 <= IZR d / IZR n).
  { intros H. apply Rmult_le_pos; [apply IZR_le; exact H|left; apply Rinv_0_lt_compat; exact P]. }
  set (t := IZR d / IZR n) in *. clearbody t.
  destruct (Rlt_dec t 1000); [|destruct (Rlt_dec t 1000000); [|destruct (Rlt_dec t 1000000000)]];
    (eexists; split; [reflexivity|]); unfold says, room; destruct u; cbn [fst snd bigger per_second];
    (split; [split; intros; lra|split; intros H; [pose proof (B H); lra|pose proof (Q H); lra]]).
Qed.

Lemma store_inv mx os : forall t acc,
  (forall x, In x acc -> (x <= mx)%Z) -> (forall d, In (TStore d) os -> (d <= mx)%Z) ->
  (t_n t = Z.of_nat (length acc) /\ t_all t = sumZ acc /\ (acc = [] -> t_best t = mx) /\ (acc <> [] -> smallest acc (t_best t)) /\ (acc <> [] -> hd_error acc = Some (t_first t))) ->
  let t' := fold_left (fun t o => t_op mx o t) os t in let l := since_reset os acc in
  t_n t' = Z.of_nat (length l) /\ t_all t' = sumZ l /\ (l = [] -> t_best t' = mx) /\ (l <> [] -> smallest l (t_best t')) /\ (l <> [] -> hd_error l = Some (t_first t')).
Proof.
  induction os as [|[d|] os IH]; intros t acc Hacc Hos HI; cbn [fold_left since_reset t_op]; [exact HI| |].
  - apply IH.
    + intros x Hx. apply in_app_or in Hx. destruct Hx as [Hx|[<-|[]]]; [apply Hacc; exact Hx|apply Hos; left; reflexivity].
    + intros x Hx. apply Hos. right. exact Hx.
    + destruct HI as (I1 & I2 & I3 & I4 & I5). unfold t_store. cbn [t_n t_all t_best t_first]. split; [rewrite app_length; cbn [length]; lia|]. split.
      { rewrite I2. clear. induction acc as [|x acc IH]; cbn [sumZ fold_right app] in *; [lia|]. unfold sumZ in *. rewrite <- IH. lia. }
      split; [intros E; destruct acc; discriminate E|]. split.
      * intros _. destruct acc as [|x acc].
        -- rewrite (I3 eq_refl). assert (d <= mx)%Z by (apply Hos; left; reflexivity). rewrite Z.min_l by lia. split; [left; reflexivity|]. intros y [<-|[]]. lia.
        -- destruct I4 as [H1 H2]; [discriminate|]. split.
           ++ apply in_or_app. destruct (Z.min_spec d (t_best t)) as [[_ ->]|[_ ->]]; [right; left; reflexivity|left; exact H1].
           ++ intros y Hy. apply in_app_or in Hy. destruct Hy as [Hy|[<-|[]]]; [pose proof (H2 y Hy); lia|lia].
      * intros _. rewrite I1. destruct acc as [|x acc]; cbn [length app hd_error].
        -- reflexivity.
        -- replace (Z.of_nat (S (length acc)) =? 0)%Z with false by (symmetry; apply Z.eqb_neq; lia). rewrite <- I5 by discriminate. reflexivity.
  - apply IH; [intros x []| |].
    + intros x Hx. apply Hos. right. exact Hx.
    + cbn. split; [reflexivity|]. split; [reflexivity|]. split; [reflexivity|]. split; intros H; exfalso; apply H; reflexivity.
Qed.

Theorem tictoc_ok mx os : (forall d, In (TStore d) os -> (d <= mx)%Z) ->
  (since_reset os [] = [] -> t_string (t_run mx os) = None) /\
  (forall a l, since_reset os [] = a :: l -> exists x y z best, t_string (t_run mx os) = Some (x, y, z) /\
     says x (IZR a / 1000000000) /\ smallest (a :: l) best /\ says y (IZR best / 1000000000) /\
     says z (IZR (sumZ (a :: l)) / IZR (Z.of_nat (S (length l))) / 1000000000)).
Proof.
  intros H. destruct (store_inv mx os (t_reset mx) []) as (I1 & I2 & _ & I4 & I5); [intros x []|exact H| |].
  { cbn. split; [reflexivity|]. split; [reflexivity|]. split; [reflexivity|]. split; intros E; exfalso; apply E; reflexivity. }
  fold (t_run mx os) in *. unfold t_string. split.
  - intros E. rewrite E in I1. cbn in I1. rewrite I1. reflexivity.
  - intros a l E. rewrite E in *. rewrite I1. cbn [length] in *. replace (0 <? Z.of_nat (S (length l)))%Z with true by (symmetry; apply Z.ltb_lt; lia).
    specialize (I5 ltac:(discriminate)). cbn in I5. injection I5 as I5. subst a. specialize (I4 ltac:(discriminate)).
    destruct (readable_iff NS (t_first (t_run mx os)) 1) as (x & E1 & S1 & _); [lia|].
    destruct (readable_iff NS (t_best (t_run mx os)) 1) as (y & E2 & S2 & _); [lia|].
    destruct (readable_iff NS (t_all (t_run mx os)) (Z.of_nat (S (length l)))) as (z & E3 & S3 & _); [lia|].
    rewrite E1, E2, E3. cbn [obind]. exists x, y, z, (t_best (t_run mx os)). split; [reflexivity|].
    rewrite <- I2. cbn [room per_second] in *. unfold says in *. replace (IZR (t_first (t_run mx os)) / 1) with (IZR (t_first (t_run mx os))) in S1 by field. replace (IZR (t_best (t_run mx os)) / 1) with (IZR (t_best (t_run mx os))) in S2 by field.
    split; [apply S1; exact I|]. split; [exact I4|]. split; [apply S2; exact I|]. apply S3. exact I.
Qed.

Theorem readable_ns d n : (0 < n)%Z ->
  exists x, duration_readable NS d n = Some x /\ says x (IZR d / IZR n / 1000000000).
Proof.
  intros H. destruct (readable_iff NS d n H) as (x & E & S & _). exists x. split; [exact E|]. apply S. exact I.
Qed.

Theorem readable_wrong :
  (exists x, duration_readable SEC 3600 1 = Some x /\ says x (36 / 10) /\ ~ says x 3600) /\
  (exists x, duration_readable MS 1200000 1 = Some x /\ says x (12 / 10) /\ ~ says x 1200).
Proof.
  unfold duration_readable. cbn [Z.eqb]. split.
  - destruct (Rlt_dec (3600 / 1) 1000); [lra|]. destruct (Rlt_dec (3600 / 1) 1000000); [|lra].
    eexists. split; [reflexivity|]. unfold says. cbn. split; lra.
  - destruct (Rlt_dec (1200000 / 1) 1000); [lra|]. destruct (Rlt_dec (1200000 / 1) 1000000); [lra|]. destruct (Rlt_dec (1200000 / 1) 1000000000); [|lra].
    eexists. split; [reflexivity|]. unfold says. cbn. split; lra.
Qed.
