(** Gradient check: nnet::gradcheck. *)
From Coq Require Import Reals Permutation Lra.
From Verif Require Import Base BaseLemmas TData_Model TData_Spec Gc_Model Gc_Spec Gc_Proofs Gc_Proofs2 Gc_Proofs3 Gc_Proofs4 Gc_Proofs5.
Local Open Scope nat_scope.

Section P.
Context {G : Type} (E : genv G) (N : gnet) (T : setts).
Context (HN : net_ok N) (HE : rng_good E) (HF : finite_thresholds T).
Context (rows bs : nat).
Notation st := (st G). Notation net := (net G).
Notation big := (Nat.max bs (st_online T)).

(** the part after the initialisation *)
Definition after_init (s : st) : option (bool * st) :=
  let n := s_n s in
  let '(origTrain, origFull, origBs) := (n_train n, n_full n, n_cur n) in
  let s := with_n (set_flags true true n) (with_i (gc_init (s_i s)) s) in
  do (r, s) <- performCheck E N T bs rows s;
  let s := with_n (set_flags origFull (n_block (s_n s)) (s_n s)) (with_i (gc_init (s_i s)) s) in
  do s <- set_mode origTrain origBs s;
  Some (r, with_n (set_flags (n_full (s_n s)) false (s_n s)) s).

Definition run_verdict (s s' : st) (r : bool) (cs : list check) : Prop :=
  Gc_Spec.run_result E N T rows bs s s' cs /\ (r = true <-> passes N T cs) /\ (r = true -> covers N T cs).

Lemma after_init_ok s : weights_ok N (n_W (s_n s)) -> i_stack (s_i s) = [] -> big <= n_tb (s_n s) ->
  n_cur (s_n s) <= (if n_train (s_n s) then n_tb (s_n s) else n_fp (s_n s)) ->
  0 < bs -> 0 < st_online T -> big <= rows -> (big < rows \/ bs = st_online T) ->
  exists r s' cs, after_init s = Some (r, s') /\ s_n s' = set_flags (n_full (s_n s)) false (s_n s) /\ i_stack (s_i s') = [] /\ run_verdict s s' r cs.
Proof.
  intros HW Hst Htb Hcur Hbs Hon Hr Hsz. unfold after_init.
  set (s1 := with_n (set_flags true true (s_n s)) (with_i (gc_init (s_i s)) s)).
  destruct (perform_ok E N T HN HE HF (n_W (s_n s)) HW rows bs (set_flags true true (s_n s)) s1) as (n1 & s2 & cs & evs & r & E1 & S1 & I1 & H1 & R1 & P1 & C1); auto.
  { split; [reflexivity|]. split; [exact Hst|reflexivity]. }
  rewrite E1. cbn [obind]. destruct S1 as (S11 & S12 & S13 & S14 & S15 & S16 & S17 & S18). destruct I1 as (I11 & I12 & I13).
  cbn [set_flags n_W n_opt n_made n_fp n_tb n_reinit n_full n_block] in S11, S12, S13, S14, S15, S16, S17, S18.
  set (s3 := with_n (set_flags (n_full (s_n s)) (n_block (s_n s2)) (s_n s2)) (with_i (gc_init (s_i s2)) s2)).
  assert (K1 : n_tb (s_n s3) = n_tb (s_n s)) by (cbn; rewrite I11; exact S15).
  assert (K2 : n_fp (s_n s3) = n_fp (s_n s)) by (cbn; rewrite I11; exact S14).
  assert (K3 : n_train (s_n s3) = n_train n1) by (cbn; rewrite I11; reflexivity).
  assert (K4 : n_cur (s_n s3) = n_cur n1) by (cbn; rewrite I11; reflexivity).
  unfold set_mode. cbv zeta. rewrite K1, K2, K3, K4, (proj2 (Nat.leb_le _ _) Hcur). cbn [guard obind].
  destruct (Bool.eqb (n_train (s_n s)) (n_train n1) && (n_cur (s_n s) =? n_cur n1)) eqn:Q.
  - apply andb_prop in Q as [Q1 Q2]. apply Bool.eqb_prop in Q1. apply Nat.eqb_eq in Q2.
    eexists r, _, cs. split; [reflexivity|]. split.
    { unfold s3. cbn. rewrite I11. unfold set_flags. cbn. f_equal; congruence. }
    split; [exact I12|]. split; [|auto]. exists evs, []. split; [exact H1|]. auto.
  - eexists r, _, cs. split; [reflexivity|]. split.
    { unfold s3. cbn. rewrite I11. unfold set_flags. cbn. f_equal; congruence. }
    split; [exact I12|]. split; [|auto]. exists evs, [VBatchSize (n_train (s_n s)) (n_cur (s_n s))]. split; [cbn; rewrite H1; reflexivity|]. auto.
Qed.

Context (xw yrows yw : nat).
Notation admitted := (admitted N T rows xw yrows yw bs).
Lemma admitted_dec : admitted \/ ~ admitted.
Proof.
  unfold Gc_Spec.admitted. destruct (Nat.eq_dec xw (g_in N)), (Nat.eq_dec yw (g_on N)), (Nat.eq_dec rows yrows), (le_lt_dec big rows), (le_lt_dec bs 0);
    first [left; repeat split; assumption | right; intros (? & ? & ? & ? & ?); lia].
Qed.
Lemma gradcheck_unfold s : gradcheck E N T rows xw yrows yw bs s =
  (if bs =? 0 then Some (false, s) else
   if negb ((xw =? g_in N) && (big <=? rows)) || negb ((yw =? g_on N) && (big <=? yrows)) || negb (rows =? yrows) then Some (false, s) else
   let '(ok, s1) := init E big big s in if negb ok then Some (false, s1) else after_init s1).
Proof. reflexivity. Qed.
Lemma gradcheck_rejects s : ~ admitted -> gradcheck E N T rows xw yrows yw bs s = Some (false, s).
Proof.
  intros H. rewrite gradcheck_unfold. destruct (Nat.eqb_spec bs 0); [reflexivity|].
  destruct (negb _ || negb _ || negb _) eqn:Q; [reflexivity|]. elim H.
  apply orb_false_elim in Q as [Q Q3]. apply orb_false_elim in Q as [Q1 Q2]. apply negb_false_iff in Q1, Q2, Q3.
  apply andb_prop in Q1 as [Q1 Q4]. apply andb_prop in Q2 as [Q2 Q5].
  apply Nat.eqb_eq in Q1, Q2, Q3. apply Nat.leb_le in Q4. unfold Gc_Spec.admitted. repeat split; lia.
Qed.
Lemma gradcheck_admits s : admitted -> gradcheck E N T rows xw yrows yw bs s =
  let '(ok, s1) := init E big big s in if negb ok then Some (false, s1) else after_init s1.
Proof.
  intros (H1 & H2 & H3 & H4 & H5). rewrite gradcheck_unfold. destruct (Nat.eqb_spec bs 0); [lia|].
  rewrite H2, H3, !Nat.eqb_refl, <- H4, Nat.eqb_refl, (proj2 (Nat.leb_le _ _) H5). reflexivity.
Qed.

Notation initialised := (initialised T bs).
Lemma init_keeps s : initialised (s_n s) -> init E big big s = (ge_math E (s_h s), s).
Proof.
  intros (H1 & H2 & H3 & H4). unfold init. rewrite H1, (proj2 (Nat.ltb_lt _ _) H2), (proj2 (Nat.leb_le _ _) H3), (proj2 (Nat.leb_le _ _) H4). reflexivity.
Qed.
Lemma set_flags_id (n : net) : n_block n = false -> set_flags (n_full n) false n = n.
Proof. intros H. destruct n; cbn in *; subst; reflexivity. Qed.

Lemma gradcheck_initialised s : admitted -> 0 < st_online T -> (big < rows \/ bs = st_online T) ->
  initialised (s_n s) -> sane (s_n s) -> weights_ok N (n_W (s_n s)) -> i_stack (s_i s) = [] -> ge_math E (s_h s) = true ->
  exists r s' cs, gradcheck E N T rows xw yrows yw bs s = Some (r, s') /\ s_n s' = s_n s /\ i_stack (s_i s') = [] /\ run_verdict s s' r cs.
Proof.
  intros HA Hon Hsz HI (Hb & Hcur) HW Hst Hm. rewrite (gradcheck_admits s HA), (init_keeps s HI), Hm. cbn [negb].
  destruct HA as (A1 & A2 & A3 & A4 & A5). destruct HI as (I1 & I2 & I3 & I4).
  destruct (after_init_ok s HW Hst I4 Hcur A1 Hon A5 Hsz) as (r & s' & cs & E1 & E2 & E3 & E4).
  exists r, s', cs. split; [exact E1|]. split; [rewrite E2; apply set_flags_id, Hb|]. auto.
Qed.
Lemma gradcheck_math s : admitted -> initialised (s_n s) -> ge_math E (s_h s) = false -> gradcheck E N T rows xw yrows yw bs s = Some (false, s).
Proof. intros HA HI Hm. rewrite (gradcheck_admits s HA), (init_keeps s HI), Hm. reflexivity. Qed.

(** any network whose weights exist *)
Lemma gradcheck_any s : 0 < st_online T -> (big < rows \/ bs = st_online T) ->
  n_made (s_n s) = true -> sane (s_n s) -> weights_ok N (n_W (s_n s)) -> i_stack (s_i s) = [] ->
  exists r s', gradcheck E N T rows xw yrows yw bs s = Some (r, s') /\ n_W (s_n s') = n_W (s_n s) /\ n_made (s_n s') = true /\
    n_full (s_n s') = n_full (s_n s) /\ n_block (s_n s') = false.
Proof.
  intros Hon Hsz Hmade Hs HW Hst. destruct admitted_dec as [HA|HA].
  2:{ exists false, s. split; [apply gradcheck_rejects, HA|]. destruct Hs. auto. }
  rewrite (gradcheck_admits s HA). destruct (negb (n_reinit (s_n s)) && ((0 <? n_fp (s_n s)) && (big <=? n_fp (s_n s)) && (big <=? n_tb (s_n s)))) eqn:Q.
  - assert (HI : initialised (s_n s)).
    { apply andb_prop in Q as [Q1 Q2]. apply andb_prop in Q2 as [Q2 Q4]. apply andb_prop in Q2 as [Q2 Q3].
      apply Nat.ltb_lt in Q2. apply Nat.leb_le in Q3, Q4. apply negb_true_iff in Q1. split; auto. }
    destruct (ge_math E (s_h s)) eqn:Hm.
    + destruct (gradcheck_initialised s HA Hon Hsz HI Hs HW Hst Hm) as (r & s' & cs & E1 & E2 & _).
      rewrite (gradcheck_admits s HA) in E1. exists r, s'. split; [exact E1|]. rewrite E2. destruct Hs. auto.
    + rewrite (init_keeps s HI), Hm. exists false, s. split; [reflexivity|]. destruct Hs. auto.
  - unfold init. rewrite Q. cbn zeta. cbn [deinit log with_n s_n s_h n_made n_W]. rewrite Hmade.
    match goal with |- context [ge_init E ?h] => destruct (ge_init E h) end; cbn [negb].
    + match goal with |- context [after_init ?x] => set (s1 := x) end.
      destruct HA as (A1 & A2 & A3 & A4 & A5).
      destruct (after_init_ok s1 HW Hst) as (r & s' & cs & E1 & E2 & _); auto; try apply Nat.le_refl; try apply Nat.le_0_l.
      exists r, s'. split; [exact E1|]. rewrite E2. cbn. auto.
    + eexists false, _. split; [reflexivity|]. cbn. destruct Hs. auto.
Qed.

(** a network that has to be initialised again *)
Lemma gradcheck_reinit s : admitted -> 0 < st_online T -> (big < rows \/ bs = st_online T) -> ~ initialised (s_n s) ->
  n_made (s_n s) = true -> weights_ok N (n_W (s_n s)) -> i_stack (s_i s) = [] -> (forall h, ge_init E h = true) ->
  exists r s', gradcheck E N T rows xw yrows yw bs s = Some (r, s') /\ n_train (s_n s') = false /\ n_cur (s_n s') = 0 /\
    exists h, n_opt (s_n s') = ge_opt0 E h.
Proof.
  intros HA Hon Hsz HI Hmade HW Hst Hi. rewrite (gradcheck_admits s HA).
  destruct (negb (n_reinit (s_n s)) && ((0 <? n_fp (s_n s)) && (big <=? n_fp (s_n s)) && (big <=? n_tb (s_n s)))) eqn:Q.
  { elim HI. apply andb_prop in Q as [Q1 Q2]. apply andb_prop in Q2 as [Q2 Q4]. apply andb_prop in Q2 as [Q2 Q3].
    apply Nat.ltb_lt in Q2. apply Nat.leb_le in Q3, Q4. apply negb_true_iff in Q1. split; auto. }
  unfold init. rewrite Q. cbn zeta. rewrite Hi. cbn [negb deinit log with_n s_n s_h n_made n_W]. rewrite Hmade.
  match goal with |- context [after_init ?x] => set (s1 := x) end.
  destruct HA as (A1 & A2 & A3 & A4 & A5).
  destruct (after_init_ok s1 HW Hst) as (r & s' & cs & E1 & E2 & _); auto; try apply Nat.le_refl; try apply Nat.le_0_l.
  exists r, s'. split; [exact E1|]. rewrite E2. cbn. split; [reflexivity|]. split; [reflexivity|]. eexists. reflexivity.
Qed.

(** ** the data the check cannot handle *)
Lemma gradcheck_full_data s : admitted -> 0 < st_online T < bs -> bs = rows ->
  fst (init E big big s) = true -> gradcheck E N T rows xw yrows yw bs s = None.
Proof.
  intros HA Hon Hbig Hi. rewrite (gradcheck_admits s HA). destruct (init E big big s) as [ok s1]. cbn [fst] in Hi. subst ok. cbn [negb].
  unfold after_init, performCheck. replace big with rows by lia. rewrite Nat.eqb_refl. unfold data_init, prepareToBatchSize at 1. cbn [Nat.eqb f_rows]. rewrite Nat.leb_refl. cbn [obind f_s f_fail f_rows f_own f_idx f_next].
  unfold launchCheck at 1. unfold prepareToBatchSize at 1. cbn [on_i with_fail with_s f_rows f_own].
  destruct (Nat.leb_spec rows (st_online T)); [lia|]. destruct (Nat.leb_spec (st_online T) 0); [lia|]. rewrite andb_false_r. reflexivity.
Qed.
End P.
