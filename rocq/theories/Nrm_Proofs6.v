(** The whole call. *)
From Coq Require Import Reals Lra Permutation.
From Verif Require Import Base BaseLemmas Workers_Model Act_Spec Loss_Proofs Kern_Model Kern_Spec Kern_Proofs
  Smx_Model Smx_Spec TData_Model TData_Spec TData_Proofs TData_Proofs2 TData_Proofs3 TData_Proofs4 TData_Proofs5
  Nrm_Model Nrm_Spec Nrm_Proofs Nrm_Proofs2 Nrm_Proofs3 Nrm_Proofs4 Nrm_Proofs5.
Local Open Scope nat_scope.

Lemma groups_cw p x L : n_cw p = true -> groups p x L = map (column x L) (seq 0 (sample_size x)).
Proof. intros H. unfold groups. rewrite H. reflexivity. Qed.
Lemma groups_whole p x L : n_cw p = false -> groups p x L = [whole x L].
Proof. intros H. unfold groups. rewrite H. reflexivity. Qed.
Lemma whole_length x L : length (whole x L) = L * sample_size x.
Proof.
  unfold whole. assert (H : forall k, length (flat_map (fun i => map (xv x i) (seq 0 (sample_size x))) (seq k L)) = L * sample_size x); [|apply H].
  induction L as [|L IH]; intros k; [reflexivity|]. cbn [seq flat_map]. rewrite app_length, map_length, seq_length, IH. reflexivity.
Qed.
Lemma column_length x L j : length (column x L j) = L. Proof. unfold column. rewrite map_length, seq_length. reflexivity. Qed.
Lemma Forall_col p (P : list R -> Prop) x L : n_cw p = true -> Forall P (groups p x L) <-> forall j, j < sample_size x -> P (column x L j).
Proof.
  intros H. rewrite groups_cw by exact H. rewrite Forall_map, Forall_forall. split; intros K j Hj; apply K; [apply in_seq; lia|]. apply in_seq in Hj. lia.
Qed.
Lemma Forall_whole p (P : list R -> Prop) x L : n_cw p = false -> Forall P (groups p x L) <-> P (whole x L).
Proof. intros H. rewrite groups_whole by exact H. split; [intros K; inversion K; assumption|auto]. Qed.

Section T.
Context {B : Type} (oneB : B).
Notation sets := (sets R B). Notation tds := (tds R B). Notation imath := (imath R B).
Context (p : nset) (imw : nat -> nat -> imath) (imf : nat -> imath) (imd : imath) (ibs : nat).
Context (Hw : forall i k, im_ok (imw i k)) (Hf : forall i, im_ok (imf i)) (Hd : im_ok imd).

Definition result (L : nat) (S S' : sets) (r : bool) (a b : nat -> R) : Prop :=
  mapped a b (x0 S) (x0 S') /\ (r = true -> mapped a b (x1 S) (x1 S')) /\ (r = false -> x1 S' = x1 S) /\
  (n_cw p = false -> forall j k, a j = a k /\ b j = b k) /\
  (forall j, (n_dos p = false -> a j = 1%R) /\ (n_doc p = false -> b j = 0%R) /\ ((0 < n_scale p)%R -> (0 < a j)%R)) /\
  (should_normalize p = true -> r = true -> enough_values p (x0 S) L -> Forall (met p) (groups p (x0 S') L)).
Definition converges (L : nat) (S S' : sets) (r : bool) (a b : nat -> R) : Prop :=
  enough_values p (x0 S) L -> positive p ->
  (Forall (met p) (groups p (x0 S) L) -> r = false /\ forall j, j < sample_size (x0 S) -> a j = 1%R /\ b j = 0%R) /\
  (~ Forall (met p) (groups p (x0 S) L) -> ~ same_values (x0 S) (x0 S')) /\
  (n_tries p = 1 -> r = false) /\
  (enough_tries p -> (r = true <-> ~ Forall (met p) (groups p (x0 S) L)) /\ (r = false -> Forall (met p) (groups p (x0 S) L))).

Lemma tries_rank l : enough_tries p -> rank p l < n_tries p.
Proof. unfold enough_tries. intros H. pose proof (rank_le p l). destruct (n_dos p && n_doc p); lia. Qed.

Lemma core_ok fp tb S t : should_normalize p = true -> ready oneB p ibs fp tb S t -> is_init p S t = true ->
  exists r S' t' a b, (if n_cw p then normalize_data_cw p imw imf ibs imd S t else normalize_data_whole p imw imf ibs imd S t) = Some (r, S', t') /\
    kept S S' /\ InvW 1%R oneB S' fp tb t' Idle /\ t_mini t' = t_mini t /\ t_idx t' = t_idx t /\
    result (looked p (cnt S 0) (asked fp ibs (n_bs p))) S S' r a b /\ converges (looked p (cnt S 0) (asked fp ibs (n_bs p))) S S' r a b.
Proof.
  intros Hs HR Hi. assert (Htr : 0 < n_tries p) by (apply andb_prop in Hs; destruct Hs as [_ Hs]; apply Nat.ltb_lt in Hs; exact Hs). set (L := looked p (cnt S 0) (asked fp ibs (n_bs p))).
  pose proof HR as (HC & Hb & HI & _). pose proof (coherent_xdata S 0 HC Hb ltac:(lia)) as Hx0. change (set_x S 0) with (x0 S) in Hx0.
  destruct (coherent_set 1%R S 1 HC ltac:(lia)) as (_ & _ & _ & _ & _ & EW1 & _). change (set_x S 1) with (x1 S) in EW1.
  destruct (n_cw p) eqn:Ecw.
  - unfold normalize_data_cw. rewrite Hs, Hi. cbn [negb].
    set (W := sample_size (x0 S)).
    destruct (norm_cw_ok oneB p imw imf ibs fp tb Hw Hf (n_tries p) 0 S t (repeat scd0 (xWidth S)) (repeat false (xWidth S)) HR)
      as (r & S1 & t' & st & a & b & E & (HK & HI' & Em & Ei & Ex1) & Hm & Ls & Hst & Hab & Hr & Hmono & Hconv).
    { rewrite repeat_length. reflexivity. } { rewrite repeat_length. reflexivity. }
    { intros j Hj. rewrite nth_repeat_lt by exact Hj. apply wfs0. }
    { intros j Hj. rewrite nth_repeat_lt by exact Hj. discriminate. }
    rewrite E. cbn [obind]. fold W in Ls, Hst, Hr, Hmono, Hconv. fold L in Hr, Hmono, Hconv.
    assert (HE : enough_values p (x0 S) L -> forall j, enough p (column (x0 S) L j)).
    { unfold enough_values, enough. rewrite Ecw. intros Q j. rewrite column_length. lia. }
    assert (Hst' : forall j, j < W -> wfs (nth j st scd0) /\ sc (nth j st scd0) = a j /\ ofs (nth j st scd0) = b j).
    { intros j Hj. destruct (Hst j Hj) as (X1 & X2 & X3 & _). rewrite nth_repeat_lt in X2, X3 by exact Hj. cbn [sc ofs scd0] in X2, X3.
      split; [exact X1|]. split; [rewrite X2; ring|rewrite X3; ring]. }
    assert (HmetE : Forall (met p) (groups p (x0 S) L) <-> forall j, j < W -> met p (column (x0 S) L j)) by (apply Forall_col; exact Ecw).
    assert (Hrank : enough_values p (x0 S) L -> forall j, rank p (column (x0 S) L j) = 0 <-> met p (column (x0 S) L j)).
    { intros Q j. rewrite rank0. apply settled_iff. apply HE. exact Q. }
    assert (HL : L <= batch_size (x0 S)) by apply looked_le.
    assert (Hmet' : r = true -> enough_values p (x0 S) L -> Forall (met p) (groups p (x0 S1) L)).
    { intros Q1 Q2. apply Forall_col; [exact Ecw|]. intros j Hj. rewrite (proj1 (mapped_dims _ _ _ _ Hm)) in Hj.
      apply settled_iff; [|apply rank0; apply Hr; assumption]. rewrite (column_mapped _ _ _ _ L j Hm HL Hj). apply enough_map. apply HE. exact Q2. }
    assert (Hnc : forall S' : sets, x0 S' = x0 S1 -> enough_values p (x0 S) L -> positive p -> ~ Forall (met p) (groups p (x0 S) L) -> ~ same_values (x0 S) (x0 S')).
    { intros S' EQ Q1 Q2 K Hid. rewrite EQ in Hid. apply K. apply HmetE. intros j Hj. apply (Hrank Q1).
      destruct (Hmono ltac:(intros; apply HE; exact Q1) Q2 j Hj) as [_ M]. rewrite (column_mapped _ _ _ _ L j Hid HL Hj) in M.
      rewrite (map_ext _ (fun v => v)) in M by (intros; ring). rewrite map_id in M.
      destruct (rank p (column (x0 S) L j)) as [|k]; [reflexivity|]. specialize (M Htr ltac:(lia)). lia. }
    (* within tolerance already *)
    assert (Hin : enough_values p (x0 S) L -> positive p -> Forall (met p) (groups p (x0 S) L) -> r = true /\ forall j, j < W -> dirty (nth j st scd0) = false).
    { intros Q1 Q2 K. destruct Hconv as [C0 C]; [intros; apply HE; exact Q1|exact Q2| |].
      { intros j Hj. rewrite (proj2 (Hrank Q1 j)); [exact Htr|]. apply HmetE; assumption. }
      split; [exact C0|]. intros j Hj. destruct (C j Hj) as [C1 _]. rewrite C1; [|apply (Hrank Q1); apply HmetE; assumption]. rewrite nth_repeat_lt by exact Hj. reflexivity. }
    (* nothing done *)
    assert (Hclean : forall j, j < W -> dirty (nth j st scd0) = false -> a j = 1%R /\ b j = 0%R).
    { intros j Hj Q. destruct (Hst' j Hj) as ((X1 & X2) & <- & <-). apply orb_false_elim in Q. destruct Q. auto. }
    assert (Hfa : forallb (fun s => negb (bsc s) && negb (bofs s)) st = true <-> forall j, j < W -> dirty (nth j st scd0) = false).
    { rewrite forallb_forall. split.
      - intros K j Hj. specialize (K (nth j st scd0) ltac:(apply nth_In; lia)). unfold dirty. apply andb_prop in K. destruct K as [K1 K2].
        apply negb_true_iff in K1. apply negb_true_iff in K2. rewrite K1, K2. reflexivity.
      - intros K s Hx. destruct (In_nth st s scd0 Hx) as (j & Hj & <-). specialize (K j ltac:(lia)). apply orb_false_elim in K. destruct K as [-> ->]. reflexivity. }
    destruct r; cbn [negb].
    + destruct (forallb (fun s => negb (bsc s) && negb (bofs s)) st) eqn:Efa.
      * exists false, S1, t', a, b. split; [reflexivity|]. do 4 (split; [assumption|]).
        pose proof (proj1 Hfa eq_refl) as Hall. split.
        -- split; [exact Hm|]. split; [discriminate|]. split; [auto|]. split; [congruence|]. split; [exact Hab|]. discriminate.
        -- intros Q1 Q2. split; [intros _; split; [reflexivity|]; intros j Hj; apply Hclean; [exact Hj|]; apply Hall; exact Hj|].
           split; [exact (Hnc S1 eq_refl Q1 Q2)|]. split; [reflexivity|]. intros Q3.
           assert (K : Forall (met p) (groups p (x0 S) L)); [|split; [split; [discriminate|contradiction]|auto]].
           apply HmetE. intros j Hj. apply (Hrank Q1).
           destruct Hconv as [_ C]; [intros; apply HE; exact Q1|exact Q2|intros; apply tries_rank; exact Q3|].
           destruct (C j Hj) as [_ C2]. destruct (rank p (column (x0 S) L j)); [reflexivity|]. rewrite (Hall j Hj) in C2. discriminate C2. lia.
      * pose proof HK as (HC1 & Hb1 & _ & _ & _ & _ & EW). fold W in EW.
        destruct (fix_X_cw imd S1 1 st HC1 Hb1 ltac:(lia) Hd) as (x' & Ef & Hm1 & HK1); [congruence|].
        change test_set_id with 1. rewrite Ef. cbn [obind]. change (set_x S1 1) with (x1 S1) in Hm1.
        exists true, (with_X S1 1 x'), t', a, b. split; [reflexivity|]. split; [exact (kept_trans _ _ _ HK HK1)|].
        split; [apply (InvW_kept oneB S1 _ fp tb t' HK1 Hb1 HI')|]. do 2 (split; [assumption|]). split.
        -- change (x0 (with_X S1 1 x')) with (x0 S1). change (x1 (with_X S1 1 x')) with x'. unfold result.
           split; [exact Hm|]. split; [|split; [discriminate|split; [congruence|split; [exact Hab|auto]]]].
           intros _. rewrite Ex1 in Hm1. eapply mapped_ext; [| |exact Hm1].
           ++ intros j Hj. rewrite EW1 in Hj. destruct (Hst' j Hj) as (X1 & X2 & X3). rewrite (eff_wf _ X1). exact X2.
           ++ intros j Hj. rewrite EW1 in Hj. destruct (Hst' j Hj) as (X1 & X2 & X3). rewrite (eff_wf _ X1). exact X3.
        -- intros Q1 Q2. assert (Hno : ~ Forall (met p) (groups p (x0 S) L)).
           { intros K. assert (false = true); [|discriminate]. apply Hfa. apply (Hin Q1 Q2 K). }
           split; [contradiction|]. split; [apply (Hnc (with_X S1 1 x')); [reflexivity|exact Q1|exact Q2]|].
           split; [intros Q3; destruct Hno; apply HmetE; intros j Hj; apply (Hrank Q1); apply (Hr eq_refl j Hj); exact Q3|]. intros _. split; [split; auto|discriminate].
    + exists false, S1, t', a, b. split; [reflexivity|]. do 4 (split; [assumption|]). split.
      * split; [exact Hm|]. split; [discriminate|]. split; [auto|]. split; [congruence|]. split; [exact Hab|]. discriminate.
      * intros Q1 Q2. split; [intros K; destruct (Hin Q1 Q2 K); discriminate|]. split; [exact (Hnc S1 eq_refl Q1 Q2)|]. split; [reflexivity|]. intros Q3. exfalso.
        destruct Hconv as [C _]; [intros; apply HE; exact Q1|exact Q2|intros; apply tries_rank; exact Q3|]. discriminate.
  - unfold normalize_data_whole. rewrite Hs, Hi. cbn [negb].
    destruct (norm_whole_ok oneB p imw imf ibs fp tb Hw Hf (n_tries p) 0 S t scd0 HR wfs0)
      as (r & S1 & t' & st & a & b & E & (HK & HI' & Em & Ei & Ex1) & Hm & Wst & Hsc & Hofs & _ & Ha & Hb0 & Hap & Hr & Hmono & Hconv).
    rewrite E. cbn [obind]. fold L in Hr, Hmono, Hconv. cbn [sc ofs scd0] in Hsc, Hofs.
    assert (Esc : sc st = a) by (rewrite Hsc; ring). assert (Eofs : ofs st = b) by (rewrite Hofs; ring). clear Hsc Hofs.
    assert (HE : enough_values p (x0 S) L -> enough p (whole (x0 S) L)).
    { unfold enough_values, enough. rewrite Ecw. intros Q. rewrite whole_length. exact Q. }
    assert (HmetE : Forall (met p) (groups p (x0 S) L) <-> met p (whole (x0 S) L)) by (apply Forall_whole; exact Ecw).
    assert (Hrank : enough_values p (x0 S) L -> rank p (whole (x0 S) L) = 0 <-> met p (whole (x0 S) L)).
    { intros Q. rewrite rank0. apply settled_iff. apply HE. exact Q. }
    assert (HL : L <= batch_size (x0 S)) by apply looked_le.
    assert (Hmet' : r = true -> enough_values p (x0 S) L -> Forall (met p) (groups p (x0 S1) L)).
    { intros Q1 Q2. apply Forall_whole; [exact Ecw|].
      apply settled_iff; [|apply rank0; apply Hr; assumption]. rewrite (whole_mapped _ _ _ _ L Hm HL). apply enough_map. apply HE. exact Q2. }
    assert (Hab : forall j : nat, (n_dos p = false -> a = 1%R) /\ (n_doc p = false -> b = 0%R) /\ ((0 < n_scale p)%R -> (0 < a)%R)) by (intros; auto).
    assert (Hnc : forall S' : sets, x0 S' = x0 S1 -> enough_values p (x0 S) L -> positive p -> ~ Forall (met p) (groups p (x0 S) L) -> ~ same_values (x0 S) (x0 S')).
    { intros S' EQ Q1 Q2 K Hid. rewrite EQ in Hid. apply K. apply HmetE. apply (Hrank Q1).
      destruct (Hmono (HE Q1) Q2) as [_ M]. rewrite (whole_mapped _ _ _ _ L Hid HL) in M.
      rewrite (map_ext _ (fun v => v)) in M by (intros; ring). rewrite map_id in M.
      destruct (rank p (whole (x0 S) L)) as [|k]; [reflexivity|]. specialize (M Htr ltac:(lia)). lia. }
    assert (Hin : enough_values p (x0 S) L -> positive p -> Forall (met p) (groups p (x0 S) L) -> r = true /\ dirty st = false).
    { intros Q1 Q2 K. assert (K0 : rank p (whole (x0 S) L) = 0) by (apply (Hrank Q1); apply HmetE; exact K).
      destruct Hconv as (C0 & C & _); [apply HE; exact Q1|exact Q2|lia|]. split; [exact C0|]. rewrite (C K0). reflexivity. }
    assert (Hclean : dirty st = false -> a = 1%R /\ b = 0%R).
    { intros Q. rewrite <- Esc, <- Eofs. destruct Wst as [X1 X2]. apply orb_false_elim in Q. destruct Q. auto. }
    assert (Hd0 : negb (bsc st) && negb (bofs st) = negb (dirty st)) by (unfold dirty; destruct (bsc st), (bofs st); reflexivity). rewrite Hd0.
    destruct r; cbn [negb].
    + destruct (dirty st) eqn:Edt; cbn [negb].
      * pose proof HK as (HC1 & Hb1 & _).
        destruct (fix_X_whole imd S1 1 st HC1 Hb1 ltac:(lia) Hd) as (x' & Ef & Hm1 & HK1).
        change test_set_id with 1. rewrite Ef. cbn [obind]. change (set_x S1 1) with (x1 S1) in Hm1.
        exists true, (with_X S1 1 x'), t', (fun _ => a), (fun _ => b). split; [reflexivity|]. split; [exact (kept_trans _ _ _ HK HK1)|].
        split; [apply (InvW_kept oneB S1 _ fp tb t' HK1 Hb1 HI')|]. do 2 (split; [assumption|]). split.
        -- change (x0 (with_X S1 1 x')) with (x0 S1). change (x1 (with_X S1 1 x')) with x'. unfold result.
           split; [exact Hm|]. split; [|split; [discriminate|split; [auto|split; [exact Hab|auto]]]].
           intros _. rewrite Ex1 in Hm1. eapply mapped_ext; [| |exact Hm1]; intros j Hj; rewrite (eff_wf _ Wst); assumption.
        -- intros Q1 Q2. assert (Hno : ~ Forall (met p) (groups p (x0 S) L)) by (intros K; destruct (Hin Q1 Q2 K); congruence).
           split; [contradiction|]. split; [apply (Hnc (with_X S1 1 x')); [reflexivity|exact Q1|exact Q2]|].
           split; [intros Q3; destruct Hno; apply HmetE; apply (Hrank Q1); apply (Hr eq_refl); exact Q3|]. intros _. split; [split; auto|discriminate].
      * exists false, S1, t', (fun _ => a), (fun _ => b). split; [reflexivity|]. do 4 (split; [assumption|]). split.
        -- split; [exact Hm|]. split; [discriminate|]. split; [auto|]. split; [auto|]. split; [exact Hab|]. discriminate.
        -- intros Q1 Q2. split; [intros _; split; [reflexivity|]; intros j _; apply Hclean; reflexivity|].
           split; [exact (Hnc S1 eq_refl Q1 Q2)|]. split; [reflexivity|]. intros Q3.
           assert (K : Forall (met p) (groups p (x0 S) L)); [|split; [split; [discriminate|contradiction]|auto]].
           apply HmetE. apply (Hrank Q1).
           destruct Hconv as (_ & _ & C); [apply HE; exact Q1|exact Q2|apply tries_rank; exact Q3|].
           destruct (rank p (whole (x0 S) L)); [reflexivity|]. assert (Q : 0 < Datatypes.S n) by lia; specialize (C Q); congruence.
    + exists false, S1, t', (fun _ => a), (fun _ => b). split; [reflexivity|]. do 4 (split; [assumption|]). split.
      * split; [exact Hm|]. split; [discriminate|]. split; [auto|]. split; [auto|]. split; [exact Hab|]. discriminate.
      * intros Q1 Q2. split; [intros K; destruct (Hin Q1 Q2 K); discriminate|]. split; [exact (Hnc S1 eq_refl Q1 Q2)|]. split; [reflexivity|]. intros Q3. exfalso.
        destruct Hconv as (C & _); [apply HE; exact Q1|exact Q2|apply tries_rank; exact Q3|]. discriminate.
Qed.
End T.
