(** The JSON reader: one member, and whole documents. *)
From Verif Require Import Base BaseLemmas Kern_Model Smx_Model Smx_Spec Smx_Proofs TData_Model Js_Model Js_Spec Js_Proofs.
From Coq Require Import String List.
Local Open Scope list_scope.

Lemma name_of_str m : member_str m = name_of m.
Proof. destruct m; reflexivity. Qed.

Section F.
Context {D : Type}.
Implicit Types (ms : list (string * json D)) (v : json D) (f : nat -> nat -> num D) (row vec : list (json D)).

Lemma has_member_find ms : forall name v, has_member ms name v <-> find_member ms name = Some v.
Proof.
  induction ms as [|[k w] ms IH]; intros name v; cbn [find_member].
  - split; [|discriminate]. intros ([|? ?] & ? & E & _); discriminate.
  - destruct (String.eqb_spec k name) as [->|Hk].
    + split.
      * intros ([|[k' w'] l1] & l2 & E & Hn).
        -- cbn in E. injection E as -> _. reflexivity.
        -- cbn in E. injection E as <- <- _. exfalso. apply Hn. left. reflexivity.
      * intros E. injection E as ->. exists [], ms. split; [reflexivity|]. intros [].
    + rewrite <- IH. split.
      * intros ([|[k' w'] l1] & l2 & E & Hn).
        -- cbn in E. injection E as -> _ _. congruence.
        -- cbn in E. injection E as <- <- E. exists l1, l2. split; [exact E|]. intros Hi. apply Hn. right. exact Hi.
      * intros (l1 & l2 & -> & Hn). exists ((k, w) :: l1), l2. split; [reflexivity|]. intros [H|H]; [cbn in H; congruence|exact (Hn H)].
Qed.
Lemma has_member_fun ms name v w : has_member ms name v -> has_member ms name w -> v = w.
Proof. rewrite !has_member_find. congruence. Qed.
Lemma no_member ms name : find_member ms name = None -> ~ described ms name.
Proof. intros E (r & c & f & v & H & _). apply has_member_find in H. congruence. Qed.

Lemma json_matrix_not_arr v r c f : json_matrix v r c f -> exists x l, v = JArr (x :: l).
Proof.
  intros (Hr & Hc & [(cols & -> & Hl & _)|(-> & l & -> & Hl & _)]).
  - destruct cols as [|x cols]; [cbn in Hl; lia|eauto].
  - destruct l as [|x l]; [cbn in Hl; lia|eauto].
Qed.
Lemma json_matrix_arr row vec r c f : json_matrix (JArr (JArr row :: vec)) r c f ->
  r = length row /\ c = S (length vec) /\
  forall i, i < c -> exists col, nth_error (JArr row :: vec) i = Some (JArr col) /\ length col = r /\
       forall j, j < r -> nth_error col j = Some (JNum (f j i)).
Proof.
  intros (Hr & Hc & [(cols & E & Hl & H)|(-> & l & E & Hl & H)]).
  - injection E as <-. destruct (H 0 Hc) as (col & E & El & _). cbn in E. injection E as <-.
    split; [auto|]. split; [rewrite <- Hl; reflexivity|exact H].
  - injection E as <-. specialize (H 0 Hr). discriminate.
Qed.
Lemma json_matrix_vec x vec r c f : (forall row, x <> JArr row) -> json_matrix (JArr (x :: vec)) r c f ->
  c = 1 /\ r = S (length vec) /\ forall j, j < r -> nth_error (x :: vec) j = Some (JNum (f j 0)).
Proof.
  intros Hx (Hr & Hc & [(cols & E & Hl & H)|(-> & l & E & Hl & H)]).
  - injection E as <-. destruct (H 0 Hc) as (col & E & _). cbn in E. injection E as E. destruct (Hx col E).
  - injection E as <-. split; [reflexivity|]. split; [rewrite <- Hl; reflexivity|exact H].
Qed.

(** A document describes one matrix only *)
Lemma json_matrix_fun v r c f r' c' f' : json_matrix v r c f -> json_matrix v r' c' f' ->
  r = r' /\ c = c' /\ forall j i, j < r -> i < c -> f j i = f' j i.
Proof.
  intros H H'. destruct (json_matrix_not_arr _ _ _ _ H) as (x & l & ->).
  assert (Dx : (exists row, x = JArr row) \/ forall row, x <> JArr row).
  { destruct x; try (right; discriminate). left. eauto. }
  destruct Dx as [[row ->]|Hx].
  - apply json_matrix_arr in H. apply json_matrix_arr in H'.
    destruct H as (-> & -> & H). destruct H' as (-> & -> & H'). split; [reflexivity|]. split; [reflexivity|].
    intros j i Hj Hi. destruct (H i Hi) as (col & E & _ & Hc). destruct (H' i Hi) as (col' & E' & _ & Hc').
    rewrite E in E'. injection E' as <-. specialize (Hc j Hj). specialize (Hc' j Hj). congruence.
  - apply json_matrix_vec in H; [|exact Hx]. apply json_matrix_vec in H'; [|exact Hx].
    destruct H as (-> & -> & H). destruct H' as (-> & -> & H'). split; [reflexivity|]. split; [reflexivity|].
    intros j i Hj Hi. assert (i = 0) as -> by lia. specialize (H j Hj). specialize (H' j Hj). congruence.
Qed.
Lemma describes_fun ms name r c f r' c' f' : describes ms name r c f -> describes ms name r' c' f' ->
  r = r' /\ c = c' /\ forall j i, j < r -> i < c -> f j i = f' j i.
Proof.
  intros (v & H1 & H2) (v' & H1' & H2'). pose proof (has_member_fun _ _ _ _ H1 H1') as <-.
  eapply json_matrix_fun; eassumption.
Qed.
End F.

Lemma fits_repr n b : repr n -> fits_len (n + Nat.b2n b) = true.
Proof. unfold repr, fits_len. intros H. apply Z.leb_le. destruct b; cbn [Nat.b2n]; lia. Qed.
Lemma fits_repr0 n : repr n -> fits_len n = true.
Proof. intros H. rewrite <- (Nat.add_0_r n). exact (fits_repr n false H). Qed.
Lemma repr1 : repr 1.
Proof. unfold repr, max_vec_len. lia. Qed.

Section P.
Context {D A : Type} (one : A) (extract : num D -> option A).
Implicit Types (d : smx A) (me : mem_env A).

Definition failed_shape d d' : Prop :=
  alloc_failed d' = true /\ s_bias d' = s_bias d /\ s_bir d' = s_bir d /\ s_ext d' = false.

Lemma resize_ok me d r c :
  usable d -> 0 < r -> 0 < c -> repr r -> repr c ->
  exists b d', resize_checked one me d r c = Some (b, d') /\
    s_bias d' = s_bias d /\ s_bir d' = s_bir d /\ s_ext d' = false /\
    s_rows d' = r + Nat.b2n (s_bias d && s_bir d) /\ s_cols d' = c + Nat.b2n (s_bias d && negb (s_bir d)) /\
    (if b then fine one d' else me = None /\ alloc_failed d' = true).
Proof.
  intros (U1 & U2 & U3) Hr Hc Rr Rc. unfold resize_checked.
  rewrite (fits_repr0 r Rr), (fits_repr0 c Rc), !fits_repr by assumption. cbn [andb negb guard obind].
  destruct (resize_good one me d r c U1 Hr Hc U2 U3) as (b & d' & E & H1 & H2 & H3 & H4 & H5 & Hb & W & G & M).
  exists b, d'. split; [exact E|]. split; [exact H3|]. split; [exact H4|]. split; [exact H5|].
  split; [exact H1|]. split; [exact H2|]. destruct b.
  - symmetry in Hb. apply negb_true_iff in Hb. destruct G as [G|G]; [congruence|exact G].
  - symmetry in Hb. apply negb_false_iff in Hb. split; [destruct me; [exfalso; discriminate M; discriminate|reflexivity]|].
    unfold alloc_failed. rewrite Hb. apply andb_true_intro. split; [apply andb_true_intro; split; [reflexivity|]|];
      apply Nat.ltb_lt; lia.
Qed.

Definition pick (cols : list (json D)) (j i : nat) : num D :=
  match nth_error cols i with
  | Some (JArr col) => match nth_error col j with Some (JNum n) => n | _ => NInt 0 end
  | _ => NInt 0 end.
Definition pickv (l : list (json D)) (j i : nat) : num D :=
  match nth_error l j with Some (JNum n) => n | _ => NInt 0 end.

Definition outcome me d (desc : nat -> nat -> (nat -> nat -> num D) -> Prop) (m : member) (o : option (ecode * smx A)) : Prop :=
  exists c d', o = Some (c, d') /\
    ((c = Success /\ exists r cc f, desc r cc f /\ holds one extract d d' (s_bias d) r cc f) \/
     (c = NoField m /\ (forall r cc f, ~ desc r cc f) /\ (d' = d \/ cleared d d')) \/
     (c = MemoryAllocationFailed /\ me = None /\ failed_shape d d')).

Lemma nb_sizes d r c :
  s_rows d = r + Nat.b2n (s_bias d && s_bir d) -> s_cols d = c + Nat.b2n (s_bias d && negb (s_bir d)) ->
  s_rows_nb d = r /\ s_cols_nb d = c.
Proof. intros H1 H2. unfold s_rows_nb, s_cols_nb, s_bias_row, s_bias_col. rewrite H1, H2. lia. Qed.

Lemma parse_as_mtx_ok me m row vec d :
  usable d -> small (JArr (JArr row :: vec)) -> convertible extract (JArr (JArr row :: vec)) ->
  outcome me d (json_matrix (JArr (JArr row :: vec))) m (parse_as_mtx one extract me m (JArr row :: vec) row d).
Proof.
  intros U Sm Cv. destruct (Sm _ eq_refl) as [Rc Rr]. specialize (Rr row vec eq_refl).
  unfold parse_as_mtx, members2ErrorCode. rewrite (fits_repr0 _ Rr). cbn [negb].
  destruct (Nat.eqb_spec (length row) 0) as [E0|E0].
  { exists (NoField m), d. split; [reflexivity|]. right. left. split; [reflexivity|]. split; [|left; reflexivity].
    intros r c f H. pose proof H as (Hr & _). apply json_matrix_arr in H. lia. }
  destruct (resize_ok me d (length row) (length (JArr row :: vec)) U) as (b & d1 & E1 & B1 & I1 & X1 & R1 & C1 & H1);
    [lia|cbn; lia|exact Rr|exact Rc|].
  rewrite E1. cbn [obind]. destruct b; cbn [negb].
  2:{ exists MemoryAllocationFailed, d1. split; [reflexivity|]. right. right. destruct H1. split; [reflexivity|].
      split; [assumption|]. repeat split; assumption. }
  assert (NB : s_rows_nb d1 = length row /\ s_cols_nb d1 = length (JArr row :: vec)) by (apply nb_sizes; congruence).
  destruct NB as [N1 N2].
  destruct (mtx_loop_spec one extract (length row) (JArr row :: vec) 0 d1 H1) as (ok & d2 & E2 & H2);
    [lia|lia| |].
  { intros row' Hrow n Hn. destruct (Cv _ _ eq_refl Hrow) as [_ Hc]. exact (Hc row' n eq_refl Hn). }
  rewrite E2. cbn [obind]. destruct ok.
  - destruct H2 as (S2 & F2 & C2 & _). exists Success, d2. split; [reflexivity|]. left. split; [reflexivity|].
    exists (length row), (length (JArr row :: vec)), (pick (JArr row :: vec)). split.
    + split; [lia|]. split; [cbn; lia|]. left. exists (JArr row :: vec). split; [reflexivity|]. split; [reflexivity|].
      intros i Hi. destruct (C2 i Hi) as (col & P1 & P2 & P3). exists col. split; [exact P1|]. split; [exact P2|].
      intros j Hj. unfold pick. rewrite P1. rewrite <- P2 in Hj. destruct (P3 j Hj) as (n & v & Q1 & _). rewrite Q1. reflexivity.
    + destruct S2 as (T1 & T2 & T3 & T4 & T5). destruct F2 as [F2 F3].
      split; [congruence|]. split; [congruence|]. split; [congruence|]. split; [congruence|]. split; [congruence|].
      split; [exact F2|]. split; [exact F3|]. intros j i Hj Hi.
      destruct (C2 i Hi) as (col & P1 & P2 & P3). rewrite <- P2 in Hj. destruct (P3 j Hj) as (n & v & Q1 & Q2 & Q3).
      exists v. unfold pick. rewrite P1, Q1. split; [exact Q2|exact Q3].
  - destruct H2 as [H2 (x & Hx & Hnx)]. exists (NoField m), d2. split; [reflexivity|]. right. left.
    split; [reflexivity|]. split.
    + intros r c f H. apply json_matrix_arr in H. destruct H as (Hr & Hc & H). apply Hnx.
      destruct (In_nth_error _ _ Hx) as [i Hi].
      assert (i < c). { rewrite Hc. apply (proj1 (nth_error_Some (JArr row :: vec) i)). rewrite Hi. discriminate. }
      destruct (H i H0) as (col & P1 & P2 & P3). rewrite Hi in P1. injection P1 as ->.
      exists col. split; [reflexivity|]. split; [congruence|]. apply Forall_forall. intros y Hy.
      destruct (In_nth_error _ _ Hy) as [j Hj]. assert (j < r). { rewrite <- P2. apply nth_error_Some. congruence. }
      rewrite (P3 j H3) in Hj. injection Hj as <-. eexists. reflexivity.
    + right. unfold cleared in *. rewrite <- B1. exact H2.
Qed.

Lemma parse_as_vector_ok me m x vec d :
  (forall row, x <> JArr row) ->
  usable d -> small (JArr (x :: vec)) -> convertible extract (JArr (x :: vec)) ->
  outcome me d (json_matrix (JArr (x :: vec))) m (parse_as_vector one extract me m (x :: vec) d).
Proof.
  intros Hna U Sm Cv. destruct (Sm _ eq_refl) as [Rc _].
  unfold parse_as_vector, members2ErrorCode. rewrite (fits_repr0 _ Rc). cbn [negb].
  destruct (resize_ok me d (length (x :: vec)) 1 U) as (b & d1 & E1 & B1 & I1 & X1 & R1 & C1 & H1);
    [cbn; lia|lia|exact Rc|exact repr1|].
  rewrite E1. cbn [obind]. destruct b; cbn [negb].
  2:{ exists MemoryAllocationFailed, d1. split; [reflexivity|]. right. right. destruct H1. split; [reflexivity|].
      split; [assumption|]. repeat split; assumption. }
  assert (NB : s_rows_nb d1 = length (x :: vec) /\ s_cols_nb d1 = 1) by (apply nb_sizes; congruence).
  destruct NB as [N1 N2]. rewrite vec_loop_row.
  destruct (row_loop_spec one extract 0 (x :: vec) 0 d1 H1) as (ok & d2 & E2 & H2); [lia|lia| |].
  { intros n Hn. destruct (Cv _ _ eq_refl Hn) as [Hc _]. exact (Hc n eq_refl). }
  rewrite E2. cbn [obind]. destruct ok.
  - destruct H2 as (S2 & F2 & C2 & _). exists Success, d2. split; [reflexivity|]. left. split; [reflexivity|].
    exists (length (x :: vec)), 1, (pickv (x :: vec)). split.
    + split; [cbn; lia|]. split; [lia|]. right. split; [reflexivity|]. exists (x :: vec). split; [reflexivity|]. split; [reflexivity|].
      intros j Hj. destruct (C2 j Hj) as (n & v & Q1 & _). unfold pickv. rewrite Q1. reflexivity.
    + destruct S2 as (T1 & T2 & T3 & T4 & T5). destruct F2 as [F2 F3].
      split; [congruence|]. split; [congruence|]. split; [congruence|]. split; [congruence|]. split; [congruence|].
      split; [exact F2|]. split; [exact F3|]. intros j i Hj Hi. assert (i = 0) as -> by lia.
      destruct (C2 j Hj) as (n & v & Q1 & Q2 & Q3). exists v. unfold pickv. rewrite Q1. split; [exact Q2|exact Q3].
  - destruct H2 as [H2 (y & Hy & Hny)]. exists (NoField m), d2. split; [reflexivity|]. right. left.
    split; [reflexivity|]. split.
    + intros r c f H. apply json_matrix_vec in H; [|exact Hna]. destruct H as (_ & Hr & H). apply Hny.
      destruct (In_nth_error _ _ Hy) as [j Hj].
      assert (j < r). { rewrite Hr. apply (proj1 (nth_error_Some (x :: vec) j)). rewrite Hj. discriminate. }
      rewrite (H j H0) in Hj. injection Hj as <-. eexists. reflexivity.
    + right. unfold cleared in *. rewrite <- B1. exact H2.
Qed.

Lemma parse_mtx_ok me ms m d :
  usable d -> small_members ms -> convertible_member extract ms (name_of m) ->
  outcome me d (describes ms (name_of m)) m (parse_mtx one extract me ms m d).
Proof.
  intros U Sm Cv. unfold parse_mtx. change (member_str m) with (name_of m).
  destruct (find_member ms (name_of m)) as [v|] eqn:Ef.
  2:{ exists (NoField m), d. split; [reflexivity|]. right. left. split; [reflexivity|]. split; [|left; reflexivity].
      intros r c f H. apply (no_member _ _ Ef). exists r, c, f. exact H. }
  assert (Hm : has_member ms (name_of m) v) by (apply has_member_find; exact Ef).
  assert (Hout : forall o, outcome me d (json_matrix v) m o -> outcome me d (describes ms (name_of m)) m o).
  { intros o (c & d' & E & H). exists c, d'. split; [exact E|]. destruct H as [H|[H|H]].
    - left. destruct H as (H1 & r & cc & f & H2 & H3). split; [exact H1|]. exists r, cc, f. split; [|exact H3].
      exists v. split; [exact Hm|exact H2].
    - right. left. destruct H as (H1 & H2 & H3). split; [exact H1|]. split; [|exact H3].
      intros r cc f (w & Hw & Hj). rewrite (has_member_fun _ _ _ _ Hm Hw) in H2. exact (H2 r cc f Hj).
    - right. right. exact H. }
  specialize (Sm _ _ Hm). specialize (Cv _ Hm).
  assert (Bad : (forall x l, v <> JArr (x :: l)) ->
    outcome me d (describes ms (name_of m)) m (Some (members2ErrorCode (InvalidField TrainX) m, d))).
  { intros Hb. apply Hout. exists (NoField m), d. split; [reflexivity|]. right. left. split; [reflexivity|]. split; [|left; reflexivity].
    intros r c f H. destruct (json_matrix_not_arr _ _ _ _ H) as (x & l & E). exact (Hb x l E). }
  destruct v as [|b|s|n|[|x vec]|o]; try (apply Bad; discriminate).
  apply Hout. destruct x as [|b|s|n|row|o]; try (apply parse_as_vector_ok; [discriminate|assumption..]).
  apply parse_as_mtx_ok; assumption.
Qed.
End P.
