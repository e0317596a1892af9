(** Proofs about [smatrix]. *)
From Verif Require Import Base BaseLemmas Kern_Model Kern_Proofs Smx_Model Smx_Spec.

Section P.
Context {A : Type} (one zero nan : A).
Implicit Types (s d : smx A) (me : mem_env A) (l : list A).

Lemma block_length n (f : nat -> A) : length (block n f) = n.
Proof. unfold block. rewrite map_length, seq_length. reflexivity. Qed.

(** ** Filling *)
Lemma fill_strided_spec (v : A) ofs ld n l :
  (forall i, i < n -> ofs + i * ld < length l) ->
  exists l', fill_strided v ofs ld n l = Some l' /\ length l' = length l /\
    (forall i, i < n -> bget l' (ofs + i * ld) = Some v) /\
    (forall a, (forall i, i < n -> a <> ofs + i * ld) -> bget l' a = bget l a).
Proof.
  intros Hb. unfold fill_strided.
  destruct (for_loop_inv (fun k l1 => length l1 = length l /\
      (forall i, i < k -> bget l1 (ofs + i * ld) = Some v) /\
      (forall a, (forall i, i < k -> a <> ofs + i * ld) -> bget l1 a = bget l a))
      0 n (fun i l0 => bset l0 (ofs + i * ld) v) l) as (l' & E & H).
  - split; [reflexivity|]. split; [intros; lia|]. auto.
  - intros k l1 Hk (H1 & H2 & H3).
    destruct (bset_lt l1 (ofs + k * ld) v) as [l2 E2]; [rewrite H1; apply Hb; lia|].
    exists l2. split; [exact E2|]. destruct (bset_some _ _ _ _ E2) as (_ & L2 & G2).
    split; [congruence|]. split.
    + intros i Hi. rewrite G2. destruct (Nat.eqb_spec (ofs + i * ld) (ofs + k * ld)) as [|Hne]; [reflexivity|].
      apply H2. assert (i <> k) by (intros ->; apply Hne; reflexivity). lia.
    + intros a Ha. rewrite G2. destruct (Nat.eqb_spec a (ofs + k * ld)) as [->|Hne].
      * exfalso. apply (Ha k); [lia|reflexivity].
      * apply H3. intros i Hi. apply Ha. lia.
  - exists l'. simpl in H. tauto.
Qed.

Lemma fill_seq_strided (v : A) ofs n l : fill_seq v ofs n l = fill_strided v ofs 1 n l.
Proof.
  unfold fill_seq, fill_strided.
  assert (H : forall lo l, for_loop lo n (fun i l0 => bset l0 (ofs + i) v) l =
                           for_loop lo n (fun i l0 => bset l0 (ofs + i * 1) v) l).
  { induction n as [|n IH]; intros lo l0; simpl; [reflexivity|].
    rewrite Nat.mul_1_r. destruct (bset l0 (ofs + lo) v); simpl; auto. }
  apply H.
Qed.

Lemma fill_seq_spec (v : A) ofs n l :
  ofs + n <= length l ->
  exists l', fill_seq v ofs n l = Some l' /\ length l' = length l /\
    (forall a, ofs <= a < ofs + n -> bget l' a = Some v) /\
    (forall a, a < ofs \/ ofs + n <= a -> bget l' a = bget l a).
Proof.
  intros H. rewrite fill_seq_strided.
  destruct (fill_strided_spec v ofs 1 n l) as (l' & E & L & H1 & H2); [intros; lia|].
  exists l'. split; [exact E|]. split; [exact L|]. split.
  - intros a Ha. replace a with (ofs + (a - ofs) * 1) by lia. apply H1. lia.
  - intros a Ha. apply H2. intros i Hi. lia.
Qed.

(** ** Copying *)
Lemma copy_n_spec s d n ls ld :
  s_data s = Some ls -> s_data d = Some ld -> n <= length ls -> n <= length ld ->
  exists l', copy_n s d n = Some (with_mem d (Some l')) /\ length l' = length ld /\
    (forall a, a < n -> bget l' a = bget ls a) /\ (forall a, n <= a -> bget l' a = bget ld a).
Proof.
  intros Hs Hd H1 H2. unfold copy_n. rewrite Hs, Hd. cbn [obind].
  destruct (for_loop_inv (fun k l1 => length l1 = length ld /\
      (forall a, a < k -> bget l1 a = bget ls a) /\ (forall a, k <= a -> bget l1 a = bget ld a))
      0 n (fun i l0 => do v <- bget ls i; bset l0 i v) ld) as (l' & E & H).
  - split; [reflexivity|]. split; [intros; lia|]. auto.
  - intros k l1 Hk (G1 & G2 & G3).
    destruct (bget_lt ls k) as [v Ev]; [lia|]. rewrite Ev. cbn [obind].
    destruct (bset_lt l1 k v) as [l2 E2]; [lia|].
    exists l2. split; [exact E2|]. destruct (bset_some _ _ _ _ E2) as (_ & L2 & B2).
    split; [congruence|]. split; intros a Ha; rewrite B2; destruct (Nat.eqb_spec a k) as [->|Hne];
      try congruence; try lia.
    + apply G2. lia.
    + apply G3. lia.
  - rewrite E. cbn [obind]. exists l'. simpl in H. destruct H as (G1 & G2 & G3). auto.
Qed.

(** ** The bias part *)
Definition bias_part (bir : bool) (rows cols : nat) (P : nat -> Prop) : Prop :=
  if bir then forall c, c < cols -> P (rows - 1 + rows * c)
  else forall r, r < rows -> P (r + rows * (cols - 1)).

Lemma cell_some s l r c : s_data s = Some l -> cell s r c = bget l (r + s_rows s * c).
Proof. intros H. unfold cell. rewrite H. reflexivity. Qed.

Definition keeps_shape s s' : Prop :=
  s_rows s' = s_rows s /\ s_cols s' = s_cols s /\ s_bias s' = s_bias s /\ s_bir s' = s_bir s /\
  s_ext s' = s_ext s.

Lemma set_biases_spec s l :
  s_data s = Some l -> 0 < s_rows s -> 0 < s_cols s -> s_numel s <= length l ->
  exists s' l', set_biases one s = Some s' /\ keeps_shape s s' /\ s_holey s' = false /\
    s_data s' = Some l' /\ length l' = length l /\
    bias_part (s_bir s) (s_rows s) (s_cols s) (fun a => bget l' a = Some one) /\
    (forall a, bget l' a = bget l a \/ bget l' a = Some one).
Proof.
  intros Hd Hr Hc Hn. unfold set_biases, s_numel in *.
  destruct (s_bir s) eqn:Eb.
  - unfold fill_row_with. rewrite Hd. cbn [obind].
    destruct (fill_strided_spec one (s_rows s - 1) (s_rows s) (s_cols s) l) as (l' & E & L & H1 & H2).
    { intros i Hi. nia. }
    rewrite E. cbn [obind]. eexists _, l'. split; [reflexivity|].
    split; [repeat split|]. split; [reflexivity|]. split; [reflexivity|]. split; [exact L|]. split.
    + simpl. intros c Hcc. rewrite (Nat.mul_comm (s_rows s) c). apply H1. exact Hcc.
    + intros a. destruct (Nat.eq_dec (a mod s_rows s) (s_rows s - 1)) as [Em|Em].
      * destruct (le_lt_dec (s_cols s) (a / s_rows s)) as [Hge|Hlt].
        -- left. apply H2. intros i Hi ->.
           replace (s_rows s - 1 + i * s_rows s) with (i * s_rows s + (s_rows s - 1)) in Hge by lia.
           rewrite Nat.div_add_l, Nat.div_small in Hge by lia. lia.
        -- right. replace a with (s_rows s - 1 + a / s_rows s * s_rows s); [apply H1; exact Hlt|].
           rewrite <- Em at 1. pose proof (Nat.div_mod a (s_rows s)). lia.
      * left. apply H2. intros i Hi ->. apply Em.
        rewrite Nat.mod_add by lia. apply Nat.mod_small. lia.
  - unfold fill_column_with. rewrite Hd. cbn [obind].
    destruct (fill_seq_spec one (s_rows s * (s_cols s - 1)) (s_rows s) l) as (l' & E & L & H1 & H2).
    { nia. }
    rewrite E. cbn [obind]. eexists _, l'. split; [reflexivity|].
    split; [repeat split|]. split; [reflexivity|]. split; [reflexivity|]. split; [exact L|]. split.
    + simpl. intros r Hrr. apply H1. lia.
    + intros a. destruct (le_lt_dec (s_rows s * (s_cols s - 1)) a).
      * destruct (le_lt_dec (s_rows s * (s_cols s - 1) + s_rows s) a); [left; apply H2; lia|].
        right. apply H1. lia.
      * left. apply H2. lia.
Qed.

Lemma biases_one_part s l :
  s_data s = Some l -> 0 < s_rows s -> 0 < s_cols s ->
  (biases_one one s <->
   (s_bias s = true -> bias_part (s_bir s) (s_rows s) (s_cols s) (fun a => bget l a = Some one))).
Proof.
  intros Hd Hr Hc. unfold biases_one, bias_part.
  destruct (s_bir s); split; intros H Hb; specialize (H Hb).
  - destruct H as [_ H]. intros c Hcc. rewrite <- (cell_some s l) by exact Hd. auto.
  - split; [exact Hr|]. intros c Hcc. rewrite (cell_some s l) by exact Hd. auto.
  - destruct H as [_ H]. intros r Hrr. rewrite <- (cell_some s l) by exact Hd. auto.
  - split; [exact Hc|]. intros r Hrr. rewrite (cell_some s l) by exact Hd. auto.
Qed.

(** ** Fresh storage *)
Definition good s : Prop := empty s = true \/ (well_alloc s /\ biases_one one s).

Lemma empty_false s : empty s = false -> exists l, s_data s = Some l.
Proof. unfold empty. destruct (s_data s); [eauto|discriminate]. Qed.

Lemma set_biases_good s :
  well_alloc s -> exists s', set_biases one s = Some s' /\ keeps_shape s s' /\ good s'.
Proof.
  intros (Hr & Hc & l & Hd & Hn).
  destruct (set_biases_spec s l Hd Hr Hc Hn) as (s' & l' & E & K & _ & D & L & B & _).
  exists s'. split; [exact E|]. split; [exact K|]. right.
  destruct K as (K1 & K2 & K3 & K4 & K5). split.
  - split; [lia|]. split; [lia|]. exists l'. split; [exact D|]. unfold s_numel in *. rewrite K1, K2. lia.
  - apply (biases_one_part s' l' D); [lia|lia|]. intros _. rewrite K1, K2, K4. exact B.
Qed.

Lemma impl_resize_spec me s r c :
  s_ext s = false -> 0 < r -> 0 < c -> (empty s = true -> r <> s_rows s \/ c <> s_cols s) ->
  (empty s = false -> well_alloc s) ->
  exists b s', impl_resize me s r c = Some (b, s') /\
    s_rows s' = r /\ s_cols s' = c /\ s_bias s' = s_bias s /\ s_bir s' = s_bir s /\ s_ext s' = false /\
    b = negb (empty s') /\ (b = true -> well_alloc s') /\ (me <> None -> b = true).
Proof.
  intros Hx Hr Hc Hne Hw. unfold impl_resize.
  assert (E0 : (r =? 0) || (c =? 0) = false).
  { apply orb_false_intro; apply Nat.eqb_neq; lia. }
  rewrite E0. destruct ((r =? s_rows s) && (c =? s_cols s)) eqn:E1.
  - apply andb_prop in E1. destruct E1 as [Ea Eb]. apply Nat.eqb_eq in Ea. apply Nat.eqb_eq in Eb.
    exists true, s. split; [reflexivity|].
    destruct (empty s) eqn:Ee; [destruct (Hne eq_refl); congruence|].
    split; [congruence|]. split; [congruence|]. split; [reflexivity|]. split; [reflexivity|].
    split; [exact Hx|]. split; [reflexivity|]. split; auto.
  - unfold realloc. cbn [with_dims s_ext s_rows s_cols]. rewrite Hx. cbn [negb guard obind].
    assert (E2 : (0 <? r) && (0 <? c) = true).
    { apply andb_true_intro. split; apply Nat.ltb_lt; assumption. }
    rewrite E2. eexists _, _. split; [reflexivity|].
    do 5 (split; [first [reflexivity|exact Hx]|]). split; [reflexivity|].
    split; [|intros Hm; destruct me; [reflexivity|congruence]].
    destruct me as [f|]; simpl; [|discriminate]. intros _.
    split; [exact Hr|]. split; [exact Hc|]. eexists. split; [reflexivity|].
    rewrite block_length. unfold s_numel. simpl. lia.
Qed.

Lemma resize_good me s r c :
  s_ext s = false -> 0 < r -> 0 < c -> alloc_failed s = false -> (empty s = false -> well_alloc s) ->
  exists b s', resize one me s r c = Some (b, s') /\
    s_rows s' = r + Nat.b2n (s_bias_row s) /\ s_cols s' = c + Nat.b2n (s_bias_col s) /\
    s_bias s' = s_bias s /\ s_bir s' = s_bir s /\ s_ext s' = false /\ b = negb (empty s') /\
    (empty s' = false -> well_alloc s') /\ good s' /\ (me <> None -> b = true).
Proof.
  intros Hx Hr Hc Hf Hw. unfold resize.
  assert (E0 : (r =? 0) || (c =? 0) = false).
  { apply orb_false_intro; apply Nat.eqb_neq; lia. }
  rewrite E0.
  destruct (impl_resize_spec me s (r + Nat.b2n (s_bias_row s)) (c + Nat.b2n (s_bias_col s)))
    as (b & s1 & E1 & R1 & C1 & B1 & I1 & X1 & Hb & W1 & HM); [exact Hx|lia|lia| |exact Hw|].
  { intros Ee. unfold alloc_failed in Hf. rewrite Ee in Hf. cbn [andb] in Hf.
    destruct (Nat.ltb_spec 0 (s_rows s)); destruct (Nat.ltb_spec 0 (s_cols s)); simpl in Hf;
      [discriminate| | |]; lia. }
  rewrite E1. cbn [obind]. destruct (b && s_bias s1) eqn:Eb.
  - apply andb_prop in Eb. destruct Eb as [-> Eb].
    destruct (set_biases_good s1 (W1 eq_refl)) as (s2 & E2 & (K1 & K2 & K3 & K4 & K5) & G2).
    rewrite E2. cbn [obind]. exists true, s2. split; [reflexivity|].
    split; [congruence|]. split; [congruence|]. split; [congruence|]. split; [congruence|].
    split; [congruence|]. destruct G2 as [G2|[G2 G3]].
    + exfalso. pose proof (W1 eq_refl) as (P1 & P2 & l & D & N).
      destruct (set_biases_spec s1 l D P1 P2 N) as (s3 & l3 & E3 & _ & _ & D3 & _).
      rewrite E2 in E3. injection E3 as <-. unfold empty in G2. rewrite D3 in G2. discriminate.
    + destruct G2 as (P1 & P2 & l & D & N). split; [unfold empty; rewrite D; reflexivity|].
      split; [intros _; repeat split; eauto|]. split; [|reflexivity].
      right. split; [repeat split; eauto|exact G3].
  - exists b, s1. split; [reflexivity|]. do 6 (split; [assumption|]). split.
    + intros Ee. apply W1. rewrite Hb, Ee. reflexivity.
    + split; [|exact HM]. destruct (empty s1) eqn:Ee; [left; exact Ee|]. right.
      simpl in Hb. subst b. simpl in Eb.
      split; [apply W1; reflexivity|]. intros Hbias. congruence.
Qed.

(** ** Operations on data only *)
Definition data_cell s (a : nat) : Prop :=
  exists r c, r < s_rows_nb s /\ c < s_cols_nb s /\ a = r + s_rows s * c.

Definition data_step s s' : Prop :=
  keeps_shape s s' /\ exists l l', s_data s = Some l /\ s_data s' = Some l' /\ length l' = length l /\
    forall a, bget l' a = bget l a \/ bget l' a = Some one \/ data_cell s a.

Fixpoint hidden (hs : list (bool * option nat)) : nat :=
  match hs with
  | [] => 0
  | (b, None) :: hs' => Nat.b2n b + hidden hs'
  | (b, Some n) :: hs' => n + Nat.b2n b + hidden hs'
  end.

Lemma unhide_fields hs : forall s,
  s_rows (unhide s hs) = s_rows s /\ s_cols (unhide s hs) = s_cols s + hidden hs /\
  s_bias (unhide s hs) = s_bias s || existsb fst hs /\ s_bir (unhide s hs) = s_bir s /\
  s_ext (unhide s hs) = s_ext s /\ s_data (unhide s hs) = s_data s.
Proof.
  induction hs as [|[b [n|]] hs IH]; intros s; simpl.
  - rewrite orb_false_r. repeat split. lia.
  - destruct (IH (restore_last_n_cols s b n)) as (H1 & H2 & H3 & H4 & H5 & H6).
    rewrite H1, H2, H3, H4, H5, H6. unfold restore_last_n_cols. destruct b; simpl; repeat split; try lia;
      rewrite ?orb_true_r, ?orb_false_r; reflexivity.
  - destruct (IH (restore_biases s b)) as (H1 & H2 & H3 & H4 & H5 & H6).
    rewrite H1, H2, H3, H4, H5, H6. unfold restore_biases. destruct b; simpl; repeat split; try lia;
      rewrite ?orb_true_r, ?orb_false_r; reflexivity.
Qed.

(** biases are hidden at most once *)
Fixpoint hs_ok (hs : list (bool * option nat)) : Prop :=
  match hs with
  | [] => True
  | (b, _) :: hs' => (b = true -> existsb fst hs' = false) /\ hs_ok hs'
  end.

Definition inv (st : state (A := A)) : Prop :=
  let u := unhide (fst st) (snd st) in
  s_bias u = true /\ good u /\
  (existsb fst (snd st) = true -> s_bir (fst st) = false /\ s_bias (fst st) = false) /\
  (snd st <> [] -> empty (fst st) = false /\ 0 < s_cols (fst st)) /\ hs_ok (snd st).

Lemma hidden_pos hs : existsb fst hs = true -> 0 < hidden hs.
Proof.
  induction hs as [|[b [n|]] hs IH]; simpl; [discriminate| |]; destruct b; simpl; intros H; try lia;
    apply IH in H; lia.
Qed.

Lemma data_step_inv s s' hs : data_step s s' -> inv (s, hs) -> inv (s', hs).
Proof.
  intros ((K1 & K2 & K3 & K4 & K5) & l & l' & D & D' & L & Hc) (IB & IG & IH & IE & IO'). unfold inv. simpl in *.
  destruct (unhide_fields hs s) as (U1 & U2 & U3 & U4 & U5 & U6).
  destruct (unhide_fields hs s') as (V1 & V2 & V3 & V4 & V5 & V6).
  split; [rewrite V3, K3, <- U3; exact IB|]. split; [|split; [|split; [|exact IO']]].
  - destruct IG as [IG|[IW IO]].
    { exfalso. unfold empty in IG. rewrite U6, D in IG. discriminate. }
    destruct IW as (W1 & W2 & lw & Wd & Wn). rewrite U6, D in Wd. injection Wd as <-.
    right. assert (Wn' : s_numel (unhide s' hs) <= length l').
    { unfold s_numel in *. rewrite V1, V2, K1, K2, L. rewrite U1, U2 in Wn. exact Wn. }
    assert (R' : 0 < s_rows (unhide s' hs)) by (rewrite V1, K1, <- U1; exact W1).
    assert (C' : 0 < s_cols (unhide s' hs)) by (rewrite V2, K2, <- U2; exact W2).
    split; [repeat split; auto; exists l'; split; [congruence|exact Wn']|].
    assert (Dv : s_data (unhide s' hs) = Some l') by congruence.
    assert (Du : s_data (unhide s hs) = Some l) by congruence.
    apply (biases_one_part _ l' Dv R' C'). intros _.
    pose proof (proj1 (biases_one_part _ l Du W1 W2) IO IB) as HB.
    rewrite U1, U2, U4 in HB. rewrite V1, V2, V4, K1, K2, K4.
    rewrite U1 in W1. rewrite U2 in W2. rewrite U3 in IB.
    assert (Hgoal : forall a, bget l a = Some one -> ~ data_cell s a -> bget l' a = Some one).
    { intros a Ha Hnd. destruct (Hc a) as [Hx|[Hx|Hx]]; [congruence|exact Hx|contradiction]. }
    unfold bias_part in *. destruct (s_bir s) eqn:Ebir.
    + intros c Hcc. apply Hgoal; [apply HB; exact Hcc|]. intros (r1 & c1 & Hr1 & Hc1 & Ea).
      destruct (existsb fst hs) eqn:Ex; [destruct (IH eq_refl); discriminate|].
      rewrite orb_false_r in IB. unfold s_rows_nb, s_bias_row in Hr1. rewrite IB, Ebir in Hr1. simpl in Hr1.
      apply addr_inj in Ea; [|lia|lia]. lia.
    + intros r Hr. apply Hgoal; [apply HB; exact Hr|]. intros (r1 & c1 & Hr1 & Hc1 & Ea).
      unfold s_rows_nb, s_bias_row in Hr1. rewrite Ebir, andb_false_r in Hr1. simpl in Hr1.
      apply addr_inj in Ea; [|lia|lia]. destruct Ea as [_ Ea].
      unfold s_cols_nb, s_bias_col in Hc1. rewrite Ebir in Hc1. simpl in Hc1. rewrite andb_true_r in Hc1.
      destruct (s_bias s) eqn:Eb.
      * simpl in Hc1. lia.
      * simpl in IB. apply hidden_pos in IB. simpl in Hc1. lia.
  - intros Hx. destruct (IH Hx). rewrite K3, K4. auto.
  - intros Hn. destruct (IE Hn) as [_ Hz]. rewrite K2. split; [|exact Hz].
    unfold empty. rewrite D'. reflexivity.
Qed.
End P.
