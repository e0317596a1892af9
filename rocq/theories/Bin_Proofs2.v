(** Reading of the data of one field. *)
From Verif Require Import Base BaseLemmas Kern_Model Smx_Model Smx_Spec Smx_Proofs TData_Model Bin_Model Bin_Spec Bin_Proofs.
From Coq Require Import NArith Nnat Permutation.

Lemma N_b2n b : N.b2n b = N.of_nat (Nat.b2n b).
Proof. destruct b; reflexivity. Qed.

Section B.
Context {A : Type} (one : A) (native : N) (dec : N -> list N -> A).
Implicit Types (m : smx A) (me : mem_env A).

Lemma byte_size_ok n : (8 * N.of_nat n < 2 ^ 64)%N ->
  byte_size native n = (N.of_nat n * esize native)%N /\ capacity native n = n.
Proof.
  intros H. pose proof (elem_bytes_pos native) as P.
  assert (E : byte_size native n = (N.of_nat n * esize native)%N).
  { unfold byte_size, wrap64. apply N.mod_small. rewrite esize_elem. nia. }
  split; [exact E|]. unfold capacity. rewrite E, esize_elem.
  rewrite N.div_mul by lia. lia.
Qed.

Lemma fresh_bias m : fresh m -> s_bias_row m = false /\ s_bias_col m = s_bias m.
Proof.
  intros (_ & _ & _ & H). unfold s_bias_row, s_bias_col. destruct (s_bias m); [|split; reflexivity].
  rewrite H by reflexivity. split; reflexivity.
Qed.

Definition resized m (r c : nat) m1 : Prop :=
  s_rows m1 = r /\ s_cols m1 = c + Nat.b2n (s_bias m) /\ s_bias m1 = s_bias m /\ s_bir m1 = s_bir m /\
  s_ext m1 = false.

Lemma resize_shape me m r c b m1 : fresh m -> 0 < r -> 0 < c ->
  resize_bytes one native me m r c = Some (b, m1) -> resized m r c m1 /\ b = negb (empty m1).
Proof.
  intros F Hr Hc. pose proof (fresh_bias m F) as [B1 B2]. destruct F as (D & R & X & HB).
  unfold resize_bytes. rewrite B1, B2.
  destruct (Nat.eqb_spec r 0); [lia|]. destruct (Nat.eqb_spec c 0); [lia|]. cbn [orb].
  cbn [Nat.b2n]. rewrite Nat.add_0_r, R. destruct (Nat.eqb_spec r 0); [lia|]. cbn [andb].
  rewrite X. cbn [negb guard obind].
  set (m' := with_holey _ false).
  assert (Z : resized m r c m') by (unfold resized, m'; simpl; auto 10).
  destruct (negb (empty m') && s_bias m') eqn:E.
  - apply andb_prop in E. destruct E as [E1 E2]. rewrite E1.
    destruct (set_biases one m') as [m2|] eqn:E3; [|discriminate].
    cbn [obind]. intros E. injection E as <- <-.
    unfold set_biases in E3. unfold fill_row_with, fill_column_with in E3.
    destruct (s_data m') as [l|] eqn:E4; [|destruct (s_bir m'); discriminate]. cbn [obind] in E3.
    destruct (s_bir m').
    + destruct (fill_strided _ _ _ _ _) as [l'|]; [|discriminate]. cbn [obind] in E3. injection E3 as <-.
      split; [exact Z|reflexivity].
    + destruct (fill_seq _ _ _ _) as [l'|]; [|discriminate]. cbn [obind] in E3. injection E3 as <-.
      split; [exact Z|reflexivity].
  - intros E'. injection E' as <- <-. split; [exact Z|reflexivity].
Qed.

Lemma resize_none m r c : fresh m -> 0 < r -> 0 < c ->
  exists m1, resize_bytes one native None m r c = Some (false, m1) /\ empty m1 = true.
Proof.
  intros F Hr Hc. pose proof (fresh_bias m F) as [B1 B2]. destruct F as (D & R & X & HB).
  unfold resize_bytes. rewrite B1, B2.
  destruct (Nat.eqb_spec r 0); [lia|]. destruct (Nat.eqb_spec c 0); [lia|]. cbn [orb].
  cbn [Nat.b2n]. rewrite Nat.add_0_r, R. destruct (Nat.eqb_spec r 0); [lia|]. cbn [andb].
  rewrite X. cbn [negb guard obind option_map empty with_holey with_mem s_data andb].
  eexists. split; reflexivity.
Qed.

Lemma resize_some g m r c : fresh m -> 0 < r -> 0 < c ->
  (8 * N.of_nat (r * (c + Nat.b2n (s_bias m))) < 2 ^ 64)%N ->
  exists m1 l1, resize_bytes one native (Some g) m r c = Some (true, m1) /\ s_data m1 = Some l1 /\
    length l1 = r * (c + Nat.b2n (s_bias m)) /\ biases_one one m1.
Proof.
  intros F Hr Hc HW. pose proof (fresh_bias m F) as [B1 B2]. pose proof F as (D & R & X & HB).
  unfold resize_bytes. rewrite B1, B2.
  destruct (Nat.eqb_spec r 0); [lia|]. destruct (Nat.eqb_spec c 0); [lia|]. cbn [orb].
  cbn [Nat.b2n]. rewrite Nat.add_0_r, R. destruct (Nat.eqb_spec r 0); [lia|]. cbn [andb].
  rewrite X. cbn [negb guard obind option_map].
  destruct (byte_size_ok _ HW) as [_ ->].
  set (l := block _ g). set (m' := with_holey _ false).
  assert (LL : length l = r * (c + Nat.b2n (s_bias m))) by (unfold l; apply block_length).
  change (empty m') with false. cbn [negb andb]. change (s_bias m') with (s_bias m).
  destruct (s_bias m) eqn:E.
  - assert (Hbir : s_bir m' = false) by (unfold m'; simpl; auto).
    destruct (set_biases_spec one m' l) as (m2 & l2 & E2 & K & _ & D2 & L2 & P2 & _);
      [reflexivity|unfold m'; simpl; lia|unfold m'; simpl; lia|unfold m', s_numel; simpl; simpl in LL; lia|].
    rewrite E2. cbn [obind]. exists m2, l2. split; [reflexivity|]. split; [exact D2|]. split; [lia|].
    destruct K as (K1 & K2 & K3 & K4 & K5).
    apply (biases_one_part one m2 l2 D2); [rewrite K1; unfold m'; simpl; lia|rewrite K2; unfold m'; simpl; lia|].
    intros _. rewrite K1, K2, K4. exact P2.
  - exists m', l. split; [reflexivity|]. split; [reflexivity|]. split; [exact LL|].
    intros Hb. unfold m' in Hb. simpl in Hb. congruence.
Qed.

(** ** Stores *)
Lemma store_loop (vs : list A) n : forall k l, k + n <= length vs -> k + n <= length l ->
  exists l', for_loop k n (fun i l => do v <- bget vs i; bset l i v) l = Some l' /\ length l' = length l /\
    forall i, bget l' i = if (k <=? i) && (i <? k + n) then bget vs i else bget l i.
Proof.
  induction n as [|n IH]; intros k l H1 H2.
  - exists l. split; [reflexivity|]. split; [reflexivity|]. intros i.
    destruct (Nat.leb_spec k i); destruct (Nat.ltb_spec i (k + 0)); simpl; try lia; reflexivity.
  - cbn [for_loop]. destruct (bget_lt vs k ltac:(lia)) as (v & Ev). rewrite Ev. cbn [obind].
    destruct (bset_lt l k v ltac:(lia)) as (l1 & E1). rewrite E1. cbn [obind].
    pose proof E1 as E1b; apply bset_some in E1b; destruct E1b as (_ & L1 & G1).
    destruct (IH (S k) l1) as (l2 & E2 & L2 & G2); [lia|lia|].
    exists l2. split; [exact E2|]. split; [lia|]. intros i. rewrite G2, G1.
    destruct (Nat.leb_spec (S k) i); destruct (Nat.ltb_spec i (S k + n)); destruct (Nat.leb_spec k i);
      destruct (Nat.ltb_spec i (k + S n)); destruct (Nat.eqb_spec i k); simpl; try lia; try reflexivity.
    subst i. congruence.
Qed.

(** ** The data of one field *)
Definition field_of (e : fentry) (es : list (list N)) : field :=
  mkF (e_name e) (e_rows e) (e_cols e) (e_type e) es.

Lemma stored_holds m m1 l1 (e : fentry) es n vs :
  resized m (N.to_nat (e_rows e)) (N.to_nat (e_cols e)) m1 -> s_data m1 = Some l1 -> fresh m ->
  (0 < e_rows e)%N -> (0 < e_cols e)%N ->
  length l1 = N.to_nat (e_rows e) * (N.to_nat (e_cols e) + Nat.b2n (s_bias m)) -> biases_one one m1 ->
  n = N.to_nat (e_rows e) * N.to_nat (e_cols e) -> vs = map (dec (e_type e)) es -> length es = n ->
  exists m2, store_first m1 n vs = Some m2 /\ holds_field one dec m2 (field_of e es) (s_bias m).
Proof.
  intros (Z1 & Z2 & Z3 & Z4 & Z5) D F Hr Hc L B Hn Hv He. unfold store_first. rewrite D. cbn [obind].
  assert (LV : length vs = n) by (subst vs; rewrite map_length; exact He).
  destruct (store_loop vs n 0 l1) as (l2 & E2 & L2 & G2); [lia|rewrite L, Hn; simpl; apply Nat.mul_le_mono_l; lia|]. rewrite E2. cbn [obind].
  eexists. split; [reflexivity|]. unfold holds_field, field_of. cbn [f_rows f_cols f_type f_elems f_name with_mem s_rows s_cols s_bias s_ext].
  split; [lia|]. split; [rewrite N_b2n; lia|]. split; [exact Z3|]. split; [exact Z5|]. split.
  { split; [simpl; lia|]. split; [simpl; lia|]. exists l2. split; [reflexivity|]. unfold s_numel. simpl. rewrite Z1, Z2. lia. }
  split.
  - unfold biases_one in *. cbn [with_mem s_bias s_bir s_rows s_cols]. intros Hb.
    specialize (B Hb). rewrite Z3 in Hb.
    assert (Hbir : s_bir m1 = false) by (rewrite Z4; apply F; exact Hb). rewrite Hbir in *.
    destruct B as [B1 B2]. split; [exact B1|]. intros r Hrr. specialize (B2 r Hrr).
    unfold cell in *. cbn [with_mem s_data s_rows obind]. rewrite D in B2. cbn [obind] in B2.
    rewrite G2. rewrite (proj2 (Nat.leb_le 0 _) (Nat.le_0_l _)).
    cbn [andb]. destruct (Nat.ltb_spec (r + s_rows m1 * (s_cols m1 - 1)) (0 + n)) as [Hlt|]; [|exact B2].
    exfalso. rewrite Z1, Z2, Hb in Hlt. simpl in Hlt.
    replace (N.to_nat (e_cols e) + 1 - 1) with (N.to_nat (e_cols e)) in Hlt by lia. lia.
  - intros r c Hrr Hcc. rewrite Z1.
    assert (Hi : r + N.to_nat (e_rows e) * c < n).
    { rewrite Hn. assert (c + 1 <= N.to_nat (e_cols e)) by lia.
      assert (N.to_nat (e_rows e) * (c + 1) <= N.to_nat (e_rows e) * N.to_nat (e_cols e)) by (apply Nat.mul_le_mono_l; assumption). lia. }
    destruct (nth_error es (r + N.to_nat (e_rows e) * c)) as [x|] eqn:Ex.
    2:{ apply nth_error_None in Ex. lia. }
    exists x. split; [reflexivity|]. unfold cell. cbn [with_mem s_data s_rows obind]. rewrite Z1, G2.
    rewrite (proj2 (Nat.leb_le 0 _) (Nat.le_0_l _)).
    destruct (Nat.ltb_spec (r + N.to_nat (e_rows e) * c) (0 + n)); [|lia]. cbn [andb].
    subst vs. unfold bget. apply map_nth_error. exact Ex.
Qed.

Definition dims_ok m (e : fentry) : Prop :=
  (e_rows e < 2 ^ 31)%N /\ (e_cols e + N.b2n (s_bias m) < 2 ^ 31)%N /\
  (8 * (e_rows e * (e_cols e + N.b2n (s_bias m))) < 2 ^ 64)%N.

Lemma resize_file_ok me m e : fresh m -> dims_ok m e ->
  resize_file one native me m (e_rows e) (e_cols e) =
  resize_bytes one native me m (N.to_nat (e_rows e)) (N.to_nat (e_cols e)).
Proof.
  intros F (H1 & H2 & H3). unfold resize_file. destruct (fresh_bias m F) as [-> ->].
  destruct (N.leb_spec (2 ^ 31) (e_rows e)); [lia|]. destruct (N.leb_spec (2 ^ 31) (e_cols e)); [lia|]. cbn [orb].
  destruct (N.ltb_spec (e_rows e + N.b2n false) (2 ^ 31)); [|simpl in *; lia].
  destruct (N.ltb_spec (e_cols e + N.b2n (s_bias m)) (2 ^ 31)); [|lia]. reflexivity.
Qed.

(** What happens under [dims_ok] *)
Inductive outcome m (e : fentry) me (conv : bool) (f : file) : rd -> Prop :=
| O_mem m1 : me = None -> outcome m e me conv f (mkRd MemoryAllocationFailed m1 f false)
| O_type m1 : me <> None -> e_type e <> native -> e_type e <> 0%N -> e_type e <> 1%N ->
    outcome m e me conv f (mkRd UnsupportedIncorrectDataType m1 f false)
| O_conv m1 : me <> None -> e_type e <> native -> (e_type e = 0 \/ e_type e = 1)%N -> conv = false ->
    outcome m e me conv f (mkRd FailedToAllocateMemoryForDataConvertion m1 f false)
| O_short m1 lk : me <> None -> (e_type e = native \/ ((e_type e = 0 \/ e_type e = 1)%N /\ conv = true)) ->
    (N.of_nat (length f) < e_rows e * e_cols e * esize (e_type e))%N -> empty m1 = false ->
    lk = negb (e_type e =? native)%N -> outcome m e me conv f (mkRd FailedToReadData m1 [] lk)
| O_ok m2 es f' : me <> None -> (e_type e = native \/ ((e_type e = 0 \/ e_type e = 1)%N /\ conv = true)) ->
    f = concat es ++ f' -> N.of_nat (length es) = (e_rows e * e_cols e)%N ->
    Forall (fun x => length x = elem_bytes (e_type e)) es ->
    holds_field one dec m2 (field_of e es) (s_bias m) ->
    outcome m e me conv f (mkRd Success m2 f' false).

Lemma read_data_outcome me conv m e f : fresh m -> dims_ok m e -> (0 < e_rows e)%N -> (0 < e_cols e)%N ->
  exists r, read_data one native dec me conv m e f = Some r /\ outcome m e me conv f r.
Proof.
  intros F DO Hr Hc. unfold read_data. rewrite resize_file_ok by assumption.
  destruct me as [g|].
  2:{ destruct (resize_none m (N.to_nat (e_rows e)) (N.to_nat (e_cols e)) F) as (m1 & -> & _); [lia|lia|].
      cbn [obind negb]. eexists. split; [reflexivity|]. constructor. reflexivity. }
  destruct DO as (D1 & D2 & D3).
  destruct (resize_some g m (N.to_nat (e_rows e)) (N.to_nat (e_cols e)) F) as (m1 & l1 & E1 & Dt & L1 & B1);
    [lia|lia| |].
  { rewrite N_b2n in D3. replace (N.of_nat _) with (e_rows e * (e_cols e + N.of_nat (Nat.b2n (s_bias m))))%N by lia. exact D3. }
  assert (PR : 0 < N.to_nat (e_rows e)) by lia. assert (PC : 0 < N.to_nat (e_cols e)) by lia.
  destruct (resize_shape (Some g) m _ _ true m1 F PR PC E1) as [Z _].
  rewrite E1. cbn [obind negb].
  assert (Ene : s_numel_nb m1 = N.to_nat (e_rows e) * N.to_nat (e_cols e)).
  { destruct Z as (Z1 & Z2 & Z3 & Z4 & Z5). destruct (fresh_bias m F) as [Q1 Q2].
    unfold s_numel_nb, s_rows_nb, s_cols_nb, s_bias_row, s_bias_col in *. rewrite Z1, Z2, Z3, Z4, Q1, Q2.
    simpl. rewrite Nat.sub_0_r. f_equal. lia. }
  rewrite Ene. set (n := N.to_nat (e_rows e) * N.to_nat (e_cols e)) in *.
  assert (Hn : N.of_nat n = (e_rows e * e_cols e)%N) by (unfold n; rewrite Nat2N.inj_mul, !N2Nat.id; reflexivity).
  assert (Hb : (0 <= N.b2n (s_bias m))%N) by lia.
  assert (HW : (8 * N.of_nat n < 2 ^ 64)%N) by (rewrite Hn; nia).
  pose proof (elem_bytes_pos (e_type e)) as P.
  destruct (N.eqb_spec (e_type e) native) as [Et|Et].
  - destruct (byte_size_ok n HW) as [-> _]. rewrite <- Et.
    destruct (fread _ f) as [[d f']|] eqn:Ef.
    + apply fread_inv in Ef. destruct Ef as [-> Ld].
      rewrite N.div_mul by (rewrite esize_elem; lia). rewrite Nat2N.id. rewrite esize_elem in *. rewrite Nat2N.id.
      destruct (concat_chunks (elem_bytes (e_type e)) n d) as [C1 C2]; [lia|].
      pose proof (chunks_length (elem_bytes (e_type e)) n d) as LC.
      set (es := chunks _ n d) in *.
      destruct (stored_holds m m1 l1 e es n (map (dec (e_type e)) es) Z Dt F Hr Hc L1 B1 eq_refl eq_refl LC) as (m2 & E2 & H2).
      rewrite E2. cbn [obind]. eexists. split; [reflexivity|].
      eapply O_ok with (es := es); eauto; [discriminate|congruence|lia].
    + eexists. split; [reflexivity|].
      assert (Q : (e_type e =? native)%N = true) by (apply N.eqb_eq; exact Et).
      apply O_short; auto; [discriminate| | |rewrite Q; reflexivity].
      * unfold fread in Ef. destruct (N.leb_spec (N.of_nat n * esize (e_type e)) (N.of_nat (length f))); [discriminate|]. lia.
      * unfold empty. rewrite Dt. reflexivity.
  - destruct (N.eqb_spec (e_type e) 0) as [E0|E0]; [|destruct (N.eqb_spec (e_type e) 1) as [E0'|E0']].
    1,2: cbn [orb negb]; assert (HT : (e_type e = 0 \/ e_type e = 1)%N) by auto;
      (destruct conv; cbn [negb]; [|eexists; split; [reflexivity|]; apply O_conv; auto; discriminate]);
      assert (EW : wrap64 (esize (e_type e) * N.of_nat n) = (N.of_nat n * esize (e_type e))%N)
        by (rewrite N.mul_comm; unfold wrap64; apply N.mod_small; rewrite esize_elem; nia);
      rewrite EW;
      (destruct (fread _ f) as [[d f']|] eqn:Ef;
       [ apply fread_inv in Ef; destruct Ef as [-> Ld];
         rewrite N.div_mul by (rewrite esize_elem; lia); rewrite Nat2N.id; rewrite esize_elem in *; rewrite Nat2N.id;
         destruct (concat_chunks (elem_bytes (e_type e)) n d) as [C1 C2]; [lia|];
         pose proof (chunks_length (elem_bytes (e_type e)) n d) as LC;
         set (es := chunks _ n d) in *;
         destruct (stored_holds m m1 l1 e es n (map (dec (e_type e)) es) Z Dt F Hr Hc L1 B1 eq_refl eq_refl LC) as (m2 & E2 & H2);
         rewrite E2; cbn [obind]; eexists; (split; [reflexivity|]);
         eapply O_ok with (es := es); eauto; [discriminate|congruence|lia]
       | eexists; split; [reflexivity|];
         assert (Q : (e_type e =? native)%N = false) by (apply N.eqb_neq; exact Et);
         apply O_short; auto; [discriminate| | |rewrite Q; reflexivity];
         [ unfold fread in Ef; destruct (N.leb_spec (N.of_nat n * esize (e_type e)) (N.of_nat (length f))); [discriminate|]; lia
         | unfold empty; rewrite Dt; reflexivity ] ]).
    cbn [orb negb]. eexists. split; [reflexivity|]. apply O_type; auto; discriminate.
Qed.

(** Without [dims_ok]: success leaves the announced shape behind. *)
Lemma read_data_shape me conv m e f r : fresh m -> (0 < e_rows e)%N -> (0 < e_cols e)%N ->
  read_data one native dec me conv m e f = Some r -> rd_code r = Success ->
  (resized m (N.to_nat (e_rows e)) (N.to_nat (e_cols e)) (rd_m r) /\ empty (rd_m r) = false) /\
  (e_rows e < 2 ^ 31)%N /\ (e_cols e + N.b2n (s_bias m) < 2 ^ 31)%N.
Proof.
  intros F Hr Hc. unfold read_data, resize_file. destruct (fresh_bias m F) as [-> ->].
  destruct (N.leb_spec (2 ^ 31) (e_rows e)); cbn [orb]; [cbn [obind negb]; intros E Es; injection E as <-; discriminate|].
  destruct (N.leb_spec (2 ^ 31) (e_cols e)); [cbn [obind negb]; intros E Es; injection E as <-; discriminate|].
  destruct (N.ltb_spec (e_rows e + N.b2n false) (2 ^ 31)); [|discriminate].
  destruct (N.ltb_spec (e_cols e + N.b2n (s_bias m)) (2 ^ 31)); [|discriminate]. cbn [andb guard obind].
  destruct (resize_bytes _ _ _ _ _ _) as [[b m1]|] eqn:E1; [|discriminate]. cbn [obind].
  assert (PR : 0 < N.to_nat (e_rows e)) by lia. assert (PC : 0 < N.to_nat (e_cols e)) by lia.
  destruct (resize_shape me m _ _ b m1 F PR PC E1) as [Z _].
  intros E Es. split; [|split; assumption].
  destruct b; cbn [negb] in E; [|injection E as <-; discriminate].
  assert (K : forall n vs m2, store_first m1 n vs = Some m2 -> resized m (N.to_nat (e_rows e)) (N.to_nat (e_cols e)) m2 /\ empty m2 = false).
  { intros n vs m2 Q. unfold store_first in Q. destruct (s_data m1); [|discriminate]. cbn [obind] in Q.
    destruct (for_loop _ _ _ _); [|discriminate]. cbn [obind] in Q. injection Q as <-. split; [exact Z|reflexivity]. }
  destruct (e_type e =? native)%N.
  - destruct (fread _ f) as [[d f']|]; [|injection E as <-; discriminate].
    destruct (store_first m1 _ _) as [m2|] eqn:E2; [|discriminate]. cbn [obind] in E. injection E as <-. eapply K; eauto.
  - destruct (negb _); [injection E as <-; discriminate|]. destruct (negb conv); [injection E as <-; discriminate|].
    destruct (fread _ f) as [[d f']|]; [|injection E as <-; discriminate].
    destruct (store_first m1 _ _) as [m2|] eqn:E2; [|discriminate]. cbn [obind] in E. injection E as <-. eapply K; eauto.
Qed.

(** Sizes which resize() rejects. *)
Lemma read_data_big me conv m e f : (2 ^ 31 <= e_rows e \/ 2 ^ 31 <= e_cols e)%N ->
  read_data one native dec me conv m e f = Some (mkRd MemoryAllocationFailed m f false).
Proof.
  intros H. unfold read_data, resize_file.
  assert (E : (2 ^ 31 <=? e_rows e)%N || (2 ^ 31 <=? e_cols e)%N = true).
  { apply orb_true_iff. rewrite !N.leb_le. exact H. }
  rewrite E. reflexivity.
Qed.
End B.
