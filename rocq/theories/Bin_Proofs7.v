(** The exporter; files on which the reader misbehaves. *)
From Verif Require Import Base BaseLemmas Kern_Model Smx_Model Smx_Spec Smx_Proofs TData_Model Bin_Model Bin_Spec Bin_Proofs Bin_Proofs2 Bin_Proofs3 Bin_Proofs6.
From Coq Require Import NArith Nnat Permutation.

Lemma le_bytes_enc k : forall n, le_bytes k n = enc_int k n.
Proof. induction k; intros n; [reflexivity|]. simpl. rewrite IHk. reflexivity. Qed.
Lemma sat_enc k n : (n < 256 ^ N.of_nat k)%N -> sat k n = enc_int k n.
Proof. intros H. unfold sat. rewrite le_bytes_enc, N.min_l by lia. reflexivity. Qed.

Definition to_field (x : mfield) : field :=
  mkF (mf_name x ++ repeat 0%N (15 - length (mf_name x))) (mf_rows x) (mf_cols x) (mf_type x) (mf_elems x).

Lemma export_field_ok x : wf_mfield x ->
  export_field x = Some (bytes_of_field (to_field x)) /\ wf_field (to_field x) /\ is_cstring (f_name (to_field x)) (mf_name x).
Proof.
  intros (Hn & L & R & C & HC & T & E & F). unfold export_field.
  destruct (Nat.leb_spec (length (mf_name x)) 15); [|lia]. cbn [guard obind].
  assert (ET : ((mf_type x =? 0) || (mf_type x =? 1))%N = true) by (apply orb_true_iff; rewrite !N.eqb_eq; exact T).
  rewrite ET. cbn [guard obind]. split; [|split].
  - unfold bytes_of_field. cbn [to_field f_rows f_cols f_name f_type f_elems].
    rewrite !sat_enc by (change (256 ^ N.of_nat 4)%N with (2 ^ 32)%N; lia). rewrite <- !app_assoc. reflexivity.
  - unfold wf_field. cbn [to_field f_rows f_cols f_name f_type f_elems].
    split; [rewrite app_length, repeat_length; lia|]. auto.
  - split; [exact Hn|]. cbn [to_field f_name]. destruct (15 - length (mf_name x)) as [|k].
    + left. apply app_nil_r.
    + right. exists (repeat 0%N k). reflexivity.
Qed.

Lemma export_fields_ok drop l : Forall wf_mfield l -> (drop = true -> Forall (fun x => is_td_name (mf_name x) = true) l) ->
  export_fields drop l = Some (concat (map (fun x => bytes_of_field (to_field x)) l)).
Proof.
  induction l as [|x l IH]; intros W HD; [reflexivity|]. inversion_clear W as [|? ? W1 W2]. cbn [export_fields].
  assert (E : drop && negb (is_td_name (mf_name x)) = false).
  { destruct drop; [|reflexivity]. specialize (HD eq_refl). inversion_clear HD. rewrite H. reflexivity. }
  rewrite E. destruct (export_field_ok x W1) as [-> _]. cbn [obind].
  rewrite IH; [reflexivity|exact W2|]. intros Hd. specialize (HD Hd). inversion_clear HD. assumption.
Qed.

Lemma export_struct_ok drop l : Forall wf_mfield l -> (drop = true -> Forall (fun x => is_td_name (mf_name x) = true) l) ->
  (N.of_nat (length l) < 2 ^ 16)%N ->
  export_struct drop l = Some (header_bytes (N.of_nat (length l)) 0 ++ concat (map (fun x => bytes_of_field (to_field x)) l)).
Proof.
  intros W HD L. unfold export_struct. rewrite export_fields_ok by assumption. cbn [obind].
  rewrite !sat_enc by (change (256 ^ N.of_nat 2)%N with (2 ^ 16)%N; lia). unfold header_bytes.
  rewrite <- !app_assoc. reflexivity.
Qed.

Definition big_r : N := 2 ^ 31 - 65534.
Definition big_c : N := 2 ^ 30 + 32768.
Lemma big_count : wrap64 (big_r * big_c * 8) = 524288%N.
Proof. reflexivity. Qed.

Definition wrap_file : file := header_bytes 1 0 ++ entry_bytes big_r big_c (repeat 0%N 15) 0 ++ repeat 0%N (N.to_nat 524288).

Lemma chunks_len k n : forall l, length (chunks k n l) = n.
Proof. induction n; intros l; simpl; [|rewrite IHn]; reflexivity. Qed.

Lemma wrap_not_well_formed : ~ exists fl tl, wf_field fl /\ wrap_file = header_bytes 1 0 ++ bytes_of_field fl ++ tl.
Proof.
  intros (fl & tl & W & E). unfold wrap_file in E. apply app_inv_head in E.
  rewrite bytes_split in E.
  pose proof W as (Wn & Wr & Wc & Wt & We & Wl).
  assert (TB : is_byte (f_type fl)) by (unfold is_byte; lia).
  destruct (parse_entry_bytes big_r big_c (repeat 0%N 15) 0) as [P1 L1]; [reflexivity|reflexivity|reflexivity|reflexivity|].
  destruct (parse_entry_bytes (f_rows fl) (f_cols fl) (f_name fl) (f_type fl)) as [P2 L2]; [lia|lia|exact Wn|exact TB|].
  assert (Q : entry_bytes big_r big_c (repeat 0%N 15) 0 = entry_bytes (f_rows fl) (f_cols fl) (f_name fl) (f_type fl) /\
              repeat 0%N (N.to_nat 524288) = concat (f_elems fl) ++ tl).
  { assert (QL : firstn 24 (entry_bytes big_r big_c (repeat 0%N 15) 0 ++ repeat 0%N (N.to_nat 524288)) =
                 firstn 24 (entry_bytes (f_rows fl) (f_cols fl) (f_name fl) (f_type fl) ++ concat (f_elems fl) ++ tl)) by (rewrite E; reflexivity).
    rewrite !firstn_app, L1, L2, !firstn_all2 in QL by lia. rewrite !Nat.sub_diag, !firstn_O, !app_nil_r in QL.
    rewrite firstn_all2 in QL by lia. split; [exact QL|]. rewrite QL in E. apply app_inv_head in E. exact E. }
  destruct Q as [Q1 Q2]. rewrite Q1, P2 in P1. injection P1 as R C Nm T.
  apply (f_equal (@length N)) in Q2. rewrite app_length, repeat_length in Q2.
  rewrite (concat_len _ _ Wl) in Q2. apply (f_equal N.of_nat) in Q2.
  rewrite N2Nat.id, Nat2N.inj_add, Nat2N.inj_mul, We, R, C, T in Q2.
  change (N.of_nat (elem_bytes 0)) with 8%N in Q2. unfold big_r, big_c in Q2. lia.
Qed.

Section B.
Context {A : Type} (one : A) (native : N) (dec : N -> list N -> A).
Implicit Types (m : smx A) (me : mem_env A).

Theorem export_matrix me m x : wf_mfield x -> fresh m -> me <> None ->
  exists f m2, export_struct false [x] = Some f /\
    read_matrix one native dec me true m f = Some (Success, m2, false) /\ mfield_holds one dec m2 x (s_bias m).
Proof.
  intros W F HM. destruct (export_field_ok x W) as (_ & Wf & _).
  rewrite export_struct_ok; [|constructor; auto|discriminate|reflexivity].
  cbn [map concat length]. rewrite app_nil_r.
  pose proof W as (_ & _ & _ & _ & HC & _).
  destruct (matrix_round_trip one native dec me true m (to_field x) [] F Wf HC HM (or_introl eq_refl)) as (m2 & E & H).
  rewrite app_nil_r in E. exists (header_bytes 1 0 ++ bytes_of_field (to_field x)), m2.
  split; [reflexivity|]. split; [exact E|]. exact H.
Qed.

Theorem export_td ms cs dest l tx ty ex ey : Forall wf_mfield l -> td_struct l tx ty ex ey -> length l = 4 ->
  (forall i, ms i <> None) -> (forall i, cs i = true) ->
  exists f S, export_struct true l = Some f /\
    read_td one native dec ms cs dest f = Some (Success, S, false) /\
    mfield_holds one dec (x0 S) tx true /\ mfield_holds one dec (y0 S) ty false /\
    mfield_holds one dec (x1 S) ex true /\ mfield_holds one dec (y1 S) ey false.
Proof.
  intros W (ND & I0 & I1 & I2 & I3 & N0 & N1 & N2 & N3 & C0 & C1 & C2 & C3) L HM HC.
  assert (P : Permutation l [tx; ty; ex; ey]).
  { symmetry. apply NoDup_Permutation_bis.
    - apply (NoDup_map_inv mf_name). cbn [map]. rewrite N0, N1, N2, N3.
      repeat constructor; simpl; intuition discriminate.
    - rewrite L. reflexivity.
    - intros x [<-|[<-|[<-|[<-|[]]]]]; assumption. }
  assert (TD : Forall (fun x => is_td_name (mf_name x) = true) l).
  { apply Forall_forall. intros x Hx. apply (Permutation_in _ P) in Hx.
    destruct Hx as [<-|[<-|[<-|[<-|[]]]]]; [rewrite N0|rewrite N1|rewrite N2|rewrite N3]; reflexivity. }
  rewrite export_struct_ok; [|exact W|intros _; exact TD|rewrite L; reflexivity]. rewrite L.
  rewrite Forall_forall in W.
  destruct (td_round_trip one native dec ms cs dest (map to_field l) (to_field tx) (to_field ty) (to_field ex) (to_field ey) [])
    as (S & E & H0 & H1 & H2 & H3); auto.
  - split; [apply (Permutation_map to_field) in P; exact P|]. split.
    { apply Forall_forall. intros f Hf. apply in_map_iff in Hf. destruct Hf as (x & <- & Hx). apply export_field_ok; auto. }
    rewrite <- N0, <- N1, <- N2, <- N3. split; [|split; [|split]]; apply export_field_ok; auto.
  - split; [exact C0|]. split; [exact C1|]. split; [exact C2|exact C3].
  - apply Forall_forall. intros f Hf. apply in_map_iff in Hf. destruct Hf as (x & <- & Hx).
    destruct (W x Hx) as (_ & _ & _ & _ & Q & _). exact Q.
  - eexists _, S. split; [reflexivity|]. split.
    { rewrite app_nil_r in E. unfold td_bytes in E. rewrite map_map in E. exact E. }
    split; [exact H0|]. split; [exact H1|]. split; [exact H2|exact H3].
Qed.

(** *** Byte counts wrap *)
Lemma wrap_data g conv R C name zs : R = big_r -> C = big_c -> N.of_nat (length zs) = 524288%N -> exists m2,
  read_data one 0 dec (Some g) conv init (mkE R C name 0) zs = Some (mkRd Success m2 [] false) /\
  N.of_nat (s_rows m2) = R /\ N.of_nat (s_cols m2) = C /\
  exists l, s_data m2 = Some l /\ N.of_nat (length l) = 65536%N.
Proof.
  intros HR HC Lz. unfold read_data, resize_file. cbn [e_rows e_cols e_type].
  assert (Q1 : ((2 ^ 31 <=? R) || (2 ^ 31 <=? C))%N = false) by (subst; reflexivity).
  rewrite Q1. change (s_bias_row (@init A)) with false. change (s_bias_col (@init A)) with false.
  assert (Q2 : ((R + N.b2n false <? 2 ^ 31) && (C + N.b2n false <? 2 ^ 31))%N = true) by (subst; reflexivity).
  rewrite Q2. cbn [guard obind].
  unfold resize_bytes. change (s_bias_row (@init A)) with false. change (s_bias_col (@init A)) with false.
  assert (Hr : N.of_nat (N.to_nat R) = R) by apply N2Nat.id. assert (Hc : N.of_nat (N.to_nat C) = C) by apply N2Nat.id.
  set (r := N.to_nat R) in *. set (c := N.to_nat C) in *.
  clearbody r c. change (Nat.b2n false) with 0. rewrite !Nat.add_0_r.
  assert (Hr0 : r <> 0) by (intros ->; subst R; discriminate).
  assert (Hc0 : c <> 0) by (intros ->; subst C; discriminate).
  destruct (Nat.eqb_spec r 0); [contradiction|]. destruct (Nat.eqb_spec c 0); [contradiction|].
  cbn [orb]. change (s_rows (@init A)) with 0. destruct (Nat.eqb_spec r 0); [contradiction|]. cbn [andb].
  change (s_ext (@init A)) with false. cbn [negb guard obind option_map].
  assert (EB : byte_size 0 (r * c) = 524288%N).
  { unfold byte_size. rewrite Nat2N.inj_mul, Hr, Hc, HR, HC. exact big_count. }
  assert (EC : N.of_nat (capacity 0 (r * c)) = 65536%N).
  { unfold capacity. rewrite EB. change (524288 / esize 0)%N with 65536%N. apply N2Nat.id. }
  set (cap := capacity 0 (r * c)) in *. clearbody cap.
  set (m1 := with_holey _ _).
  assert (D1 : s_data m1 = Some (block cap g)) by reflexivity.
  assert (LB : length (block cap g) = cap) by (unfold block; rewrite map_length, seq_length; reflexivity).
  assert (EE : empty m1 = false) by (unfold empty; rewrite D1; reflexivity).
  rewrite EE. cbn [negb andb]. change (s_bias m1) with false. cbn iota. cbn [obind negb].
  change (0 =? 0)%N with true. cbn iota.
  assert (NB : s_numel_nb m1 = r * c) by (unfold s_numel_nb; cbn; lia).
  rewrite NB, EB. rewrite <- (app_nil_r zs), (fread_app _ _ _ Lz).
  assert (EN : exists K : N, (524288 / esize 0)%N = K /\ N.to_nat K = cap).
  { exists 65536%N. split; [reflexivity|]. rewrite <- EC. apply Nat2N.id. }
  destruct EN as (K & -> & ->).
  unfold store_first. rewrite D1. cbn [obind].
  destruct (store_loop 0 dec (map (dec 0) (chunks (N.to_nat (esize 0)) cap zs)) cap 0 (block cap g))
    as (l' & E & L' & _); [rewrite map_length, chunks_len; lia|lia|].
  rewrite E. cbn [obind rd_code rd_m rd_leak]. eexists. split; [reflexivity|].
  split; [exact Hr|]. split; [exact Hc|]. exists l'. split; [reflexivity|]. rewrite L', LB. exact EC.
Qed.

Lemma wrap_read g conv : exists m2,
  read_matrix one 0 dec (Some g) conv init wrap_file = Some (Success, m2, false) /\
  N.of_nat (s_rows m2) = big_r /\ N.of_nat (s_cols m2) = big_c /\
  exists l, s_data m2 = Some l /\ N.of_nat (length l) = 65536%N.
Proof.
  unfold read_matrix, wrap_file. rewrite read_header_bytes by reflexivity.
  unfold read_into_matrix. cbn [h_fields h_classes N.eqb Pos.eqb negb].
  assert (FI : fresh (@init A)) by apply (fresh_init false).
  rewrite read_field_entry; [|exact FI|reflexivity|reflexivity|reflexivity|reflexivity]. cbn beta zeta.
  assert (Q0 : ((big_r =? 0) || (big_c =? 0))%N = false) by reflexivity. rewrite Q0.
  destruct (wrap_data g conv big_r big_c (repeat 0%N 15) (repeat 0%N (N.to_nat 524288)) eq_refl eq_refl) as (m2 & E & H).
  { rewrite repeat_length. apply N2Nat.id. }
  rewrite E. cbn [obind rd_code rd_m rd_leak]. exists m2. split; [reflexivity|exact H].
Qed.

(** ... and then the ones of the bias column are written behind the storage *)
Definition over_file : file := header_bytes 4 0 ++ entry_bytes big_r (big_c - 1) (s_train_x ++ repeat 0%N 8) 0.

Lemma over_data g conv R C name zs : R = big_r -> C = (big_c - 1)%N ->
  read_data one 0 dec (Some g) conv (with_flag init true) (mkE R C name 0) zs = None.
Proof.
  intros HR HC. set (m := with_flag (@init A) true).
  unfold read_data, resize_file. cbn [e_rows e_cols e_type].
  assert (Q1 : ((2 ^ 31 <=? R) || (2 ^ 31 <=? C))%N = false) by (subst; reflexivity). rewrite Q1.
  change (s_bias_row m) with false. change (s_bias_col m) with true.
  assert (Q2 : ((R + N.b2n false <? 2 ^ 31) && (C + N.b2n true <? 2 ^ 31))%N = true) by (subst; reflexivity).
  rewrite Q2. cbn [guard obind].
  unfold resize_bytes. change (s_bias_row m) with false. change (s_bias_col m) with true.
  assert (Hr : N.of_nat (N.to_nat R) = R) by apply N2Nat.id. assert (Hc : N.of_nat (N.to_nat C) = C) by apply N2Nat.id.
  set (r := N.to_nat R) in *. set (c := N.to_nat C) in *.
  clearbody r c. change (Nat.b2n false) with 0. change (Nat.b2n true) with 1. rewrite !Nat.add_0_r.
  assert (Hr0 : r <> 0) by (intros ->; subst R; discriminate).
  assert (Hc0 : c <> 0) by (intros ->; subst C; discriminate).
  destruct (Nat.eqb_spec r 0); [contradiction|]. destruct (Nat.eqb_spec c 0); [contradiction|].
  cbn [orb]. change (s_rows m) with 0. destruct (Nat.eqb_spec r 0); [contradiction|]. cbn [andb].
  change (s_ext m) with false. cbn [negb guard obind option_map].
  assert (EB : byte_size 0 (r * (c + 1)) = 524288%N).
  { unfold byte_size. rewrite Nat2N.inj_mul, Nat2N.inj_add, Hr, Hc, HR, HC. exact big_count. }
  assert (EC : N.of_nat (capacity 0 (r * (c + 1))) = 65536%N).
  { unfold capacity. rewrite EB. change (524288 / esize 0)%N with 65536%N. apply N2Nat.id. }
  set (cap := capacity 0 (r * (c + 1))) in *. clearbody cap.
  set (m1 := with_holey _ _).
  assert (D1 : s_data m1 = Some (block cap g)) by reflexivity.
  assert (LB : length (block cap g) = cap) by (unfold block; rewrite map_length, seq_length; reflexivity).
  assert (EE : empty m1 = false) by (unfold empty; rewrite D1; reflexivity).
  rewrite EE. cbn [negb andb]. change (s_bias m1) with true. cbn iota.
  assert (SB : set_biases one m1 = None).
  { unfold set_biases. change (s_bir m1) with false. cbn iota. unfold fill_column_with. rewrite D1. cbn [obind].
    change (s_rows m1) with r. change (s_cols m1) with (c + 1). unfold fill_seq.
    destruct r as [|r]; [contradiction|]. cbn [for_loop].
    destruct (bset (block cap g) (S r * (c + 1 - 1) + 0) one) as [b'|] eqn:Eb; [exfalso|reflexivity].
    destruct (bset_some _ _ _ _ Eb) as (Hlt & _). rewrite LB in Hlt.
    assert (QQ : (N.of_nat (S r * (c + 1 - 1) + 0) < N.of_nat cap)%N) by lia.
    rewrite EC, Nat2N.inj_add, Nat2N.inj_mul, Hr in QQ. replace (c + 1 - 1) with c in QQ by lia. rewrite Hc, HR, HC in QQ.
    unfold big_r, big_c in QQ. lia. }
  rewrite SB. reflexivity.
Qed.

Lemma over_read ms cs dest : ms 0 <> None -> read_td one 0 dec ms cs dest over_file = None.
Proof.
  intros HM. unfold read_td, over_file. rewrite read_header_bytes by reflexivity.
  unfold read_into_td. cbn [h_fields h_classes N.eqb Pos.eqb negb td_loop].
  assert (FI : fresh (@init A)) by apply (fresh_init false).
  rewrite <- (app_nil_r (entry_bytes _ _ _ _)).
  rewrite read_field_entry; [|exact FI|reflexivity|reflexivity|reflexivity|reflexivity]. cbn beta zeta.
  assert (Q0 : ((big_r =? 0) || (big_c - 1 =? 0))%N = false) by reflexivity. rewrite Q0.
  assert (Q1 : name2id (cstr (s_train_x ++ repeat 0%N 8)) = Some 0) by reflexivity. rewrite Q1.
  destruct (ms 0) as [g|]; [|congruence]. change (Nat.even 0) with true.
  rewrite over_data by reflexivity. reflexivity.
Qed.

(** The last column of a matrix with biases overflows the int which counts columns. *)
Definition overflow_file : file := header_bytes 4 0 ++ entry_bytes 1 (2 ^ 31 - 1) (s_train_x ++ repeat 0%N 8) 1.
Lemma overflow_read ms cs dest : read_td one native dec ms cs dest overflow_file = None.
Proof.
  unfold read_td, overflow_file. rewrite read_header_bytes by reflexivity.
  unfold read_into_td. cbn [h_fields h_classes N.eqb Pos.eqb negb td_loop].
  assert (FI : fresh (@init A)) by apply (fresh_init false).
  rewrite <- (app_nil_r (entry_bytes _ _ _ _)).
  rewrite read_field_entry; [|exact FI|reflexivity|reflexivity|reflexivity|reflexivity]. cbn beta zeta.
  assert (Q0 : ((1 =? 0) || (2 ^ 31 - 1 =? 0))%N = false) by reflexivity. rewrite Q0.
  assert (Q1 : name2id (cstr (s_train_x ++ repeat 0%N 8)) = Some 0) by reflexivity. rewrite Q1.
  change (Nat.even 0) with true. reflexivity.
Qed.
End B.
