(** Error codes tell the first defect. *)
From Verif Require Import Base BaseLemmas Kern_Model Smx_Model Smx_Spec Smx_Proofs TData_Model Bin_Model Bin_Spec Bin_Proofs Bin_Proofs2 Bin_Proofs3.
From Coq Require Import NArith Nnat Permutation.

Definition modest (f : file) : Prop := ~ announces_huge f.

Lemma modest_suffix pre f : modest (pre ++ f) -> modest f.
Proof. intros H Hf. apply H. apply huge_suffix. exact Hf. Qed.

Lemma modest_entry r c name t tl : modest (entry_bytes r c name t ++ tl) -> length name = 15 ->
  (r < 2 ^ 31)%N -> (c < 2 ^ 31)%N -> countable r c.
Proof.
  intros H L R C. destruct (N.lt_ge_cases (8 * (r * (c + 1))) (2 ^ 64)) as [H1|H1].
  - destruct (N.lt_ge_cases (c + 1) (2 ^ 31)) as [H2|H2]; [split; assumption|].
    exfalso. apply H. exists [], r, c, (name ++ [t]), tl. split; [unfold entry_bytes; rewrite <- !app_assoc; reflexivity|].
    split; [rewrite app_length, L; reflexivity|]. split; [exact R|]. split; [exact C|]. intros [_ Q]. lia.
  - exfalso. apply H. exists [], r, c, (name ++ [t]), tl. split; [unfold entry_bytes; rewrite <- !app_assoc; reflexivity|].
    split; [rewrite app_length, L; reflexivity|]. split; [exact R|]. split; [exact C|]. intros [Q _]. lia.
Qed.

Lemma known_iff name : known name <-> exists i, i < 4 /\ is_cstring name (td_name i).
Proof.
  unfold known, td_names. split.
  - intros (s & [<-|[<-|[<-|[<-|[]]]]] & H); [exists 0|exists 1|exists 2|exists 3]; (split; [lia|exact H]).
  - intros (i & Hi & H). exists (td_name i). split; [|exact H].
    destruct i as [|[|[|[|]]]]; simpl; auto; lia.
Qed.
Lemma known_id name : known name -> exists i, name2id (cstr name) = Some i /\ i < 4.
Proof.
  intros H. apply known_iff in H. destruct H as (i & Hi & H). exists i. split; [|exact Hi].
  apply name2id_some. split; [exact Hi|]. apply cstring_cstr. exact H.
Qed.
Lemma unknown_id name : name2id (cstr name) = None -> ~ known name.
Proof. intros E H. destruct (known_id name H) as (i & E' & _). congruence. Qed.
Lemma id_known name i : name2id (cstr name) = Some i -> known name.
Proof.
  intros E. apply name2id_some in E. destruct E as [Hi E]. apply known_iff. exists i. split; [exact Hi|].
  rewrite <- E. apply cstr_spec.
Qed.

Lemma concat_len k (es : list (list N)) : Forall (fun e => length e = k) es -> length (concat es) = length es * k.
Proof. induction 1; [reflexivity|]. simpl. rewrite app_length. lia. Qed.

Section B.
Context {A : Type} (one : A) (native : N) (dec : N -> list N -> A).
Implicit Types (m : smx A) (me : mem_env A).

Definition has_mem me : bool := match me with Some _ => true | None => false end.

Lemma dims_of m e : countable (e_rows e) (e_cols e) -> (e_rows e < 2 ^ 31)%N -> dims_ok m e.
Proof.
  intros [C1 C2] R. assert (N.b2n (s_bias m) <= 1)%N by (destruct (s_bias m); simpl; lia).
  split; [exact R|]. split; [lia|]. nia.
Qed.

Lemma flag_fresh m (td : bool) b : fresh m -> (td = true -> s_bir m = false) -> td = true -> fresh (with_flag m b).
Proof. intros (F1 & F2 & F3 & F4) H ->. unfold fresh. simpl. auto. Qed.

(** the entry part of read_field *)
Lemma read_field_entry me conv m td r c name t tl : fresh m ->
  length name = 15 -> (r < 2 ^ 32)%N -> (c < 2 ^ 32)%N -> is_byte t ->
  read_field one native dec me conv m td (entry_bytes r c name t ++ tl) =
  (let e := mkE r c name t in
   if (r =? 0)%N || (c =? 0)%N then Some (mkRd InvalidDataSize m tl false, None)
   else if td then
     match name2id (cstr name) with
     | None => Some (mkRd UnknownFieldName m tl false, None)
     | Some id => do r <- read_data one native dec me conv (with_flag m (Nat.even id)) e tl; Some (r, Some id)
     end
   else do r <- read_data one native dec me conv m e tl; Some (r, None)).
Proof.
  intros F L R C T. unfold read_field. rewrite (fresh_empty m F). cbn [negb].
  destruct (parse_entry_bytes r c name t R C L T) as [E LE].
  rewrite (fread_app _ _ 24) by (rewrite LE; reflexivity). rewrite E. reflexivity.
Qed.

(** every file starts with an entry or is too short *)
Lemma entry_or_short f : Forall is_byte f -> length f < 24 \/
  exists r c name t tl, f = entry_bytes r c name t ++ tl /\ length name = 15 /\ (r < 2 ^ 32)%N /\ (c < 2 ^ 32)%N /\ is_byte t.
Proof.
  intros B. destruct (le_lt_dec 24 (length f)) as [H|H]; [right|left; exact H].
  rewrite <- (firstn_skipn 24 f) in B |- *. set (d := firstn 24 f) in *.
  assert (L : length d = 24) by (unfold d; rewrite firstn_length; lia).
  apply Forall_app in B. destruct B as [B _].
  destruct (entry_bytes_parse d L B) as (E & Ln & T & R & C).
  exists (e_rows (parse_entry d)), (e_cols (parse_entry d)), (e_name (parse_entry d)), (e_type (parse_entry d)), (skipn 24 f).
  split; [rewrite E at 1; reflexivity|auto].
Qed.

Lemma data_codes me conv m r c name t tl rd0 : native_ok native -> fresh m -> countable r c ->
  length name = 15 -> (0 < r < 2 ^ 31)%N -> (0 < c < 2 ^ 31)%N -> is_byte t ->
  read_data one native dec me conv m (mkE r c name t) tl = Some rd0 -> rd_code rd0 <> Success ->
  forall td, (td = true -> known name) ->
  field_defect native td (has_mem me) conv (entry_bytes r c name t ++ tl) (rd_code rd0).
Proof.
  intros NO F HC L R C T E Hc td HK.
  destruct (read_data_outcome one native dec me conv m (mkE r c name t) tl F) as (r' & E' & O); simpl; try lia.
  { apply dims_of; simpl; [exact HC|apply R]. }
  rewrite E in E'. injection E' as <-.
  assert (HM : me <> None -> has_mem me = true) by (destruct me; [reflexivity|congruence]).
  destruct O as [m1 H|m1 H1 H2 H3 H4|m1 H1 H2 H3 H4|m1 lk H1 H2 H3 H4 H5|m2 es f' H1 H2 H3 H4 H5 H6]; cbn [rd_code] in *; simpl in *.
  - apply FD_mem; auto; [lia|lia|]. right. subst me. reflexivity.
  - apply FD_type; auto.
  - apply FD_conv; auto.
  - apply FD_data; auto.
    + destruct H2 as [->|[H2 _]]; [exact NO|exact H2].
    + intros Q. destruct H2 as [?|[_ H2]]; [congruence|exact H2].
    + rewrite <- esize_elem. exact H3.
  - congruence.
Qed.

Lemma field_codes me conv m td f r id : native_ok native -> fresh m -> (td = true -> s_bir m = false) ->
  Forall is_byte f -> modest f ->
  read_field one native dec me conv m td f = Some (r, id) -> rd_code r <> Success ->
  field_defect native td (has_mem me) conv f (rd_code r).
Proof.
  intros NO F FB B HM E Hc. destruct (entry_or_short f B) as [Hs|(rr & c & name & t & tl & -> & L & R & C & T)].
  { unfold read_field in E. rewrite (fresh_empty m F) in E. cbn [negb] in E. rewrite fread_short in E by lia.
    injection E as <- <-. apply FD_entry. exact Hs. }
  rewrite read_field_entry in E by assumption. cbn beta zeta in E.
  destruct (N.eqb_spec rr 0) as [R0|R0]; [injection E as <- <-; apply FD_size; auto|].
  destruct (N.eqb_spec c 0) as [C0|C0]; [injection E as <- <-; apply FD_size; auto|]. cbn [orb] in E.
  assert (KD : forall m' r0 id0, fresh m' -> (td = true -> known name) ->
    (do r <- read_data one native dec me conv m' (mkE rr c name t) tl; Some (r, id0)) = Some (r0, id) ->
    rd_code r0 <> Success -> field_defect native td (has_mem me) conv (entry_bytes rr c name t ++ tl) (rd_code r0)).
  { intros m' r0 id0 F' HK E0 Hc0.
    destruct (read_data one native dec me conv m' (mkE rr c name t) tl) as [rx|] eqn:Ed; [|discriminate].
    cbn [obind] in E0. injection E0 as -> _.
    destruct (N.lt_ge_cases rr (2 ^ 31)) as [R1|R1]; [destruct (N.lt_ge_cases c (2 ^ 31)) as [C1|C1]|].
    - eapply data_codes; eauto; [eapply modest_entry; [exact HM|exact L|lia|lia]|lia|lia].
    - rewrite read_data_big in Ed by (right; exact C1). injection Ed as <-. apply FD_mem; auto; lia.
    - rewrite read_data_big in Ed by (left; exact R1). injection Ed as <-. apply FD_mem; auto; lia. }
  destruct td.
  - destruct (name2id (cstr name)) as [i|] eqn:Ei.
    + eapply KD; [apply (flag_fresh m true (Nat.even i)); auto|intros _; eapply id_known; eauto|exact E|exact Hc].
    + injection E as <- <-. apply FD_name; auto; try lia. apply unknown_id. exact Ei.
  - eapply KD; [exact F|discriminate|exact E|exact Hc].
Qed.

Lemma data_defect_read me conv m e tl : fresh m -> countable (e_rows e) (e_cols e) ->
  (0 < e_rows e < 2 ^ 31)%N -> (0 < e_cols e < 2 ^ 31)%N ->
  exists r, read_data one native dec me conv m e tl = Some r /\ outcome one native dec m e me conv tl r.
Proof.
  intros F HC R C. apply read_data_outcome; [exact F| |apply R|apply C].
  apply dims_of; [exact HC|apply R].
Qed.

Lemma field_defect_read me conv m td f c : native_ok native -> fresh m -> (td = true -> s_bir m = false) ->
  modest f -> field_defect native td (has_mem me) conv f c ->
  exists r id, read_field one native dec me conv m td f = Some (r, id) /\ rd_code r = c.
Proof.
  intros NO F FB HM D.
  (* the common part: the name is fine *)
  assert (GO : forall r cc name t tl (P : rd -> Prop), length name = 15 -> (0 < r < 2 ^ 32)%N -> (0 < cc < 2 ^ 32)%N -> is_byte t ->
    (td = true -> known name) ->
    (forall m', fresh m' -> exists r0, read_data one native dec me conv m' (mkE r cc name t) tl = Some r0 /\ P r0) ->
    exists r0 id, read_field one native dec me conv m td (entry_bytes r cc name t ++ tl) = Some (r0, id) /\ P r0).
  { intros r cc name t tl P L R C T HK HR. rewrite read_field_entry by (assumption || lia). cbn beta zeta.
    destruct (N.eqb_spec r 0); [lia|]. destruct (N.eqb_spec cc 0); [lia|]. cbn [orb]. destruct td.
    - destruct (known_id name (HK eq_refl)) as (i & Ei & _). rewrite Ei.
      destruct (HR (with_flag m (Nat.even i))) as (r0 & E & H); [apply (flag_fresh m true); auto|].
      rewrite E. cbn [obind]. eauto.
    - destruct (HR m F) as (r0 & E & H). rewrite E. cbn [obind]. eauto. }
  revert HM. destruct D as [f H|r cc name t tl L R C T H|r cc name t tl L R C T Htd H|r cc name t tl L R C T HK H
    |r cc name t tl L R C T HK H H0 H1|r cc name t tl L R C T HK H H0 H1|r cc name t tl L R C T HK H H0 H1]; intros HM.
  - unfold read_field. rewrite (fresh_empty m F). cbn [negb]. rewrite fread_short by lia. eexists _, _. split; reflexivity.
  - rewrite read_field_entry by assumption. cbn beta zeta.
    assert (E : ((r =? 0) || (cc =? 0))%N = true) by (apply orb_true_iff; rewrite !N.eqb_eq; exact H). rewrite E.
    eexists _, _. split; reflexivity.
  - rewrite read_field_entry by (assumption || lia). cbn beta zeta.
    destruct (N.eqb_spec r 0); [lia|]. destruct (N.eqb_spec cc 0); [lia|]. cbn [orb]. rewrite Htd.
    destruct (name2id (cstr name)) as [i|] eqn:Ei; [exfalso; apply H; eapply id_known; eauto|].
    eexists _, _. split; reflexivity.
  - apply GO; auto. intros m' F'.
    destruct (N.lt_ge_cases r (2 ^ 31)) as [R1|R1]; [destruct (N.lt_ge_cases cc (2 ^ 31)) as [C1|C1]|].
    + destruct H as [[H|H]|H]; [lia|lia|].
      destruct (data_defect_read me conv m' (mkE r cc name t) tl F') as (r0 & E & O);
        [cbn [e_rows e_cols]; eapply modest_entry; [exact HM|exact L|lia|lia]|simpl; lia|simpl; lia|].
      exists r0. split; [exact E|]. destruct O; try reflexivity; destruct me; simpl in *; congruence.
    + rewrite read_data_big by (right; exact C1). eexists. split; reflexivity.
    + rewrite read_data_big by (left; exact R1). eexists. split; reflexivity.
  - apply GO; auto; try lia. intros m' F'.
    destruct (data_defect_read me conv m' (mkE r cc name t) tl F') as (r0 & E & O);
      [cbn [e_rows e_cols]; eapply modest_entry; [exact HM|exact L|lia|lia]|simpl; lia|simpl; lia|].
    exists r0. split; [exact E|]. unfold native_ok in NO.
    destruct O as [m1 Q|m1 Q1 Q2 Q3 Q4|m1 Q1 Q2 Q3 Q4|m1 lk Q1 Q2 Q3 Q4 Q5|m2 es f' Q1 Q2 Q3 Q4 Q5 Q6]; simpl in *; try reflexivity.
    + subst me. discriminate.
    + lia.
    + lia.
    + lia.
  - assert (TB : is_byte t) by (unfold is_byte; lia).
    apply GO; auto; try lia. intros m' F'.
    destruct (data_defect_read me conv m' (mkE r cc name t) tl F') as (r0 & E & O);
      [cbn [e_rows e_cols]; eapply modest_entry; [exact HM|exact L|lia|lia]|simpl; lia|simpl; lia|].
    exists r0. split; [exact E|].
    destruct O as [m1 Q|m1 Q1 Q2 Q3 Q4|m1 Q1 Q2 Q3 Q4|m1 lk Q1 Q2 Q3 Q4 Q5|m2 es f' Q1 Q2 Q3 Q4 Q5 Q6]; simpl in *; try reflexivity.
    + subst me. discriminate.
    + lia.
    + destruct Q2 as [?|[_ ?]]; congruence.
    + destruct Q2 as [?|[_ ?]]; congruence.
  - assert (TB : is_byte t) by (unfold is_byte; lia).
    apply GO; auto; try lia. intros m' F'.
    destruct (data_defect_read me conv m' (mkE r cc name t) tl F') as (r0 & E & O);
      [cbn [e_rows e_cols]; eapply modest_entry; [exact HM|exact L|lia|lia]|simpl; lia|simpl; lia|].
    exists r0. split; [exact E|].
    destruct O as [m1 Q|m1 Q1 Q2 Q3 Q4|m1 Q1 Q2 Q3 Q4|m1 lk Q1 Q2 Q3 Q4 Q5|m2 es f' Q1 Q2 Q3 Q4 Q5 Q6]; simpl in *; try reflexivity.
    + subst me. discriminate.
    + lia.
    + rewrite (H0 Q2) in Q4. discriminate.
    + exfalso. subst tl. rewrite app_length, (concat_len _ _ Q5) in H1.
      rewrite Nat2N.inj_add, Nat2N.inj_mul, Q4 in H1. lia.
Qed.

(** ** Headers *)
Lemma header_codes f : Forall is_byte f ->
  match read_header f with
  | inl c => forall n k, header_defect n k f c
  | inr (h, f1) => f = header_bytes (h_fields h) (h_classes h) ++ f1 /\ (h_fields h < 2 ^ 16)%N /\ (h_classes h < 2 ^ 16)%N
  end.
Proof.
  intros B. destruct (read_header f) as [c|[h f1]] eqn:E; [|apply read_header_inv; assumption].
  intros n k. unfold read_header in E. destruct (fread 10 f) as [[d f1]|] eqn:Ef.
  2:{ injection E as <-. apply HD_short. unfold fread in Ef.
      destruct (N.leb_spec 10 (N.of_nat (length f))); [discriminate|lia]. }
  apply fread_inv in Ef. destruct Ef as [-> L]. apply Forall_app in B. destruct B as [B _].
  assert (L' : length d = 10) by lia.
  destruct (N.eqb_spec (h_sig (parse_header d)) signature) as [E1|E1]; cbn [negb] in E.
  - destruct (N.eqb_spec (h_ver (parse_header d)) 0) as [E2|E2]; cbn [negb] in E; [discriminate|]. injection E as <-.
    unfold parse_header in E1, E2. cbn [h_sig h_ver] in E1, E2.
    pose proof (sig_bytes (sub 0 4 d) (sub_length 0 4 d ltac:(lia)) (sub_byte 0 4 d B) E1) as Q1.
    pose proof (enc_le _ (sub_byte 4 2 d B)) as Q2. rewrite (sub_length 4 2 d ltac:(lia)) in Q2.
    pose proof (le_bound _ (sub_byte 4 2 d B)) as Q3. rewrite (sub_length 4 2 d ltac:(lia)) in Q3.
    change (256 ^ N.of_nat 2)%N with (2 ^ 16)%N in Q3.
    assert (ED : d = sub 0 4 d ++ sub 4 2 d ++ sub 6 4 d).
    { clear - L'. do 10 (destruct d as [|? d]; [discriminate|]). destruct d; [reflexivity|discriminate]. }
    rewrite ED, Q1, <- Q2, <- !app_assoc. apply HD_version; [lia|]. rewrite app_length, (sub_length 6 4 d) by lia. lia.
  - injection E as <-. unfold parse_header in E1. cbn [h_sig] in E1.
    assert (ED : d = sub 0 4 d ++ sub 4 6 d).
    { clear - L'. do 10 (destruct d as [|? d]; [discriminate|]). destruct d; [reflexivity|discriminate]. }
    rewrite ED, <- app_assoc. apply HD_sig; [apply sub_length; lia| |rewrite app_length, (sub_length 4 6 d) by lia; lia].
    intros Q. apply E1. rewrite Q. vm_compute. reflexivity.
Qed.

Lemma header_defect_read n k f c : (n < 2 ^ 16)%N -> header_defect n k f c -> Forall is_byte f ->
  read_header f = inl c \/
  exists n' k' tl, read_header f = inr (mkH signature 0 n' k', tl) /\ f = header_bytes n' k' ++ tl /\
    ((n' <> n /\ c = WrongElementsCount) \/ (n' = n /\ k' <> k /\ c = InvalidSeqClassCount)).
Proof.
  intros Hn D B. destruct D as [f H|s tl H H0 H1|v tl H H0|n' k' tl H H0 H1|k' tl H H0].
  - left. unfold read_header. rewrite fread_short by lia. reflexivity.
  - left. unfold read_header.
    assert (E : s ++ tl = (s ++ firstn 6 tl) ++ skipn 6 tl) by (rewrite <- app_assoc, firstn_skipn; reflexivity).
    assert (L : length (s ++ firstn 6 tl) = 10) by (rewrite app_length, firstn_length; lia).
    rewrite E, (fread_app _ _ 10) by (rewrite L; reflexivity).
    destruct (N.eqb_spec (h_sig (parse_header (s ++ firstn 6 tl))) signature) as [Q|Q]; [|reflexivity].
    exfalso. apply H0. unfold parse_header in Q. cbn [h_sig] in Q. rewrite (sub_app0 s) in Q by exact H.
    apply sig_bytes; [exact H| |exact Q]. apply Forall_app in B. apply B.
  - left. unfold read_header.
    assert (E : [110; 110; 116; 108]%N ++ enc_int 2 v ++ tl = ([110; 110; 116; 108]%N ++ enc_int 2 v ++ firstn 4 tl) ++ skipn 4 tl)
      by (rewrite <- !app_assoc, firstn_skipn; reflexivity).
    assert (L : length ([110; 110; 116; 108]%N ++ enc_int 2 v ++ firstn 4 tl) = 10)
      by (rewrite !app_length, enc_int_length, firstn_length; change (length [110; 110; 116; 108]%N) with 4; lia).
    rewrite E, (fread_app _ _ 10) by (rewrite L; reflexivity).
    unfold parse_header. cbn [h_sig h_ver]. rewrite (sub_app0 [110; 110; 116; 108]%N) by reflexivity.
    change (le [110; 110; 116; 108]%N =? signature)%N with true. cbn [negb].
    rewrite (sub_app [110; 110; 116; 108]%N) by (simpl; lia). change (4 - length [110; 110; 116; 108]%N) with 0.
    rewrite (sub_app0 (enc_int 2 v)) by apply enc_int_length. rewrite le_enc by (simpl; lia).
    destruct (N.eqb_spec v 0); [lia|]. reflexivity.
  - right. exists n', k', tl. split; [apply read_header_bytes; assumption|]. auto.
  - right. exists n, k', tl. split; [apply read_header_bytes; assumption|]. auto.
Qed.

Theorem matrix_codes me conv m f c : native_ok native -> fresh m -> Forall is_byte f -> modest f -> c <> Success ->
  ((exists m2 lk, read_matrix one native dec me conv m f = Some (c, m2, lk)) <->
   matrix_defect native (has_mem me) conv f c).
Proof.
  intros NO F B HM Hc. unfold read_matrix, matrix_defect. split.
  - intros (m2 & lk & E). pose proof (header_codes f B) as H.
    destruct (read_header f) as [c0|[h f1]]; [injection E as -> _ _; left; apply H|].
    destruct H as (-> & Hn & Hk). unfold read_into_matrix in E.
    destruct (N.eqb_spec (h_fields h) 1) as [E1|E1]; cbn [negb] in E;
      [|injection E as <- _ _; left; apply HD_fields; assumption].
    rewrite E1 in *.
    destruct (N.eqb_spec (h_classes h) 0) as [E2|E2]; cbn [negb] in E;
      [|injection E as <- _ _; left; apply HD_classes; assumption].
    rewrite E2 in *. right. exists f1. split; [reflexivity|].
    destruct (read_field one native dec me conv m false f1) as [[r id]|] eqn:Er; [|discriminate].
    cbn [obind] in E. injection E as <- _ _. apply Forall_app in B. destruct B as [_ B].
    eapply field_codes; eauto; [discriminate|]. eapply modest_suffix; eauto.
  - intros [D|(f1 & -> & D)].
    + destruct (header_defect_read 1 0 f c ltac:(reflexivity) D B) as [E|(n' & k' & tl & E & -> & H)]; rewrite E; [eauto|].
      unfold read_into_matrix. cbn [h_fields h_classes]. destruct H as [[H ->]|(-> & H & ->)].
      * destruct (N.eqb_spec n' 1); [congruence|]. cbn [negb]. eauto.
      * cbn [N.eqb Pos.eqb negb]. destruct (N.eqb_spec k' 0); [congruence|]. cbn [negb]. eauto.
    + rewrite read_header_bytes by reflexivity. unfold read_into_matrix. cbn [h_fields h_classes N.eqb Pos.eqb negb].
      destruct (field_defect_read me conv m false f1 c NO F ltac:(discriminate) (modest_suffix _ _ HM) D) as (r & id & E & <-).
      rewrite E. cbn [obind]. eauto.
Qed.

Theorem matrix_no_leak me conv m f c m2 lk : native_ok native -> fresh m -> Forall is_byte f -> modest f ->
  read_matrix one native dec me conv m f = Some (c, m2, lk) -> c <> FailedToReadData -> lk = false.
Proof.
  intros NO F B HM E Hc. unfold read_matrix in E. pose proof (header_codes f B) as H.
  destruct (read_header f) as [c0|[h f1]]; [injection E as _ _ <-; reflexivity|].
  destruct H as (-> & Hn & Hk). unfold read_into_matrix in E.
  destruct (negb _); [injection E as _ _ <-; reflexivity|].
  destruct (negb _); [injection E as _ _ <-; reflexivity|].
  destruct (read_field one native dec me conv m false f1) as [[r id]|] eqn:Er; [|discriminate].
  cbn [obind] in E. injection E as <- _ <-. apply Forall_app in B. destruct B as [_ B].
  destruct (entry_or_short f1 B) as [Hs|(rr & cc & name & t & tl & -> & L & R & C & T)].
  { unfold read_field in Er. rewrite (fresh_empty m F) in Er. cbn [negb] in Er. rewrite fread_short in Er by lia.
    injection Er as <- _. reflexivity. }
  rewrite read_field_entry in Er by assumption. cbn beta zeta in Er.
  destruct (N.eqb_spec rr 0) as [R0|R0]; [injection Er as <- _; reflexivity|].
  destruct (N.eqb_spec cc 0) as [C0|C0]; [injection Er as <- _; reflexivity|]. cbn [orb] in Er.
  destruct (N.lt_ge_cases rr (2 ^ 31)) as [R1|R1]; [destruct (N.lt_ge_cases cc (2 ^ 31)) as [C1|C1]|].
  - apply modest_suffix in HM.
    destruct (data_defect_read me conv m (mkE rr cc name t) tl F) as (r0 & E0 & O);
      [cbn [e_rows e_cols]; eapply modest_entry; [exact HM|exact L|lia|lia]|simpl; lia|simpl; lia|].
    rewrite E0 in Er. cbn [obind] in Er. injection Er as <- _. destruct O; cbn [rd_code rd_leak] in *; congruence.
  - rewrite read_data_big in Er by (right; exact C1). cbn [obind] in Er. injection Er as <- _. reflexivity.
  - rewrite read_data_big in Er by (left; exact R1). cbn [obind] in Er. injection Er as <- _. reflexivity.
Qed.

(** *** Train data *)
Definition good (ps : list (nat * field)) (mx : list (smx A)) : Prop :=
  NoDup (map fst ps) /\
  forall i f, In (i, f) ps -> i < 4 /\ wf_field f /\ countable (f_rows f) (f_cols f) /\
     is_cstring (f_name f) (td_name i) /\ (forall m, bget mx i = Some m -> empty m = true).
Definition many (ps : list (nat * field)) : list N := concat (map (fun p => bytes_of_field (snd p)) ps).

Lemma td_loop_app (ps : list (nat * field)) k : forall ms cs mx tl,
  length mx = 4 -> good ps mx ->
  (forall i, ms i <> None) -> (forall i, cs i = true) ->
  exists mx' ms' cs', length mx' = 4 /\
    td_loop one native dec (length ps + k) ms cs mx (many ps ++ tl) = td_loop one native dec k ms' cs' mx' tl /\
    (forall i, ms' i <> None) /\ (forall i, cs' i = true) /\
    (forall i f, In (i, f) ps -> exists m, bget mx' i = Some m /\ holds_field one dec m f (Nat.even i)) /\
    (forall i, ~ In i (map fst ps) -> bget mx' i = bget mx i).
Proof.
  induction ps as [|[i f] ps IH]; intros ms cs mx tl L [ND HP] HM HC.
  - exists mx, ms, cs. simpl. split; [exact L|]. split; [reflexivity|]. split; [exact HM|]. split; [exact HC|].
    split; [intros ? ? []|reflexivity].
  - unfold many. cbn [length Nat.add td_loop map concat snd]. rewrite <- app_assoc.
    destruct (HP i f (or_introl eq_refl)) as (Hi & W & Cn & Hs & He).
    destruct (read_field_ok one native dec (ms 0) (cs 0) init true f (concat (map (fun p => bytes_of_field (snd p)) ps) ++ tl) (Some i))
      as (m2 & E & H); auto; [apply (fresh_init false)|].
    rewrite E. cbn [obind rd_code is_success negb].
    destruct (bget_lt mx i ltac:(lia)) as (old & Eo). rewrite Eo. cbn [obind]. rewrite (He old Eo). cbn [negb rd_m].
    destruct (bset_lt mx i m2 ltac:(lia)) as (mx1 & E1). rewrite E1. cbn [obind rd_rest rd_leak orb].
    destruct (bset_some _ _ _ _ E1) as (_ & L1 & G1).
    simpl in ND. inversion ND as [|x l N1 N2]; subst.
    destruct (IH (fun i => ms (S i)) (fun i => cs (S i)) mx1 tl) as (mx' & ms' & cs' & L2 & E2 & M2 & C2 & G2 & G3); auto.
    + congruence.
    + split; [exact N2|]. intros j g Hj. destruct (HP j g (or_intror Hj)) as (A1 & A2 & A3 & A4 & A5).
      split; [exact A1|]. split; [exact A2|]. split; [exact A3|]. split; [exact A4|].
      intros m. rewrite G1. destruct (Nat.eqb_spec j i) as [->|Hne]; [|apply A5].
      exfalso. apply N1. apply (in_map fst) in Hj. exact Hj.
    + exists mx', ms', cs'. split; [exact L2|]. split.
      { rewrite <- E2. unfold many. destruct (td_loop _ _ _ _ _ _ mx1 _) as [[[? ?] ?]|]; reflexivity. }
      split; [exact M2|]. split; [exact C2|]. split.
      * intros j g [Ej|Hj]; [|apply G2; exact Hj]. injection Ej as <- <-.
        exists m2. split; [|exact H]. rewrite (G3 i N1), G1, Nat.eqb_refl. reflexivity.
      * intros j Hj. simpl in Hj. rewrite G3, G1 by tauto.
        destruct (Nat.eqb_spec j i); [subst; tauto|reflexivity].
Qed.

Lemma names_id s : In s td_names -> exists i, i < 4 /\ td_name i = s.
Proof.
  intros [<-|[<-|[<-|[<-|[]]]]]; [exists 0|exists 1|exists 2|exists 3]; (split; [lia|reflexivity]).
Qed.
Lemma td_name_inj i j : i < 4 -> j < 4 -> td_name i = td_name j -> i = j.
Proof. destruct i as [|[|[|[|]]]], j as [|[|[|[|]]]]; intros; try lia; discriminate. Qed.

(** from names to numbers *)
Lemma number_fields ps tl : good_fields ps -> modest (fields_bytes ps ++ tl) ->
  exists qs, length qs = length ps /\ many qs = fields_bytes ps /\ good qs (repeat init 4) /\
    forall i f, i < 4 -> (In (i, f) qs <-> In (td_name i, f) ps).
Proof.
  intros [ND HP]. revert tl. induction ps as [|[s f] ps IH]; intros tl HM.
  - exists []. split; [reflexivity|]. split; [reflexivity|]. split; [split; [constructor|intros ? ? []]|]. simpl. tauto.
  - unfold fields_bytes in HM. cbn [map concat snd] in HM. rewrite <- app_assoc in HM.
    simpl in ND. inversion ND as [|x l N1 N2]; subst.
    destruct (IH N2 (fun s' f' H => HP s' f' (or_intror H)) tl (modest_suffix _ _ HM)) as (qs & L & M & [G1 G2] & Q).
    destruct (HP s f (or_introl eq_refl)) as (Hs & Hn & W). destruct (names_id s Hs) as (i & Hi & <-).
    exists ((i, f) :: qs). split; [simpl; congruence|]. split; [unfold many, fields_bytes in *; cbn [map concat snd]; congruence|].
    split; [split|].
    + simpl. constructor; [|exact G1]. intros HI. apply in_map_iff in HI. destruct HI as ([j g] & E & HI). simpl in E. subst j.
      apply Q in HI; [|exact Hi]. apply N1. apply (in_map fst) in HI. exact HI.
    + intros j g [E|HI]; [|apply G2; exact HI]. injection E as <- <-.
      split; [exact Hi|]. split; [exact W|]. split.
      { rewrite bytes_split in HM. pose proof W as (W1 & W2 & W3 & _).
        unfold countable. eapply modest_entry; [|exact W1|lia|lia]. exact HM. }
      split; [exact Hn|]. intros m Hm. unfold bget in Hm. apply nth_error_In, repeat_spec in Hm. subst m. reflexivity.
    + intros j g Hj. simpl. rewrite Q by exact Hj. split; intros [E|E]; auto; left.
      * injection E as <- <-. reflexivity.
      * injection E as E <-. f_equal. apply td_name_inj; auto.
Qed.

Theorem td_codes ms cs dest f c : native_ok native -> Forall is_byte f -> modest f ->
  (forall i, ms i <> None) -> (forall i, cs i = true) -> td_defect native f c ->
  exists lk, read_td one native dec ms cs dest f = Some (c, dest, lk).
Proof.
  intros NO B HM M C D. unfold read_td. revert B HM.
  assert (FI : fresh (@init A)) by apply (fresh_init false).
  destruct D as [f c D|ps f c HG HL D|ps s g g' tl HG HL HI W Hs|ps fx fy ex ey tl HG I0 I1 I2 I3 HC]; intros B HM.
  - destruct (header_defect_read 4 0 f c ltac:(reflexivity) D B) as [E|(n' & k' & tl & E & -> & H)]; rewrite E; [eauto|].
    unfold read_into_td. cbn [h_fields h_classes]. destruct H as [[H ->]|(-> & H & ->)].
    + destruct (N.eqb_spec n' 4); [congruence|]. cbn [negb]. eauto.
    + cbn [N.eqb Pos.eqb negb]. destruct (N.eqb_spec k' 0); [congruence|]. cbn [negb]. eauto.
  - rewrite read_header_bytes by reflexivity. unfold read_into_td. cbn [h_fields h_classes N.eqb Pos.eqb negb].
    destruct (number_fields ps f HG (modest_suffix _ _ HM)) as (qs & L & E & G & _). rewrite <- E.
    destruct (td_loop_app qs (S (3 - length ps)) ms cs (repeat init 4) f eq_refl G M C) as (mx & ms' & cs' & Lm & E2 & M' & C' & _).
    replace (length qs + S (3 - length ps)) with 4 in E2 by lia. rewrite E2. cbn [td_loop].
    assert (Hm : has_mem (ms' 0) = true) by (specialize (M' 0); destruct (ms' 0); [reflexivity|congruence]).
    destruct (field_defect_read (ms' 0) (cs' 0) init true f c NO FI ltac:(reflexivity)
      (modest_suffix _ _ (modest_suffix _ _ HM))) as (r & id & Er & Ec).
    { rewrite Hm, (C' 0). exact D. }
    rewrite Er. cbn [obind]. rewrite Ec.
    assert (Hc : is_success c = false) by (destruct D; reflexivity).
    rewrite Hc. cbn [negb obind]. rewrite Hc. cbn [negb]. eauto.
  - rewrite read_header_bytes by reflexivity. unfold read_into_td. cbn [h_fields h_classes N.eqb Pos.eqb negb].
    destruct (number_fields ps _ HG (modest_suffix _ _ HM)) as (qs & L & E & G & Q). rewrite <- E.
    destruct (td_loop_app qs (S (3 - length ps)) ms cs (repeat init 4) (bytes_of_field g' ++ tl) eq_refl G M C)
      as (mx & ms' & cs' & Lm & E2 & M' & C' & G2 & _).
    replace (length qs + S (3 - length ps)) with 4 in E2 by lia. rewrite E2. cbn [td_loop].
    destruct HG as [_ HP]. destruct (HP s g HI) as (Hsn & _). destruct (names_id s Hsn) as (i & Hi & <-).
    assert (HC' : countable (f_rows g') (f_cols g')).
    { pose proof W as (W1 & W2 & W3 & _). apply modest_suffix, modest_suffix in HM. rewrite bytes_split in HM.
      eapply modest_entry; [exact HM|exact W1|lia|lia]. }
    destruct (read_field_ok one native dec (ms' 0) (cs' 0) init true g' tl (Some i)) as (m2 & Er & _); auto.
    rewrite Er. cbn [obind rd_code is_success negb].
    destruct (G2 i g) as (m & Em & Hm); [apply Q; assumption|].
    rewrite Em. cbn [obind]. rewrite (holds_nonempty _ _ _ _ _ Hm). cbn [negb obind is_success]. eauto.
  - rewrite read_header_bytes by reflexivity. unfold read_into_td. cbn [h_fields h_classes N.eqb Pos.eqb negb].
    destruct (number_fields ps tl HG (modest_suffix _ _ HM)) as (qs & L & E & G & Q). rewrite <- E.
    assert (L4 : length qs = 4).
    { destruct G as [ND HP]. assert (H1 : length (map fst qs) <= length (seq 0 4)).
      { apply NoDup_incl_length; [exact ND|]. intros i Hi. apply in_map_iff in Hi. destruct Hi as ([j g] & <- & Hj).
        apply in_seq. simpl. apply HP in Hj. lia. }
      assert (H2 : length (seq 0 4) <= length (map fst qs)).
      { apply NoDup_incl_length; [apply seq_NoDup|]. intros i Hi. apply in_seq in Hi.
        destruct i as [|[|[|[|]]]]; [| | | |lia].
        - apply (in_map fst) with (x := (0, fx)). apply Q; [lia|exact I0].
        - apply (in_map fst) with (x := (1, fy)). apply Q; [lia|exact I1].
        - apply (in_map fst) with (x := (2, ex)). apply Q; [lia|exact I2].
        - apply (in_map fst) with (x := (3, ey)). apply Q; [lia|exact I3]. }
      rewrite map_length, seq_length in *. lia. }
    destruct (td_loop_app qs 0 ms cs (repeat init 4) tl eq_refl G M C) as (mx & ms' & cs' & Lm & E2 & _ & _ & G2 & _).
    rewrite L4 in E2. cbn [Nat.add] in E2. rewrite E2. cbn [td_loop obind is_success negb].
    destruct mx as [|a [|b [|c' [|d [|]]]]]; try discriminate.
    destruct (G2 0 fx) as (m0 & Q0 & H0); [apply Q; [lia|exact I0]|]. injection Q0 as <-.
    destruct (G2 1 fy) as (m1 & Q1 & H1); [apply Q; [lia|exact I1]|]. injection Q1 as <-.
    destruct (G2 2 ex) as (m2 & Q2 & H2); [apply Q; [lia|exact I2]|]. injection Q2 as <-.
    destruct (G2 3 ey) as (m3 & Q3 & H3); [apply Q; [lia|exact I3]|]. injection Q3 as <-.
    unfold absorb. destruct (absorbsion_will_succeed a b c' d) eqn:Ea; [exfalso|eauto].
    apply HC. unfold absorbsion_will_succeed in Ea. rewrite !andb_true_iff, !Nat.eqb_eq in Ea.
    destruct H0 as (R0 & K0 & _). destruct H1 as (R1 & K1 & _). destruct H2 as (R2 & K2 & _). destruct H3 as (R3 & K3 & _).
    cbn [Nat.even N.b2n] in *. unfold td_coherent. intuition lia.
Qed.
End B.
