(** Single fields, matrices and train data. *)
From Verif Require Import Base BaseLemmas Kern_Model Smx_Model Smx_Spec Smx_Proofs TData_Model Bin_Model Bin_Spec Bin_Proofs Bin_Proofs2.
From Coq Require Import NArith Nnat Permutation.

Lemma concat_inj k (es es' : list (list N)) a b :
  Forall (fun e => length e = k) es -> Forall (fun e => length e = k) es' -> length es = length es' ->
  concat es ++ a = concat es' ++ b -> es = es' /\ a = b.
Proof.
  intros H1 H2 L E. assert (Q : es = es').
  { rewrite <- (chunks_concat k es a H1), <- (chunks_concat k es' b H2), E, L. reflexivity. }
  subst es'. split; [reflexivity|]. eapply app_inv_head; eauto.
Qed.

Definition td_name (id : nat) : list N :=
  match id with 0 => s_train_x | 1 => s_train_y | 2 => s_test_x | _ => s_test_y end.

Lemma name2id_some sz id : name2id sz = Some id <-> id < 4 /\ sz = td_name id.
Proof.
  unfold name2id.
  destruct (bytes_eq s_train_x sz) eqn:E0.
  { apply bytes_eq_true in E0. subst sz. split.
    - intros E. injection E as <-. split; [lia|reflexivity].
    - intros [H E]. destruct id as [|[|[|[|]]]]; try discriminate; try reflexivity; lia. }
  destruct (bytes_eq s_train_y sz) eqn:E1.
  { apply bytes_eq_true in E1. subst sz. split.
    - intros E. injection E as <-. split; [lia|reflexivity].
    - intros [H E]. destruct id as [|[|[|[|]]]]; try discriminate; try reflexivity; lia. }
  destruct (bytes_eq s_test_x sz) eqn:E2.
  { apply bytes_eq_true in E2. subst sz. split.
    - intros E. injection E as <-. split; [lia|reflexivity].
    - intros [H E]. destruct id as [|[|[|[|]]]]; try discriminate; try reflexivity; lia. }
  destruct (bytes_eq s_test_y sz) eqn:E3.
  { apply bytes_eq_true in E3. subst sz. split.
    - intros E. injection E as <-. split; [lia|reflexivity].
    - intros [H E]. destruct id as [|[|[|[|]]]]; try discriminate; try reflexivity; lia. }
  split; [discriminate|]. intros [H ->]. exfalso.
  destruct id as [|[|[|[|]]]]; [| | | |lia]; simpl in *; discriminate.
Qed.

Definition entry_of (f : field) : fentry := mkE (f_rows f) (f_cols f) (f_name f) (f_type f).

Lemma bytes_split f tl : bytes_of_field f ++ tl =
  entry_bytes (f_rows f) (f_cols f) (f_name f) (f_type f) ++ (concat (f_elems f) ++ tl).
Proof. unfold bytes_of_field, entry_bytes. rewrite <- !app_assoc. reflexivity. Qed.

Lemma wf_entry f : wf_field f ->
  parse_entry (entry_bytes (f_rows f) (f_cols f) (f_name f) (f_type f)) = entry_of f /\
  length (entry_bytes (f_rows f) (f_cols f) (f_name f) (f_type f)) = 24.
Proof.
  intros (W1 & W2 & W3 & W4 & _). apply parse_entry_bytes; [lia|lia|exact W1|].
  unfold is_byte. destruct W4 as [-> | ->]; lia.
Qed.

Section B.
Context {A : Type} (one : A) (native : N) (dec : N -> list N -> A).
Definition native_ok : Prop := native = 0%N \/ native = 1%N.
Implicit Types (m : smx A) (me : mem_env A).

Lemma fresh_empty m : fresh m -> empty m = true.
Proof. intros (H & _). unfold empty. rewrite H. reflexivity. Qed.
Lemma fresh_init b : fresh (with_flag (@init A) b).
Proof. unfold fresh. simpl. auto. Qed.


Lemma countable_dims m f : countable (f_rows f) (f_cols f) -> wf_field f -> dims_ok m (entry_of f).
Proof.
  intros [H1 H2] (_ & W2 & W3 & _). unfold dims_ok, entry_of. cbn [e_rows e_cols].
  assert (N.b2n (s_bias m) <= 1)%N by (destruct (s_bias m); simpl; lia).
  split; [lia|]. split; [lia|]. nia.
Qed.

(** ** One field *)
Definition bias_of m (id : option nat) : bool :=
  match id with Some i => Nat.even i | None => s_bias m end.

Lemma read_data_ok me conv m f tl : fresh m -> wf_field f -> countable (f_rows f) (f_cols f) ->
  me <> None -> (conv = true \/ f_type f = native) ->
  exists m2, read_data one native dec me conv m (entry_of f) (concat (f_elems f) ++ tl) =
    Some (mkRd Success m2 tl false) /\ holds_field one dec m2 f (s_bias m).
Proof.
  intros F W HC HM HT. pose proof (countable_dims m f HC W) as DO.
  destruct W as (W1 & W2 & W3 & W4 & W5 & W6).
  destruct (read_data_outcome one native dec me conv m (entry_of f) (concat (f_elems f) ++ tl) F DO) as (r & E & O);
    [apply W2|apply W3|]. rewrite E.
  remember (concat (f_elems f) ++ tl) as data eqn:Ed.
  destruct O as [m1 H|m1 H1 H2 H3 H4|m1 H1 H2 H3 H4|m1 lk H1 H2 H3 H4 H5|m2 es f' H1 H2 H3 H4 H5 H6].
  - contradiction.
  - exfalso. simpl in *. destruct W4; contradiction.
  - exfalso. simpl in *. destruct HT; congruence.
  - exfalso. subst data. simpl in *. rewrite app_length, Nat2N.inj_add in H3.
    assert (L : forall es, Forall (fun e : list N => length e = elem_bytes (f_type f)) es ->
                length (concat es) = length es * elem_bytes (f_type f)).
    { induction 1; [reflexivity|]. simpl. rewrite app_length. lia. }
    rewrite (L _ W6), Nat2N.inj_mul, W5, esize_elem in H3. lia.
  - exists m2. rewrite Ed in H3. simpl in H4, H5.
    destruct (concat_inj _ es (f_elems f) f' tl H5 W6) as [-> ->]; [lia|congruence|].
    split; [reflexivity|]. destruct f; exact H6.
Qed.

Lemma read_field_ok me conv m (td : bool) f tl (id : option nat) :
  fresh m -> (td = true -> s_bir m = false) -> wf_field f -> countable (f_rows f) (f_cols f) ->
  me <> None -> (conv = true \/ f_type f = native) ->
  match id with Some i => td = true /\ i < 4 /\ is_cstring (f_name f) (td_name i) | None => td = false end ->
  exists m2, read_field one native dec me conv m td (bytes_of_field f ++ tl) =
    Some (mkRd Success m2 tl false, id) /\ holds_field one dec m2 f (bias_of m id).
Proof.
  intros F FB W HC HM HT HI. unfold read_field. rewrite (fresh_empty m F). cbn [negb].
  destruct (wf_entry f W) as [E L]. rewrite bytes_split.
  rewrite (fread_app _ _ 24) by (rewrite L; reflexivity). rewrite E.
  pose proof W as (_ & W2 & W3 & _). cbn [entry_of e_rows e_cols e_name].
  destruct (N.eqb_spec (f_rows f) 0); [lia|]. destruct (N.eqb_spec (f_cols f) 0); [lia|]. cbn [orb].
  destruct id as [i|].
  - destruct HI as (-> & Hi & Hn). rewrite (cstring_cstr _ _ Hn).
    assert (Q : name2id (td_name i) = Some i) by (apply name2id_some; auto). rewrite Q.
    assert (F' : fresh (with_flag m (Nat.even i))).
    { destruct F as (F1 & F2 & F3 & F4). unfold fresh. simpl. auto. }
    destruct (read_data_ok me conv (with_flag m (Nat.even i)) f tl F' W HC HM HT) as (m2 & E2 & H2).
    rewrite E2. cbn [obind]. exists m2. split; [reflexivity|exact H2].
  - subst td. destruct (read_data_ok me conv m f tl F W HC HM HT) as (m2 & E2 & H2).
    rewrite E2. cbn [obind]. exists m2. split; [reflexivity|exact H2].
Qed.

Lemma read_data_inv me conv m e tl r : native_ok -> fresh m -> (0 < e_rows e)%N -> (0 < e_cols e)%N -> length (e_name e) = 15 ->
  read_data one native dec me conv m e tl = Some r -> rd_code r = Success -> small (rd_m r) ->
  exists es, wf_field (field_of e es) /\ tl = concat es ++ rd_rest r /\ rd_leak r = false /\
    holds_field one dec (rd_m r) (field_of e es) (s_bias m).
Proof.
  intros Hnative F Hr Hc Hn E Es HS.
  destruct (read_data_shape one native dec me conv m e tl r F Hr Hc E Es) as ([(Z1 & Z2 & Z3 & Z4 & Z5) _] & D1 & D2).
  assert (DO : dims_ok m e).
  { split; [exact D1|]. split; [exact D2|]. unfold small in HS. rewrite Z1, Z2 in HS. rewrite N_b2n.
    replace (e_rows e * _)%N with (N.of_nat (N.to_nat (e_rows e) * (N.to_nat (e_cols e) + Nat.b2n (s_bias m)))) by lia. exact HS. }
  destruct (read_data_outcome one native dec me conv m e tl F DO Hr Hc) as (r' & E' & O).
  rewrite E in E'. injection E' as <-.
  destruct O as [m1 H|m1 H1 H2 H3 H4|m1 H1 H2 H3 H4|m1 lk H1 H2 H3 H4 H5|m2 es f' H1 H2 H3 H4 H5 H6]; try discriminate.
  exists es. split; [|split; [exact H3|split; [reflexivity|exact H6]]].
  unfold wf_field, field_of. cbn [f_name f_rows f_cols f_type f_elems].
  split; [exact Hn|]. split; [lia|]. split; [lia|]. split; [|split; assumption].
  destruct H2 as [->|[H2 _]]; assumption.
Qed.

Lemma read_field_inv me conv m td f r id : native_ok -> fresh m -> (td = true -> s_bir m = false) -> Forall is_byte f ->
  read_field one native dec me conv m td f = Some (r, id) -> rd_code r = Success -> small (rd_m r) ->
  exists fl, wf_field fl /\ f = bytes_of_field fl ++ rd_rest r /\ rd_leak r = false /\
    holds_field one dec (rd_m r) fl (bias_of m id) /\
    match id with Some i => td = true /\ i < 4 /\ is_cstring (f_name fl) (td_name i) | None => td = false end.
Proof.
  intros Hnative F FB B. unfold read_field. rewrite (fresh_empty m F). cbn [negb].
  destruct (fread 24 f) as [[d f1]|] eqn:Ef; [|intros E; injection E as <- <-; discriminate].
  apply fread_inv in Ef. destruct Ef as [-> L]. apply Forall_app in B. destruct B as [Bd B1].
  assert (L' : length d = 24) by lia.
  destruct (entry_bytes_parse d L' Bd) as (Ed & Ln & _ & _ & _).
  set (e := parse_entry d) in *.
  destruct (N.eqb_spec (e_rows e) 0); [intros E; injection E as <- <-; discriminate|].
  destruct (N.eqb_spec (e_cols e) 0); [intros E; injection E as <- <-; discriminate|]. cbn [orb].
  assert (K : forall m' i, fresh m' -> forall r es, f1 = concat es ++ rd_rest r ->
    holds_field one dec (rd_m r) (field_of e es) (s_bias m') -> wf_field (field_of e es) -> s_bias m' = bias_of m i ->
    wf_field (field_of e es) /\ d ++ f1 = bytes_of_field (field_of e es) ++ rd_rest r /\
    holds_field one dec (rd_m r) (field_of e es) (bias_of m i)).
  { intros m' i F' r0 es E1 H1 W EB. split; [exact W|]. split.
    - rewrite bytes_split. unfold field_of. cbn [f_rows f_cols f_name f_type f_elems]. rewrite <- Ed, <- E1. reflexivity.
    - rewrite <- EB. exact H1. }
  destruct td.
  - destruct (name2id (cstr (e_name e))) as [i|] eqn:Ei; [|intros E; injection E as <- <-; discriminate].
    destruct (read_data _ _ _ _ _ _ _ _) as [r'|] eqn:Er; [|discriminate]. cbn [obind].
    intros E; injection E as -> <-. intros Es HS.
    assert (F' : fresh (with_flag m (Nat.even i))).
    { destruct F as (F1 & F2 & F3 & F4). unfold fresh. simpl. auto. }
    destruct (read_data_inv me conv _ e f1 r Hnative F' ltac:(lia) ltac:(lia) Ln Er Es HS) as (es & W & E1 & LK & H1).
    destruct (K _ (Some i) F' r es E1 H1 W eq_refl) as (K1 & K2 & K3).
    exists (field_of e es). split; [exact K1|]. split; [exact K2|]. split; [exact LK|]. split; [exact K3|].
    apply name2id_some in Ei. destruct Ei as [Hi Hs]. split; [reflexivity|]. split; [exact Hi|].
    rewrite <- Hs. apply cstr_spec.
  - destruct (read_data _ _ _ _ _ _ _ _) as [r'|] eqn:Er; [|discriminate]. cbn [obind].
    intros E; injection E as -> <-. intros Es HS.
    destruct (read_data_inv me conv m e f1 r Hnative F ltac:(lia) ltac:(lia) Ln Er Es HS) as (es & W & E1 & LK & H1).
    destruct (K _ None F r es E1 H1 W eq_refl) as (K1 & K2 & K3).
    exists (field_of e es). auto.
Qed.

(** Undefined behaviour needs a huge field. *)
Lemma read_field_total me conv m td f : fresh m -> (td = true -> s_bir m = false) -> Forall is_byte f ->
  read_field one native dec me conv m td f = None ->
  exists r c name post, f = enc_int 4 r ++ enc_int 4 c ++ name ++ post /\ length name = 16 /\
    (r < 2 ^ 31)%N /\ (c < 2 ^ 31)%N /\ ~ countable r c.
Proof.
  intros F FB B. unfold read_field. rewrite (fresh_empty m F). cbn [negb].
  destruct (fread 24 f) as [[d f1]|] eqn:Ef; [|discriminate].
  apply fread_inv in Ef. destruct Ef as [-> L]. apply Forall_app in B. destruct B as [Bd B1].
  assert (L' : length d = 24) by lia.
  destruct (entry_bytes_parse d L' Bd) as (Ed & Ln & _ & _ & _).
  set (e := parse_entry d) in *.
  destruct (N.eqb_spec (e_rows e) 0); [discriminate|].
  destruct (N.eqb_spec (e_cols e) 0); [discriminate|]. cbn [orb].
  assert (K : forall m', fresh m' -> read_data one native dec me conv m' e f1 = None ->
    exists r c name post, d ++ f1 = enc_int 4 r ++ enc_int 4 c ++ name ++ post /\ length name = 16 /\
    (r < 2 ^ 31)%N /\ (c < 2 ^ 31)%N /\ ~ countable r c).
  { intros m' F' E.
    destruct (N.lt_ge_cases (e_rows e) (2 ^ 31)) as [R|R];
      [|rewrite read_data_big in E by (left; exact R); discriminate].
    destruct (N.lt_ge_cases (e_cols e) (2 ^ 31)) as [C|C];
      [|rewrite read_data_big in E by (right; exact C); discriminate].
    exists (e_rows e), (e_cols e), (e_name e ++ [e_type e]), f1. split.
    - rewrite Ed at 1. unfold entry_bytes. rewrite <- !app_assoc. reflexivity.
    - split; [rewrite app_length, Ln; reflexivity|]. split; [exact R|]. split; [exact C|].
      intros [C1 C2]. assert (DO : dims_ok m' e).
      { assert (N.b2n (s_bias m') <= 1)%N by (destruct (s_bias m'); simpl; lia).
        split; [exact R|]. split; [lia|]. nia. }
      destruct (read_data_outcome one native dec me conv m' e f1 F' DO ltac:(lia) ltac:(lia)) as (r & Er & _).
      congruence. }
  destruct td.
  - destruct (name2id (cstr (e_name e))) as [i|] eqn:Ei; [|discriminate].
    destruct (read_data _ _ _ _ _ _ _ _) as [r'|] eqn:Er; [discriminate|]. intros _.
    eapply K; [|exact Er]. destruct F as (F1 & F2 & F3 & F4). unfold fresh. simpl. auto.
  - destruct (read_data _ _ _ _ _ _ _ _) as [r'|] eqn:Er; [discriminate|]. intros _. eapply K; eauto.
Qed.

Lemma huge_app pre f r c name post :
  f = enc_int 4 r ++ enc_int 4 c ++ name ++ post -> length name = 16 ->
  (r < 2 ^ 31)%N -> (c < 2 ^ 31)%N -> ~ countable r c -> announces_huge (pre ++ f).
Proof. intros -> L R C H. exists pre, r, c, name, post. auto. Qed.

(** ** Matrices *)
Theorem matrix_round_trip me conv m f tl :
  fresh m -> wf_field f -> countable (f_rows f) (f_cols f) -> me <> None -> (conv = true \/ f_type f = native) ->
  exists m2, read_matrix one native dec me conv m (header_bytes 1 0 ++ bytes_of_field f ++ tl) =
    Some (Success, m2, false) /\ holds_field one dec m2 f (s_bias m).
Proof.
  intros F W HC HM HT. unfold read_matrix. rewrite read_header_bytes by reflexivity.
  unfold read_into_matrix. cbn [h_fields h_classes]. cbn [N.eqb Pos.eqb negb].
  destruct (read_field_ok me conv m false f tl None F ltac:(discriminate) W HC HM HT eq_refl) as (m2 & E & H).
  rewrite E. cbn [obind rd_code rd_m rd_leak]. exists m2. split; [reflexivity|exact H].
Qed.

Theorem matrix_sound me conv m f m2 lk : native_ok -> fresh m -> Forall is_byte f ->
  read_matrix one native dec me conv m f = Some (Success, m2, lk) -> small m2 ->
  lk = false /\ exists fl tl, wf_field fl /\ f = header_bytes 1 0 ++ bytes_of_field fl ++ tl /\
    holds_field one dec m2 fl (s_bias m).
Proof.
  intros Hnative F B. unfold read_matrix. destruct (read_header f) as [c|[h f1]] eqn:E.
  { intros E1. injection E1 as -> <- <-. exfalso. unfold read_header in E.
    destruct (fread 10 f) as [[d f1]|]; [|discriminate]. destruct (negb _); [discriminate|].
    destruct (negb _); discriminate. }
  destruct (read_header_inv f h f1 B E) as (Ef & _ & _). unfold read_into_matrix.
  destruct (N.eqb_spec (h_fields h) 1) as [E1|E1]; cbn [negb]; [|discriminate].
  destruct (N.eqb_spec (h_classes h) 0) as [E2|E2]; cbn [negb]; [|discriminate].
  destruct (read_field _ _ _ _ _ _ _ _) as [[r id]|] eqn:Er; [|discriminate]. cbn [obind].
  intros E3 HS. injection E3 as E3 <- <-. rewrite Ef in B. apply Forall_app in B. destruct B as [_ B1].
  destruct (read_field_inv me conv m false f1 r id Hnative F ltac:(discriminate) B1 Er E3 HS) as (fl & W & Q & LK & H & HI).
  split; [exact LK|]. exists fl, (rd_rest r). split; [exact W|]. split; [congruence|].
  destruct id; [destruct HI; discriminate|exact H].
Qed.

Theorem matrix_total me conv m f : fresh m -> Forall is_byte f ->
  read_matrix one native dec me conv m f = None -> announces_huge f.
Proof.
  intros F B. unfold read_matrix. destruct (read_header f) as [c|[h f1]] eqn:E; [discriminate|].
  destruct (read_header_inv f h f1 B E) as (Ef & _ & _). unfold read_into_matrix.
  destruct (negb _); [discriminate|]. destruct (negb _); [discriminate|].
  destruct (read_field _ _ _ _ _ _ _ _) as [[r id]|] eqn:Er; [discriminate|]. intros _.
  rewrite Ef in *. apply Forall_app in B. destruct B as [_ B1].
  destruct (read_field_total me conv m false f1 F ltac:(discriminate) B1 Er) as (r & c & name & post & E1 & L & R & C & H).
  eapply huge_app; eauto.
Qed.

(** ** Train data *)
Lemma holds_nonempty m f b : holds_field one dec m f b -> empty m = false.
Proof. intros (_ & _ & _ & _ & (_ & _ & l & D & _) & _). unfold empty. rewrite D. reflexivity. Qed.

Lemma td_loop_ok (ps : list (nat * field)) : forall ms cs mx tl,
  NoDup (map fst ps) -> length mx = 4 ->
  (forall i f, In (i, f) ps -> i < 4 /\ wf_field f /\ countable (f_rows f) (f_cols f) /\
     is_cstring (f_name f) (td_name i) /\ (forall m, bget mx i = Some m -> empty m = true)) ->
  (forall i, ms i <> None) -> (forall i, cs i = true) ->
  exists mx', td_loop one native dec (length ps) ms cs mx (concat (map (fun p => bytes_of_field (snd p)) ps) ++ tl) =
    Some (Success, mx', false) /\ length mx' = 4 /\
    (forall i f, In (i, f) ps -> exists m, bget mx' i = Some m /\ holds_field one dec m f (Nat.even i)) /\
    (forall i, ~ In i (map fst ps) -> bget mx' i = bget mx i).
Proof.
  induction ps as [|[i f] ps IH]; intros ms cs mx tl ND L HP HM HC.
  - exists mx. simpl. split; [reflexivity|]. split; [exact L|]. split; [intros ? ? []|reflexivity].
  - cbn [length td_loop map concat snd]. rewrite <- app_assoc.
    destruct (HP i f (or_introl eq_refl)) as (Hi & W & Cn & Hs & He).
    destruct (read_field_ok (ms 0) (cs 0) init true f (concat (map (fun p => bytes_of_field (snd p)) ps) ++ tl) (Some i))
      as (m2 & E & H); auto; [apply (fresh_init false)|].
    rewrite E. cbn [obind rd_code is_success negb].
    destruct (bget_lt mx i ltac:(lia)) as (old & Eo). rewrite Eo. cbn [obind]. rewrite (He old Eo). cbn [negb rd_m].
    destruct (bset_lt mx i m2 ltac:(lia)) as (mx1 & E1). rewrite E1. cbn [obind rd_rest rd_leak orb].
    destruct (bset_some _ _ _ _ E1) as (_ & L1 & G1).
    simpl in ND. inversion ND as [|x l N1 N2]; subst.
    destruct (IH (fun i => ms (S i)) (fun i => cs (S i)) mx1 tl) as (mx' & E2 & L2 & G2 & G3); auto.
    + congruence.
    + intros j g Hj. destruct (HP j g (or_intror Hj)) as (A1 & A2 & A3 & A4 & A5).
      split; [exact A1|]. split; [exact A2|]. split; [exact A3|]. split; [exact A4|].
      intros m. rewrite G1. destruct (Nat.eqb_spec j i) as [->|Hne]; [|apply A5].
      exfalso. apply N1. apply (in_map fst) in Hj. exact Hj.
    + rewrite E2. cbn [obind]. exists mx'. split; [reflexivity|]. split; [exact L2|]. split.
      * intros j g [Ej|Hj]; [|apply G2; exact Hj]. injection Ej as <- <-.
        exists m2. split; [|exact H]. rewrite (G3 i N1), G1, Nat.eqb_refl. reflexivity.
      * intros j Hj. simpl in Hj. rewrite G3, G1 by tauto.
        destruct (Nat.eqb_spec j i); [subst; tauto|reflexivity].
Qed.

Theorem td_round_trip ms cs dest fs fx fy ex ey tl :
  td_fields fs fx fy ex ey -> td_coherent fx fy ex ey ->
  Forall (fun f => countable (f_rows f) (f_cols f)) fs ->
  (forall i, ms i <> None) -> (forall i, cs i = true) ->
  exists S, read_td one native dec ms cs dest (td_bytes fs ++ tl) = Some (Success, S, false) /\
    holds_td one dec S fx fy ex ey.
Proof.
  intros (P & W & N0 & N1 & N2 & N3) (C1 & C2 & C3 & C4) HC HM HV.
  unfold read_td, td_bytes. rewrite <- app_assoc. rewrite read_header_bytes by reflexivity.
  unfold read_into_td. cbn [h_fields h_classes]. cbn [N.eqb Pos.eqb negb].
  set (base := [(0, fx); (1, fy); (2, ex); (3, ey)]).
  change [fx; fy; ex; ey] with (map snd base) in P.
  destruct (Permutation_map_inv _ _ P) as (ps & -> & P').
  assert (L : length ps = 4) by (rewrite <- (Permutation_length P'); reflexivity).
  replace (td_loop one native dec 4) with (td_loop one native dec (length ps)) by (rewrite L; reflexivity).
  rewrite map_map.
  destruct (td_loop_ok ps ms cs (repeat init 4) tl) as (mx & E & LM & G & _); auto.
  - eapply Permutation_NoDup; [apply Permutation_map; exact P'|]. simpl.
    repeat constructor; simpl; intuition discriminate.
  - intros i f Hf. assert (Hb : In (i, f) base) by (eapply Permutation_in; [apply Permutation_sym; exact P'|exact Hf]).
    assert (Hin : In f (map snd ps)) by (apply (in_map snd) in Hf; exact Hf).
    rewrite Forall_forall in W, HC. specialize (W f Hin). specialize (HC f Hin).
    assert (HE : forall m, bget (repeat (@init A) 4) i = Some m -> empty m = true).
    { intros m Hm. unfold bget in Hm. apply nth_error_In, repeat_spec in Hm. subst m. reflexivity. }
    simpl in Hb. destruct Hb as [Q|[Q|[Q|[Q|[]]]]]; injection Q as <- <-;
      (split; [lia|]); (split; [exact W|]); (split; [exact HC|]); (split; [assumption|exact HE]).
  - rewrite E. cbn [obind is_success negb].
    destruct mx as [|a [|b [|c [|d [|]]]]]; try discriminate.
    assert (GG : forall i f, In (i, f) base -> exists m, bget [a; b; c; d] i = Some m /\ holds_field one dec m f (Nat.even i)).
    { intros i f Hf. apply G. eapply Permutation_in; eauto. }
    destruct (GG 0 fx ltac:(simpl; auto)) as (m0 & Q0 & H0). injection Q0 as <-.
    destruct (GG 1 fy ltac:(simpl; auto)) as (m1 & Q1 & H1). injection Q1 as <-.
    destruct (GG 2 ex ltac:(simpl; auto)) as (m2 & Q2 & H2). injection Q2 as <-.
    destruct (GG 3 ey ltac:(simpl; auto)) as (m3 & Q3 & H3). injection Q3 as <-.
    pose proof (holds_nonempty _ _ _ H0) as Z0. pose proof (holds_nonempty _ _ _ H1) as Z1.
    pose proof (holds_nonempty _ _ _ H2) as Z2. pose proof (holds_nonempty _ _ _ H3) as Z3.
    pose proof H0 as (R0 & K0 & B0 & X0 & _). pose proof H1 as (R1 & K1 & B1 & X1 & _).
    pose proof H2 as (R2 & K2 & B2 & X2 & _). pose proof H3 as (R3 & K3 & B3 & X3 & _).
    assert (Ok : absorbsion_will_succeed a b c d = true).
    { unfold absorbsion_will_succeed. rewrite Z0, Z1, Z2, Z3, B0, B1, B2, B3, X0, X1, X2, X3.
      cbn [negb andb Nat.even N.b2n] in *.
      rewrite !andb_true_iff, !Nat.eqb_eq. repeat split; lia. }
    unfold absorb. rewrite Ok. eexists. split; [reflexivity|]. unfold holds_td. cbn [x0 x1 y0 y1]. auto.
Qed.

Lemma read_field_nonempty me conv m td f r id : fresh m -> (td = true -> s_bir m = false) ->
  read_field one native dec me conv m td f = Some (r, id) -> rd_code r = Success -> empty (rd_m r) = false.
Proof.
  intros F FB. unfold read_field. rewrite (fresh_empty m F). cbn [negb].
  destruct (fread 24 f) as [[d f1]|] eqn:Ef; [|intros E; injection E as <- <-; discriminate].
  destruct (N.eqb_spec (e_rows (parse_entry d)) 0); [intros E; injection E as <- <-; discriminate|].
  destruct (N.eqb_spec (e_cols (parse_entry d)) 0); [intros E; injection E as <- <-; discriminate|]. cbn [orb].
  destruct td.
  - destruct (name2id _) as [i|]; [|intros E; injection E as <- <-; discriminate].
    destruct (read_data _ _ _ _ _ _ _ _) as [r'|] eqn:Er; [|discriminate]. cbn [obind].
    intros E Es. injection E as -> <-.
    eapply read_data_shape in Er; eauto; [apply Er|destruct F as (F1 & F2 & F3 & F4); unfold fresh; simpl; auto|lia|lia].
  - destruct (read_data _ _ _ _ _ _ _ _) as [r'|] eqn:Er; [|discriminate]. cbn [obind].
    intros E Es. injection E as -> <-.
    eapply read_data_shape in Er; eauto; [apply Er|lia|lia].
Qed.

Lemma is_success_true c : is_success c = true -> c = Success.
Proof. destruct c; simpl; congruence. Qed.

Lemma td_loop_keeps n : forall ms cs mx f mx' lk i m,
  td_loop one native dec n ms cs mx f = Some (Success, mx', lk) ->
  bget mx i = Some m -> empty m = false -> bget mx' i = Some m.
Proof.
  induction n as [|n IH]; intros ms cs mx f mx' lk i m E Hm He.
  - simpl in E. injection E as <- <-. exact Hm.
  - cbn [td_loop] in E. destruct (read_field _ _ _ _ _ _ _ _) as [[r id]|]; [|discriminate]. cbn [obind] in E.
    destruct (is_success (rd_code r)) eqn:Es; cbn [negb] in E; [|injection E as E _ _; rewrite E in Es; discriminate].
    destruct id as [k|]; [|discriminate]. cbn [obind] in E.
    destruct (bget mx k) as [old|] eqn:Eo; [|discriminate]. cbn [obind] in E.
    destruct (empty old) eqn:Ee; cbn [negb] in E; [|discriminate].
    destruct (bset mx k (rd_m r)) as [mx1|] eqn:E1; [|discriminate]. cbn [obind] in E.
    destruct (td_loop _ _ _ n _ _ mx1 _) as [[[c mx2] lk2]|] eqn:E2; [|discriminate]. cbn [obind] in E.
    injection E as -> -> _. destruct (bset_some _ _ _ _ E1) as (_ & _ & G1).
    eapply IH; [exact E2| |exact He]. rewrite G1. destruct (Nat.eqb_spec i k); [subst; congruence|exact Hm].
Qed.

Lemma td_loop_inv n : native_ok -> forall ms cs mx f mx' lk,
  Forall is_byte f -> td_loop one native dec n ms cs mx f = Some (Success, mx', lk) ->
  (forall i m, bget mx' i = Some m -> small m) ->
  lk = false /\ length mx' = length mx /\
  exists ps tl, length ps = n /\ f = concat (map (fun p => bytes_of_field (snd p)) ps) ++ tl /\ NoDup (map fst ps) /\
    forall i fl, In (i, fl) ps -> i < 4 /\ wf_field fl /\ is_cstring (f_name fl) (td_name i) /\
      (exists m, bget mx i = Some m /\ empty m = true) /\
      exists m, bget mx' i = Some m /\ holds_field one dec m fl (Nat.even i).
Proof.
  intros Hnative. induction n as [|n IH]; intros ms cs mx f mx' lk B E HS.
  - simpl in E. injection E as <- <-. split; [reflexivity|]. split; [reflexivity|].
    exists [], f. simpl. split; [reflexivity|]. split; [reflexivity|]. split; [constructor|intros ? ? []].
  - cbn [td_loop] in E. destruct (read_field _ _ _ _ _ _ _ _) as [[r id]|] eqn:Er; [|discriminate]. cbn [obind] in E.
    destruct (is_success (rd_code r)) eqn:Es; cbn [negb] in E; [|injection E as E _ _; rewrite E in Es; discriminate].
    apply is_success_true in Es.
    destruct id as [k|]; [|discriminate]. cbn [obind] in E.
    destruct (bget mx k) as [old|] eqn:Eo; [|discriminate]. cbn [obind] in E.
    destruct (empty old) eqn:Ee; cbn [negb] in E; [|discriminate].
    destruct (bset mx k (rd_m r)) as [mx1|] eqn:E1; [|discriminate]. cbn [obind] in E.
    destruct (td_loop _ _ _ n _ _ mx1 _) as [[[c mx2] lk2]|] eqn:E2; [|discriminate]. cbn [obind] in E.
    injection E as -> -> <-. destruct (bset_some _ _ _ _ E1) as (Hk & L1 & G1).
    pose proof (fresh_init false) as FI. change (with_flag init false) with (@init A) in FI.
    pose proof (read_field_nonempty _ _ _ _ _ _ _ FI ltac:(reflexivity) Er Es) as NE.
    assert (G2 : bget mx' k = Some (rd_m r)).
    { eapply td_loop_keeps; [exact E2| |exact NE]. rewrite G1, Nat.eqb_refl. reflexivity. }
    destruct (read_field_inv _ _ _ _ _ _ _ Hnative FI ltac:(reflexivity) B Er Es (HS _ _ G2)) as (fl & W & Ef & LK & H & _ & K4 & Hn).
    assert (B1 : Forall is_byte (rd_rest r)) by (rewrite Ef in B; apply Forall_app in B; apply B).
    destruct (IH _ _ _ _ _ _ B1 E2 HS) as (-> & L2 & ps & tl & L3 & Ef2 & ND & HP).
    split; [rewrite LK; reflexivity|]. split; [congruence|].
    assert (NI : ~ In k (map fst ps)).
    { intros HI. apply in_map_iff in HI. destruct HI as ([k' g] & Q & HI). simpl in Q. subst k'.
      destruct (HP k g HI) as (_ & _ & _ & (m & Hm & Hem) & _). rewrite G1, Nat.eqb_refl in Hm. congruence. }
    exists ((k, fl) :: ps), tl. split; [simpl; congruence|]. split.
    { cbn [map concat snd]. rewrite <- app_assoc, <- Ef2. exact Ef. }
    split; [simpl; constructor; assumption|].
    intros i g [Q|HI].
    + injection Q as <- <-. split; [exact K4|]. split; [exact W|]. split; [exact Hn|].
      split; [exists old; auto|]. exists (rd_m r). split; [exact G2|exact H].
    + destruct (HP i g HI) as (P1 & P2 & P3 & (m & P4 & P5) & P6).
      split; [exact P1|]. split; [exact P2|]. split; [exact P3|]. split; [|exact P6].
      rewrite G1 in P4. destruct (Nat.eqb_spec i k); [injection P4 as <-; congruence|]. eauto.
Qed.

Theorem td_sound ms cs dest f S lk : native_ok -> Forall is_byte f ->
  read_td one native dec ms cs dest f = Some (Success, S, lk) ->
  small (x0 S) -> small (x1 S) -> small (y0 S) -> small (y1 S) ->
  lk = false /\ exists fs fx fy ex ey tl, f = td_bytes fs ++ tl /\ td_fields fs fx fy ex ey /\
    td_coherent fx fy ex ey /\ holds_td one dec S fx fy ex ey.
Proof.
  intros Hnative B. unfold read_td. destruct (read_header f) as [c|[h f1]] eqn:E.
  { intros E1. injection E1 as -> <- <-. exfalso. unfold read_header in E.
    destruct (fread 10 f) as [[d f1]|]; [|discriminate]. destruct (negb _); [discriminate|].
    destruct (negb _); discriminate. }
  destruct (read_header_inv f h f1 B E) as (Ef & _ & _). unfold read_into_td.
  destruct (N.eqb_spec (h_fields h) 4) as [E1|E1]; cbn [negb]; [|discriminate].
  destruct (N.eqb_spec (h_classes h) 0) as [E2|E2]; cbn [negb]; [|discriminate].
  destruct (td_loop _ _ _ _ _ _ _ _) as [[[c mx] lk1]|] eqn:Er; [|discriminate]. cbn [obind].
  destruct (is_success c) eqn:Es; cbn [negb]; [|intros Q; injection Q as -> <- <-; discriminate].
  apply is_success_true in Es. subst c.
  destruct mx as [|a [|b [|c [|d [|]]]]]; try discriminate.
  unfold absorb. destruct (absorbsion_will_succeed a b c d) eqn:Ok; [|discriminate].
  intros Q S0 S1 S2 S3. injection Q as <- <-. cbn [x0 x1 y0 y1] in *.
  rewrite Ef in B. apply Forall_app in B. destruct B as [_ B1].
  destruct (td_loop_inv _ Hnative _ _ _ _ _ _ B1 Er) as (LK & _ & ps & tl & L & Q & ND & HP).
  { intros i m Hm. destruct i as [|[|[|[|i]]]]; simpl in Hm; [injection Hm as <-; assumption..|].
    unfold bget in Hm. simpl in Hm. destruct i; discriminate. }
  split; [exact LK|].
  assert (PI : Permutation (map fst ps) [0; 1; 2; 3]).
  { apply NoDup_Permutation_bis; [exact ND|rewrite map_length, L; simpl; lia|].
    intros i Hi. apply in_map_iff in Hi. destruct Hi as ([j g] & Ej & Hi). simpl in Ej. subst j.
    destruct (HP i g Hi) as (Hi4 & _). destruct i as [|[|[|[|]]]]; simpl; auto; lia. }
  destruct (Permutation_map_inv fst ps (Permutation_sym PI)) as (qs & Eq & PQ).
  destruct qs as [|[i0 fx] [|[i1 fy] [|[i2 ex] [|[i3 ey] [|]]]]]; try discriminate.
  simpl in Eq. injection Eq as <- <- <- <-.
  assert (HQ : forall i fl, In (i, fl) [(0, fx); (1, fy); (2, ex); (3, ey)] ->
     wf_field fl /\ is_cstring (f_name fl) (td_name i) /\
     exists m, bget [a; b; c; d] i = Some m /\ holds_field one dec m fl (Nat.even i)).
  { intros i fl Hi. apply (Permutation_in _ (Permutation_sym PQ)) in Hi. destruct (HP i fl Hi) as (_ & P2 & P3 & _ & P6). auto. }
  destruct (HQ 0 fx ltac:(simpl; auto)) as (W0 & N0 & m0 & Q0 & H0). injection Q0 as <-.
  destruct (HQ 1 fy ltac:(simpl; auto)) as (W1 & N1 & m1 & Q1 & H1). injection Q1 as <-.
  destruct (HQ 2 ex ltac:(simpl; auto)) as (W2 & N2 & m2 & Q2 & H2). injection Q2 as <-.
  destruct (HQ 3 ey ltac:(simpl; auto)) as (W3 & N3 & m3 & Q3 & H3). injection Q3 as <-.
  exists (map snd ps), fx, fy, ex, ey, tl. split.
  { unfold td_bytes. rewrite Ef, E1, E2, <- app_assoc, map_map. congruence. }
  split.
  { split; [apply (Permutation_map snd) in PQ; exact PQ|]. split; [|auto].
    apply Forall_forall. intros g Hg. apply in_map_iff in Hg. destruct Hg as ([j g'] & Ej & Hg). simpl in Ej. subst g'.
    apply (HP j g Hg). }
  split; [|unfold holds_td; cbn [x0 x1 y0 y1]; auto].
  unfold absorbsion_will_succeed in Ok. rewrite !andb_true_iff, !Nat.eqb_eq in Ok.
  pose proof H0 as (R0 & K0 & B0 & _). pose proof H1 as (R1 & K1 & BB1 & _).
  pose proof H2 as (R2 & K2 & B2 & _). pose proof H3 as (R3 & K3 & B3 & _).
  cbn [Nat.even N.b2n] in *. unfold td_coherent. repeat split; lia.
Qed.

Theorem td_unchanged ms cs dest f c S lk :
  read_td one native dec ms cs dest f = Some (c, S, lk) -> c <> Success -> S = dest.
Proof.
  unfold read_td. destruct (read_header f) as [e|[h f1]]; [intros E; injection E; auto|].
  unfold read_into_td. destruct (negb _); [intros E; injection E; auto|].
  destruct (negb _); [intros E; injection E; auto|].
  destruct (td_loop _ _ _ _ _ _ _ _) as [[[e mx] lk1]|]; [|discriminate]. cbn [obind].
  destruct (negb _); [intros E; injection E; auto|].
  destruct mx as [|p [|q [|r [|s [|]]]]]; try discriminate.
  unfold absorb. destruct (absorbsion_will_succeed p q r s); intros E Hc; injection E as <- <- <-; congruence.
Qed.

Lemma read_data_suffix me conv m e f r : read_data one native dec me conv m e f = Some r ->
  exists pre, f = pre ++ rd_rest r.
Proof.
  unfold read_data. destruct (resize_file _ _ _ _ _ _) as [[ok m1]|]; [|discriminate]. cbn [obind].
  assert (K0 : exists pre, f = pre ++ f) by (exists []; reflexivity).
  assert (K1 : exists pre, f = pre ++ []) by (exists f; symmetry; apply app_nil_r).
  destruct (negb ok); [intros E; injection E as <-; exact K0|].
  destruct (e_type e =? native)%N.
  - destruct (fread _ f) as [[d f']|] eqn:Ef; [|intros E; injection E as <-; exact K1].
    destruct (store_first _ _ _); [|discriminate]. cbn [obind]. intros E; injection E as <-.
    apply fread_inv in Ef. exists d. apply Ef.
  - destruct (negb _); [intros E; injection E as <-; exact K0|]. destruct (negb conv); [intros E; injection E as <-; exact K0|].
    destruct (fread _ f) as [[d f']|] eqn:Ef; [|intros E; injection E as <-; exact K1].
    destruct (store_first _ _ _); [|discriminate]. cbn [obind]. intros E; injection E as <-.
    apply fread_inv in Ef. exists d. apply Ef.
Qed.

Lemma read_field_suffix me conv m td f r id : read_field one native dec me conv m td f = Some (r, id) ->
  (exists pre, f = pre ++ rd_rest r) /\ (rd_code r = Success -> td = true -> exists k, id = Some k /\ k < 4).
Proof.
  unfold read_field. destruct (negb (empty m)).
  { intros E; injection E as <- <-. split; [exists []; reflexivity|discriminate]. }
  destruct (fread 24 f) as [[d f1]|] eqn:Ef.
  2:{ intros E; injection E as <- <-. split; [exists f; symmetry; apply app_nil_r|discriminate]. }
  apply fread_inv in Ef. destruct Ef as [-> _].
  destruct (_ || _); [intros E; injection E as <- <-; split; [exists d; reflexivity|discriminate]|].
  destruct td.
  - destruct (name2id _) as [k|] eqn:Ek; [|intros E; injection E as <- <-; split; [exists d; reflexivity|discriminate]].
    destruct (read_data _ _ _ _ _ _ _ _) as [r'|] eqn:Er; [|discriminate]. cbn [obind].
    intros E; injection E as -> <-. apply read_data_suffix in Er. destruct Er as (pre & ->).
    split; [exists (d ++ pre); rewrite <- app_assoc; reflexivity|].
    intros _ _. exists k. split; [reflexivity|]. apply name2id_some in Ek. apply Ek.
  - destruct (read_data _ _ _ _ _ _ _ _) as [r'|] eqn:Er; [|discriminate]. cbn [obind].
    intros E; injection E as -> <-. apply read_data_suffix in Er. destruct Er as (pre & ->).
    split; [exists (d ++ pre); rewrite <- app_assoc; reflexivity|discriminate].
Qed.

Lemma huge_suffix pre f : announces_huge f -> announces_huge (pre ++ f).
Proof.
  intros (p & r & c & name & post & -> & L & R & C & H). exists (pre ++ p), r, c, name, post.
  split; [rewrite <- app_assoc; reflexivity|auto].
Qed.

Lemma td_loop_total n : forall ms cs mx f, Forall is_byte f -> length mx = 4 ->
  td_loop one native dec n ms cs mx f = None -> announces_huge f.
Proof.
  induction n as [|n IH]; intros ms cs mx f B L E; [discriminate|]. cbn [td_loop] in E.
  pose proof (fresh_init false) as FI. change (with_flag init false) with (@init A) in FI.
  destruct (read_field _ _ _ _ _ _ _ _) as [[r id]|] eqn:Er.
  2:{ destruct (read_field_total _ _ _ _ _ FI ltac:(reflexivity) B Er) as (r & c & name & post & E1 & Ln & R & C & H).
      rewrite <- (app_nil_l f). eapply huge_app; eauto. }
  cbn [obind] in E. destruct (is_success (rd_code r)) eqn:Es; cbn [negb] in E; [|discriminate].
  apply is_success_true in Es. apply read_field_suffix in Er. destruct Er as [(pre & Ep) Hid].
  destruct (Hid Es eq_refl) as (k & -> & Hk). cbn [obind] in E.
  destruct (bget_lt mx k ltac:(lia)) as (old & Eo). rewrite Eo in E. cbn [obind] in E.
  destruct (negb (empty old)); [discriminate|].
  destruct (bset_lt mx k (rd_m r) ltac:(lia)) as (mx1 & E1). rewrite E1 in E. cbn [obind] in E.
  destruct (td_loop _ _ _ n _ _ mx1 _) as [[[c mx2] lk2]|] eqn:E2; [discriminate|].
  rewrite Ep in *. apply Forall_app in B. destruct B as [_ B1]. apply huge_suffix.
  eapply IH; [exact B1| |exact E2]. apply bset_length in E1. congruence.
Qed.

Lemma td_loop_len n : forall ms cs mx f c mx' lk,
  td_loop one native dec n ms cs mx f = Some (c, mx', lk) -> length mx' = length mx.
Proof.
  induction n as [|n IH]; intros ms cs mx f c mx' lk E; [simpl in E; injection E as _ <- _; reflexivity|].
  cbn [td_loop] in E. destruct (read_field _ _ _ _ _ _ _ _) as [[r id]|]; [|discriminate]. cbn [obind] in E.
  destruct (negb _); [injection E as _ <- _; reflexivity|].
  destruct id as [k|]; [|discriminate]. cbn [obind] in E.
  destruct (bget mx k) as [old|]; [|discriminate]. cbn [obind] in E.
  destruct (negb _); [injection E as _ <- _; reflexivity|].
  destruct (bset mx k (rd_m r)) as [mx1|] eqn:E1; [|discriminate]. cbn [obind] in E.
  destruct (td_loop _ _ _ n _ _ mx1 _) as [[[c2 mx2] lk2]|] eqn:E2; [|discriminate]. cbn [obind] in E.
  injection E as _ <- _. apply bset_length in E1. rewrite (IH _ _ _ _ _ _ _ E2). exact E1.
Qed.

Theorem td_total ms cs dest f : Forall is_byte f ->
  read_td one native dec ms cs dest f = None -> announces_huge f.
Proof.
  intros B. unfold read_td. destruct (read_header f) as [c|[h f1]] eqn:E; [discriminate|].
  destruct (read_header_inv f h f1 B E) as (Ef & _ & _). unfold read_into_td.
  destruct (negb _); [discriminate|]. destruct (negb _); [discriminate|].
  rewrite Ef in *. apply Forall_app in B. destruct B as [_ B1].
  destruct (td_loop _ _ _ _ _ _ _ _) as [[[c mx] lk1]|] eqn:Er.
  2:{ intros _. apply huge_suffix. eapply td_loop_total; [exact B1| |exact Er]. reflexivity. }
  cbn [obind]. destruct (negb _); [discriminate|]. apply td_loop_len in Er. simpl in Er.
  destruct mx as [|p [|q [|r [|s [|]]]]]; try discriminate.
  destruct (absorb dest p q r s). discriminate.
Qed.
End B.
