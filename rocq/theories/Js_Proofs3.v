(** The JSON reader: whole documents. *)
From Verif Require Import Base BaseLemmas Kern_Model Smx_Model Smx_Spec Smx_Proofs TData_Model Js_Model Js_Spec Js_Proofs Js_Proofs2.
From Coq Require Import String List.
Local Open Scope list_scope.

Section M.
Context {D A : Type} (one : A) (extract : num D -> option A).
Implicit Types (d : smx A) (me : mem_env A) (ms : list (string * json D)).

Definition flagged d (b : bool) : smx A := if b then with_flag d true else d.
Lemma flagged_fields d b : s_bias (flagged d b) = b || s_bias d /\ s_bir (flagged d b) = s_bir d.
Proof. destruct b; split; reflexivity. Qed.
Lemma flagged_usable d b : usable d -> usable (flagged d b).
Proof. destruct b; intros H; exact H. Qed.

Lemma read_mtx_doc me ms d b :
  (b = true -> no_elements d) ->
  read_mtx one extract me (Doc (JObj ms)) d b = parse_mtx one extract me ms TrainX (flagged d b).
Proof.
  intros H. cbn [read_mtx parse_doc_mtx]. destruct b; [|reflexivity].
  destruct (H eq_refl) as (H1 & H2 & H3). unfold will_emulate_biases, empty. rewrite H1, H2, H3. reflexivity.
Qed.

Lemma read_mtx_outcome me ms d b :
  may_read d b -> small_members ms -> convertible_member extract ms "train_x" ->
  exists c d', read_mtx one extract me (Doc (JObj ms)) d b = Some (c, d') /\
    ((c = Success /\ exists r cc f, describes ms "train_x" r cc f /\ holds one extract d d' (b || s_bias d) r cc f) \/
     (c = NoField TrainX /\ ~ described ms "train_x" /\ (d' = flagged d b \/ cleared (flagged d b) d')) \/
     (c = MemoryAllocationFailed /\ me = None /\ failed_shape (flagged d b) d')).
Proof.
  intros [U Hb] Sm Cv. rewrite read_mtx_doc by exact Hb.
  destruct (parse_mtx_ok one extract me ms TrainX (flagged d b)) as (c & d' & E & H);
    [apply flagged_usable; exact U|exact Sm|exact Cv|].
  exists c, d'. split; [exact E|]. destruct (flagged_fields d b) as [F1 F2]. destruct H as [H|[H|H]].
  - left. destruct H as (H1 & r & cc & f & H2 & H3). split; [exact H1|]. exists r, cc, f. split; [exact H2|].
    unfold holds in *. rewrite F1, F2 in H3. exact H3.
  - right. left. destruct H as (H1 & H2 & H3). split; [exact H1|]. split; [|exact H3].
    intros (r & cc & f & H). exact (H2 r cc f H).
  - right. right. exact H.
Qed.

(** C114 *)
Lemma mtx_described me ms d b r c f :
  may_read d b -> small_members ms -> convertible_member extract ms "train_x" -> me <> None ->
  describes ms "train_x" r c f ->
  exists d', read_mtx one extract me (Doc (JObj ms)) d b = Some (Success, d') /\
    holds one extract d d' (b || s_bias d) r c f.
Proof.
  intros U Sm Cv Hm Hd. destruct (read_mtx_outcome me ms d b U Sm Cv) as (cc & d' & E & H).
  exists d'. destruct H as [(-> & r' & c' & f' & H1 & H2)|[(-> & H & _)|(-> & H & _)]].
  - split; [exact E|]. destruct (describes_fun _ _ _ _ _ _ _ _ Hd H1) as (<- & <- & Hf).
    destruct H2 as (P1 & P2 & P3 & P4 & P5 & P6 & P7 & P8). repeat (split; [assumption|]).
    intros j i Hj Hi. rewrite (Hf j i Hj Hi). apply P8; assumption.
  - destruct H. exists r, c, f. exact Hd.
  - congruence.
Qed.
Lemma mtx_success me file d b d' :
  (forall ms, file = Doc (JObj ms) -> small_members ms /\ convertible_member extract ms "train_x") -> may_read d b ->
  read_mtx one extract me file d b = Some (Success, d') ->
  exists ms r c f, file = Doc (JObj ms) /\ describes ms "train_x" r c f /\ holds one extract d d' (b || s_bias d) r c f.
Proof.
  intros Hf U E. destruct file as [| |[|?|?|?|?|ms]]; try discriminate.
  destruct (Hf ms eq_refl) as [Sm Cv]. destruct (read_mtx_outcome me ms d b U Sm Cv) as (cc & d2 & E2 & H).
  rewrite E in E2. injection E2 as <- <-.
  destruct H as [(_ & r' & c' & f' & H1 & H2)|[(H & _)|(H & _)]]; [|discriminate..].
  exists ms, r', c', f'. auto.
Qed.
Lemma mtx_defined me file d b :
  (forall ms, file = Doc (JObj ms) -> small_members ms /\ convertible_member extract ms "train_x") -> may_read d b ->
  exists c d', read_mtx one extract me file d b = Some (c, d') /\ (forall m, c <> InvalidField m).
Proof.
  intros Hf U. destruct file as [| |[|?|?|?|?|ms]]; try (eexists _, _; split; [reflexivity|discriminate]).
  destruct (Hf ms eq_refl) as [Sm Cv]. destruct (read_mtx_outcome me ms d b U Sm Cv) as (cc & d2 & E2 & H).
  exists cc, d2. split; [exact E2|]. destruct H as [(-> & _)|[(-> & _)|(-> & _)]]; discriminate.
Qed.

(** C117: what a failed read leaves behind *)
Lemma mtx_failed me file d b c d' :
  (forall ms, file = Doc (JObj ms) -> small_members ms /\ convertible_member extract ms "train_x") -> may_read d b ->
  read_mtx one extract me file d b = Some (c, d') -> c <> Success -> c <> MemoryAllocationFailed ->
  d' = d \/ (b = true /\ d' = with_flag d true) \/ (no_elements d' /\ s_bias d' = b || s_bias d /\ s_ext d' = false).
Proof.
  intros Hf U E N1 N2. destruct file as [| |[|?|?|?|?|ms]]; try (injection E as <- <-; left; reflexivity).
  destruct (Hf ms eq_refl) as [Sm Cv]. destruct (read_mtx_outcome me ms d b U Sm Cv) as (cc & d2 & E2 & H).
  rewrite E in E2. injection E2 as <- <-.
  destruct H as [(H & _)|[(_ & _ & [->|H])|(H & _)]]; [congruence| | |congruence].
  - destruct b; [right; left; auto|left; reflexivity].
  - right. right. destruct H as (H1 & H2 & H3 & H4 & H5 & H6). rewrite H4. destruct (flagged_fields d b) as [F1 _].
    split; [split; [exact H1|split; assumption]|]. auto.
Qed.
Lemma mtx_retry me file d b c d' b' :
  (forall ms, file = Doc (JObj ms) -> small_members ms /\ convertible_member extract ms "train_x") ->
  may_read d b -> may_read d b' ->
  read_mtx one extract me file d b = Some (c, d') -> c <> Success -> c <> MemoryAllocationFailed ->
  may_read d' b'.
Proof.
  intros Hf U U' E N1 N2. destruct (mtx_failed me file d b c d' Hf U E N1 N2) as [->|[[-> ->]|(H1 & H2 & H3)]].
  - exact U'.
  - destruct U as [U1 U2]. split; [exact U1|]. intros _. exact (U2 eq_refl).
  - split; [|intros _; exact H1]. destruct H1 as (P1 & P2 & P3). split; [exact H3|]. unfold alloc_failed, empty. rewrite P1, P2.
    split; [reflexivity|discriminate].
Qed.
End M.

(** ** Train data *)
Section T.
Context {D X Y : Type} (onex : X) (oney : Y) (exx : num D -> option X) (exy : num D -> option Y).
Implicit Types (dest : @sets X Y) (ms : list (string * json D)).

Lemma absorb_false dest tx ty tx' ty' d' : absorb dest tx ty tx' ty' = (false, d') -> d' = dest.
Proof. unfold absorb. destruct (absorbsion_will_succeed _ _ _ _); congruence. Qed.

Lemma td_no_document mx my ex ey f dest : (forall ms, f <> Doc (JObj ms)) ->
  exists c, read_td onex oney exx exy mx my ex ey f dest = Some (c, dest) /\
    (c = FailedToOpenFile <-> f = NoFile) /\ (c = FailedToParseJson <-> f = BadJson) /\
    (c = RootIsNotAnObject <-> exists j, f = Doc j).
Proof.
  intros H. destruct f as [| |j].
  - exists FailedToOpenFile. split; [reflexivity|]. split; [split; reflexivity|]. split; [split; discriminate|]. split; [discriminate|]. intros [j Hj]. discriminate.
  - exists FailedToParseJson. split; [reflexivity|]. split; [split; discriminate|]. split; [split; reflexivity|]. split; [discriminate|]. intros [j Hj]. discriminate.
  - exists RootIsNotAnObject. split; [destruct j; try reflexivity; exfalso; eapply H; reflexivity|].
    split; [split; discriminate|]. split; [split; discriminate|]. split; [eauto|reflexivity].
Qed.

Lemma td_unchanged mx my ex ey f dest c dest' :
  read_td onex oney exx exy mx my ex ey f dest = Some (c, dest') -> c <> Success -> dest' = dest.
Proof.
  intros E Hc. destruct f as [| |j]; try (injection E as _ <-; reflexivity).
  unfold read_td, parse_doc_td in E. destruct j; try (injection E as _ <-; reflexivity).
  destruct (will_emulate_biases init) as [a|]; cbn [obind] in E; [|discriminate].
  destruct (parse_mtx onex exx mx ms TrainX a) as [[c1 tx]|]; cbn [obind] in E; [|discriminate].
  destruct c1; try (injection E as _ <-; reflexivity).
  destruct (parse_mtx oney exy my ms TrainY init) as [[c1 ty]|]; cbn [obind] in E; [|discriminate].
  destruct c1; try (injection E as _ <-; reflexivity).
  destruct (parse_mtx onex exx ex ms TestX a) as [[c1 tx']|]; cbn [obind] in E; [|discriminate].
  destruct c1; try (injection E as _ <-; reflexivity).
  destruct (parse_mtx oney exy ey ms TestY init) as [[c1 ty']|]; cbn [obind] in E; [|discriminate].
  destruct c1; try (injection E as _ <-; reflexivity).
  destruct (absorb dest tx ty tx' ty') as [ok d'] eqn:Ea. destruct ok.
  - injection E as <- _. congruence.
  - injection E as _ <-. exact (absorb_false _ _ _ _ _ _ Ea).
Qed.

Definition biased_init {A} : smx A := with_flag init true.
Lemma init_usable {A} : usable (@init A).
Proof. repeat split; discriminate. Qed.
Lemma biased_usable {A} : usable (@biased_init A).
Proof. repeat split; discriminate. Qed.

Lemma not_described ms m : (forall r c f, ~ describes ms (name_of m) r c f) -> ~ described ms (name_of m).
Proof. intros H (r & c & f & Hd). exact (H r c f Hd). Qed.

Lemma td_outcome mx my ex ey ms dest :
  small_members ms -> convertible_td exx exy ms -> mx <> None -> my <> None -> ex <> None -> ey <> None ->
  exists c dest', read_td onex oney exx exy mx my ex ey (Doc (JObj ms)) dest = Some (c, dest') /\
    ((c = Success /\ holds_td onex oney exx exy ms dest') \/
     (c = MismatchingDataLength /\ (forall m, described ms (name_of m)) /\ ~ coherent ms) \/
     (exists m, c = NoField m /\ first_defective ms m)).
Proof.
  intros Sm (V1 & V2 & V3 & V4) M1 M2 M3 M4.
  unfold read_td, parse_doc_td.
  change (@will_emulate_biases X init) with (Some (@biased_init X)). cbn [obind].
  destruct (parse_mtx_ok onex exx mx ms TrainX biased_init biased_usable Sm V1) as (c1 & tx & E1 & H1).
  rewrite E1. cbn [obind].
  destruct H1 as [(-> & n & xw & fx & D1 & H1)|[(-> & N1 & _)|(_ & H & _)]]; [| |congruence].
  2:{ exists (NoField TrainX), dest. split; [reflexivity|]. right. right. exists TrainX. split; [reflexivity|].
      split; [apply not_described; exact N1|]. exists [], [TrainY; TestX; TestY]. split; [reflexivity|]. intros m []. }
  assert (P1 : described ms (name_of TrainX)) by (exists n, xw, fx; exact D1).
  destruct (parse_mtx_ok oney exy my ms TrainY init init_usable Sm V2) as (c2 & ty & E2 & H2).
  rewrite E2. cbn [obind].
  destruct H2 as [(-> & n2 & yw & fy & D2 & H2)|[(-> & N1 & _)|(_ & H & _)]]; [| |congruence].
  2:{ exists (NoField TrainY), dest. split; [reflexivity|]. right. right. exists TrainY. split; [reflexivity|].
      split; [apply not_described; exact N1|]. exists [TrainX], [TestX; TestY]. split; [reflexivity|].
      intros m [<-|[]]. exact P1. }
  assert (P2 : described ms (name_of TrainY)) by (exists n2, yw, fy; exact D2).
  destruct (parse_mtx_ok onex exx ex ms TestX biased_init biased_usable Sm V3) as (c3 & tx' & E3 & H3).
  rewrite E3. cbn [obind].
  destruct H3 as [(-> & k & xw2 & gx & D3 & H3)|[(-> & N1 & _)|(_ & H & _)]]; [| |congruence].
  2:{ exists (NoField TestX), dest. split; [reflexivity|]. right. right. exists TestX. split; [reflexivity|].
      split; [apply not_described; exact N1|]. exists [TrainX; TrainY], [TestY]. split; [reflexivity|].
      intros m [<-|[<-|[]]]; assumption. }
  assert (P3 : described ms (name_of TestX)) by (exists k, xw2, gx; exact D3).
  destruct (parse_mtx_ok oney exy ey ms TestY init init_usable Sm V4) as (c4 & ty' & E4 & H4).
  rewrite E4. cbn [obind].
  destruct H4 as [(-> & k2 & yw2 & gy & D4 & H4)|[(-> & N1 & _)|(_ & H & _)]]; [| |congruence].
  2:{ exists (NoField TestY), dest. split; [reflexivity|]. right. right. exists TestY. split; [reflexivity|].
      split; [apply not_described; exact N1|]. exists [TrainX; TrainY; TestX], []. split; [reflexivity|].
      intros m [<-|[<-|[<-|[]]]]; assumption. }
  assert (P4 : described ms (name_of TestY)) by (exists k2, yw2, gy; exact D4).
  clear E1 E2 E3 E4.
  pose proof H1 as (A1 & A2 & A3 & A4 & A5 & A6 & _). pose proof H2 as (B1 & B2 & B3 & B4 & B5 & B6 & _).
  pose proof H3 as (C1 & C2 & C3 & C4 & C5 & C6 & _). pose proof H4 as (G1 & G2 & G3 & G4 & G5 & G6 & _).
  cbn in A1, A4, A5, B1, B4, B5, C1, C4, C5, G1, G4, G5.
  assert (NE : forall T (s : smx T), well_alloc s -> empty s = false).
  { intros T s (_ & _ & l & E & _). unfold empty. rewrite E. reflexivity. }
  unfold absorb. destruct (absorbsion_will_succeed tx ty tx' ty') eqn:Ea.
  - exists Success. eexists. split; [reflexivity|]. left. split; [reflexivity|].
    unfold absorbsion_will_succeed in Ea. rewrite !andb_true_iff, !Nat.eqb_eq in Ea. cbn [x0 x1 y0 y1].
    assert (n2 = n) as -> by lia. assert (k2 = k) as -> by lia. assert (xw2 = xw) as -> by lia. assert (yw2 = yw) as -> by lia.
    exists n, k, xw, yw, fx, fy, gx, gy. do 4 (split; [assumption|]). cbn [x0 x1 y0 y1].
    split; [exact H1|]. split; [exact H2|]. split; [exact H3|exact H4].
  - exists MismatchingDataLength, dest. split; [reflexivity|]. right. left. split; [reflexivity|].
    split; [intros []; assumption|]. intros (n' & k' & xw' & yw' & fx' & fy' & gx' & gy' & Q1 & Q2 & Q3 & Q4).
    destruct (describes_fun _ _ _ _ _ _ _ _ D1 Q1) as (<- & <- & _).
    destruct (describes_fun _ _ _ _ _ _ _ _ D2 Q2) as (<- & <- & _).
    destruct (describes_fun _ _ _ _ _ _ _ _ D3 Q3) as (<- & Qe & _).
    destruct (describes_fun _ _ _ _ _ _ _ _ D4 Q4) as (<- & Qe' & _).
    assert (absorbsion_will_succeed tx ty tx' ty' = true); [|congruence].
    unfold absorbsion_will_succeed. rewrite !NE, A1, A3, B1, B3, C1, C3, G1, G3 by assumption.
    cbn [negb andb]. rewrite !andb_true_iff, !Nat.eqb_eq. repeat split; lia.
Qed.

Lemma first_defective_fun ms m m' : first_defective ms m -> first_defective ms m' -> m = m'.
Proof.
  intros (N & l1 & l2 & E & H) (N' & l1' & l2' & E' & H').
  unfold order in *.
  destruct m, m'; try reflexivity; exfalso;
  destruct l1 as [|a1 [|a2 [|a3 [|a4 l1]]]]; cbn in E; inversion E; subst;
  destruct l1' as [|b1 [|b2 [|b3 [|b4 l1']]]]; cbn in E'; inversion E'; subst;
  try (destruct l1; discriminate); try (destruct l1'; discriminate);
  first [apply N; apply H'; cbn; tauto | apply N'; apply H; cbn; tauto].
Qed.

(** C115: which outcome it is *)
Lemma td_success_iff mx my ex ey ms dest :
  small_members ms -> convertible_td exx exy ms -> mx <> None -> my <> None -> ex <> None -> ey <> None ->
  exists c dest', read_td onex oney exx exy mx my ex ey (Doc (JObj ms)) dest = Some (c, dest') /\
    (c = Success <-> coherent ms) /\ (c = Success -> holds_td onex oney exx exy ms dest') /\
    (c = MismatchingDataLength <-> (forall m, described ms (name_of m)) /\ ~ coherent ms) /\
    (forall m, c = NoField m <-> first_defective ms m).
Proof.
  intros Sm V M1 M2 M3 M4. destruct (td_outcome mx my ex ey ms dest Sm V M1 M2 M3 M4) as (c & d' & E & H).
  exists c, d'. split; [exact E|].
  assert (CH : coherent ms -> forall m, described ms (name_of m)).
  { intros (n & k & xw & yw & fx & fy & gx & gy & Q1 & Q2 & Q3 & Q4) []; eexists _, _, _; eassumption. }
  assert (FD : forall m, first_defective ms m -> ~ forall m, described ms (name_of m)).
  { intros m (N & _) Ha. exact (N (Ha m)). }
  destruct H as [(-> & H)|[(-> & H1 & H2)|(m & -> & H)]].
  - assert (CO : coherent ms).
    { destruct H as (n & k & xw & yw & fx & fy & gx & gy & Q1 & Q2 & Q3 & Q4 & _).
      exists n, k, xw, yw, fx, fy, gx, gy. auto. }
    split; [tauto|]. split; [auto|]. split; [split; [discriminate|tauto]|].
    intros m. split; [discriminate|]. intros Hf. destruct (FD m Hf (CH CO)).
  - split; [split; [discriminate|tauto]|]. split; [discriminate|]. split; [tauto|].
    intros m. split; [discriminate|]. intros Hf. destruct (FD m Hf H1).
  - split; [split; [discriminate|intros Hc; destruct (FD m H (CH Hc))]|]. split; [discriminate|].
    split; [split; [discriminate|intros [Ha _]; destruct (FD m H Ha)]|].
    intros m'. split; [intros Em; injection Em as <-; exact H|]. intros Hf. f_equal. exact (first_defective_fun _ _ _ H Hf).
Qed.
End T.

(** ** Elements of integral types *)
Lemma extract_signed_in {D} w z : (0 < w <= 64)%Z -> (- 2 ^ (w - 1) <= z < 2 ^ (w - 1))%Z ->
  @extract_signed D w (NInt z) = Some z.
Proof.
  intros Hw Hz. assert (H1 : (2 ^ (w - 1) <= 2 ^ 63)%Z) by (apply Z.pow_le_mono_r; lia).
  assert (H2 : (2 ^ w = 2 * 2 ^ (w - 1))%Z).
  { replace w with (Z.succ (w - 1)) at 1 by lia. apply Z.pow_succ_r. lia. }
  cbn [extract_signed]. change (- 2 ^ 63)%Z with (-(2 ^ 63))%Z.
  destruct (Z.leb_spec (-(2 ^ 63)) z); [|lia]. destruct (Z.ltb_spec z (2 ^ 63)); [|lia]. cbn [andb].
  f_equal. unfold wrap_signed. rewrite Z.mod_small; lia.
Qed.
Lemma extract_unsigned_in {D} w z : (0 < w <= 64)%Z -> (0 <= z < 2 ^ w)%Z -> @extract_unsigned D w (NInt z) = Some z.
Proof.
  intros Hw Hz. assert (H1 : (2 ^ w <= 2 ^ 64)%Z) by (apply Z.pow_le_mono_r; lia).
  cbn [extract_unsigned]. destruct (Z.leb_spec 0 z); [|lia]. destruct (Z.ltb_spec z (2 ^ 64)); [|lia]. cbn [andb].
  f_equal. apply Z.mod_small. exact Hz.
Qed.
