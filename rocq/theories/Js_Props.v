(** Properties C114-C118: reading JSON files. *)
From Verif Require Import Base BaseLemmas Kern_Model Smx_Model Smx_Spec Smx_Proofs TData_Model Js_Model Js_Spec
  Js_Proofs Js_Proofs2 Js_Proofs3.
From Coq Require Import String List.
Local Open Scope list_scope.

(** Concrete data for the examples: doubles are halves of integers, elements are counted in halves *)
Definition ex_extract : num Z -> option Z := extract_float (fun d => d) (fun z => (2 * z)%Z).
Definition ex_one : Z := 2%Z.
Definition ex_mem : mem_env Z := Some (fun i => Z.of_nat i).
Definition i_ (z : Z) : json Z := JNum (NInt z).
Definition h_ (z : Z) : json Z := JNum (NDbl z).
(** { "x": null, "train_x": [[1, 2.5, 3], [4, 5, 6]], "train_x": 7 } *)
Definition ex_ms : list (string * json Z) :=
  [("x", JNull); ("train_x", JArr [JArr [i_ 1; h_ 5; i_ 3]; JArr [i_ 4; i_ 5; i_ 6]]); ("train_x", i_ 7)]%string.
Definition ex_f (j i : nat) : num Z := match i, j with 0, 1 => NDbl 5%Z | 0, _ => NInt (Z.of_nat j + 1) | _, _ => NInt (Z.of_nat j + 4) end.
Definition ex_old : smx Z := mkS 1 2 false false false false (Some [8; 9]%Z).

Lemma ex_total (v : json Z) : convertible ex_extract v.
Proof. intros l x _ _. split; intros; destruct n; discriminate. Qed.
Lemma repr_10 n : n <= 10 -> repr n.
Proof. unfold repr, max_vec_len. lia. Qed.
Ltac smalls H := (* H : has_member of a literal list *)
  apply has_member_find in H; cbn [find_member] in H;
  repeat match type of H with (if ?b then _ else _) = _ => destruct b end;
  try discriminate; injection H as <-; intros l E; try discriminate; injection E as <-;
  (split; [apply repr_10; cbn; lia|intros row l' E'; try discriminate; injection E' as <- _; apply repr_10; cbn; lia]).
Lemma ex_small : small_members ex_ms.
Proof. intros name v H. unfold ex_ms in H. smalls H. Qed.
Lemma ex_describes : describes ex_ms "train_x" 3 2 ex_f.
Proof.
  exists (JArr [JArr [i_ 1; h_ 5; i_ 3]; JArr [i_ 4; i_ 5; i_ 6]]). split; [apply has_member_find; reflexivity|].
  split; [lia|]. split; [lia|]. left. eexists. split; [reflexivity|]. split; [reflexivity|].
  intros [|[|i]] Hi; [| |lia]; (eexists; split; [reflexivity|]; split; [reflexivity|]);
    intros [|[|[|j]]] Hj; try reflexivity; lia.
Qed.

(** ** C114: a matrix is what the document describes *)
Theorem C114_described : forall D A (one : A) (extract : num D -> option A) me ms d b r c f,
  may_read d b -> small_members ms -> convertible_member extract ms "train_x" -> me <> None ->
  describes ms "train_x" r c f ->
  exists d', read_mtx one extract me (Doc (JObj ms)) d b = Some (Success, d') /\
    holds one extract d d' (b || s_bias d) r c f.
Proof. exact @mtx_described. Qed.
Print Assumptions C114_described.

Example C114_described_ex :
  may_read ex_old false /\ may_read (@init Z) true /\ small_members ex_ms /\
  convertible_member ex_extract ex_ms "train_x" /\ describes ex_ms "train_x" 3 2 ex_f /\
  read_mtx ex_one ex_extract ex_mem (Doc (JObj ex_ms)) init true =
    Some (Success, mkS 3 3 true false false false (Some [2; 5; 6; 8; 10; 12; 2; 2; 2]%Z)) /\
  read_mtx ex_one ex_extract ex_mem (Doc (JObj ex_ms)) ex_old false =
    Some (Success, mkS 3 2 false false false false (Some [2; 5; 6; 8; 10; 12]%Z)).
Proof.
  split.
  { split; [|discriminate]. split; [reflexivity|]. split; [reflexivity|]. intros _. split; [cbn; lia|]. split; [cbn; lia|].
    eexists. split; [reflexivity|]. cbn. lia. }
  split; [repeat split; discriminate|]. split; [exact ex_small|]. split; [intros v _; apply ex_total|].
  split; [exact ex_describes|]. split; reflexivity.
Qed.

Theorem C114_success_only : forall D A (one : A) (extract : num D -> option A) me file d b d',
  (forall ms, file = Doc (JObj ms) -> small_members ms /\ convertible_member extract ms "train_x") -> may_read d b ->
  read_mtx one extract me file d b = Some (Success, d') ->
  exists ms r c f, file = Doc (JObj ms) /\ describes ms "train_x" r c f /\ holds one extract d d' (b || s_bias d) r c f.
Proof. exact @mtx_success. Qed.
Print Assumptions C114_success_only.

Example C114_success_only_ex :
  (forall ms, Doc (JObj ex_ms) = Doc (JObj ms) -> small_members ms /\ convertible_member ex_extract ms "train_x") /\
  may_read (@init Z) false /\
  (exists d', read_mtx ex_one ex_extract ex_mem (Doc (JObj ex_ms)) init false = Some (Success, d')) /\
  (* rows of different lengths, an element which is not a number, an empty array, no object *)
  (forall v, In v [JArr [JArr [i_ 1]; JArr [i_ 1; i_ 2]]; JArr [i_ 1; JNull]; JArr []; JArr [JArr []]; JBool true] ->
     exists d', read_mtx ex_one ex_extract ex_mem (Doc (JObj [("train_x"%string, v)])) init false = Some (NoField TrainX, d')) /\
  read_mtx ex_one ex_extract ex_mem (Doc (i_ 1)) init false = Some (RootIsNotAnObject, init).
Proof.
  split; [intros ms E; injection E as <-; split; [exact ex_small|intros v _; apply ex_total]|].
  split; [repeat split; discriminate|]. split; [eexists; reflexivity|].
  split; [|reflexivity]. intros v Hv. repeat (destruct Hv as [<-|Hv]; [eexists; reflexivity|]). destruct Hv.
Qed.

(** ** C115: train data *)
Theorem C115_train_data : forall D X Y (onex : X) (oney : Y) (exx : num D -> option X) (exy : num D -> option Y)
    mx my ex ey ms dest,
  small_members ms -> convertible_td exx exy ms -> mx <> None -> my <> None -> ex <> None -> ey <> None ->
  exists c dest', read_td onex oney exx exy mx my ex ey (Doc (JObj ms)) dest = Some (c, dest') /\
    (c = Success <-> coherent ms) /\ (c = Success -> holds_td onex oney exx exy ms dest') /\
    (c = MismatchingDataLength <-> (forall m, described ms (name_of m)) /\ ~ coherent ms) /\
    (forall m, c = NoField m <-> first_defective ms m).
Proof. exact @td_success_iff. Qed.
Print Assumptions C115_train_data.

Definition td_ms (ty : json Z) : list (string * json Z) :=
  [("test_y", JArr [i_ 9]); ("train_x", JArr [JArr [i_ 1; i_ 2]; JArr [i_ 3; i_ 4]]); ("train_y", ty);
   ("test_x", JArr [JArr [i_ 7]; JArr [i_ 8]])]%string.
Definition ex_sets : @sets Z Z := mkSets init init init init.
Definition td_read (ty : json Z) :=
  read_td ex_one ex_one ex_extract ex_extract ex_mem ex_mem ex_mem ex_mem (Doc (JObj (td_ms ty))) ex_sets.

Lemma td_small ty : small ty -> small_members (td_ms ty).
Proof.
  intros Hty name v H. unfold td_ms in H. apply has_member_find in H. cbn [find_member] in H.
  repeat match type of H with (if ?b then _ else _) = _ => destruct b end; try discriminate; injection H as <-; try exact Hty;
  intros l E; injection E as <-;
  (split; [apply repr_10; cbn; lia|intros row l' E'; try discriminate; injection E' as <- _; apply repr_10; cbn; lia]).
Qed.
Example C115_train_data_ex :
  small_members (td_ms (JArr [i_ 5; i_ 6])) /\ convertible_td ex_extract ex_extract (td_ms (JArr [i_ 5; i_ 6])) /\
  match td_read (JArr [i_ 5; i_ 6]) with
  | Some (Success, T) =>
      s_data (x0 T) = Some [2; 4; 6; 8; 2; 2]%Z /\ s_data (y0 T) = Some [10; 12]%Z /\
      s_data (x1 T) = Some [14; 16; 2]%Z /\ s_data (y1 T) = Some [18]%Z
  | _ => False end /\
  td_read (JArr [i_ 5]) = Some (MismatchingDataLength, ex_sets) /\
  td_read (JArr [JStr "five"]) = Some (NoField TrainY, ex_sets).
Proof.
  split; [apply td_small; intros l E; injection E as <-; split; [apply repr_10; cbn; lia|discriminate]|].
  split; [repeat split; intros; destruct n; discriminate|]. split; [|split; reflexivity]. vm_compute. auto.
Qed.

Theorem C115_failure_unchanged : forall D X Y (onex : X) (oney : Y) (exx : num D -> option X) (exy : num D -> option Y)
    mx my ex ey f dest c dest',
  read_td onex oney exx exy mx my ex ey f dest = Some (c, dest') -> c <> Success -> dest' = dest.
Proof. exact @td_unchanged. Qed.
Print Assumptions C115_failure_unchanged.

Example C115_failure_unchanged_ex :
  (exists d, td_read (JArr [JArr [i_ 1; i_ 2]; JNull]) = Some (NoField TrainY, d)) /\
  read_td ex_one ex_one ex_extract ex_extract ex_mem ex_mem None ex_mem (Doc (JObj (td_ms (JArr [i_ 5; i_ 6])))) ex_sets =
    Some (MemoryAllocationFailed, ex_sets).
Proof. split; [eexists; reflexivity|reflexivity]. Qed.

(** A file that is not there, is not JSON, or holds no object is reported as such *)
Theorem C115_no_document : forall D X Y (onex : X) (oney : Y) (exx : num D -> option X) (exy : num D -> option Y)
    mx my ex ey f dest,
  (forall ms, f <> Doc (JObj ms)) ->
  exists c, read_td onex oney exx exy mx my ex ey f dest = Some (c, dest) /\
    (c = FailedToOpenFile <-> f = NoFile) /\ (c = FailedToParseJson <-> f = BadJson) /\
    (c = RootIsNotAnObject <-> exists j, f = Doc j).
Proof. exact @td_no_document. Qed.
Print Assumptions C115_no_document.
Example C115_no_document_ex : forall ms : list (string * json Z), Doc (JArr [JObj []]) <> Doc (JObj ms).
Proof. discriminate. Qed.

(** ** C116: the code tells what is wrong with the member.
    Refuted: a member that is there but malformed is reported as missing. *)
Theorem C116_code_refuted : exists ms v d',
  has_member ms "train_x" v /\ ~ described ms "train_x" /\
  read_mtx ex_one ex_extract ex_mem (Doc (JObj ms)) init false = Some (NoField TrainX, d').
Proof.
  exists [("train_x"%string, JArr [i_ 1; JNull])], (JArr [i_ 1; JNull]). eexists.
  split; [apply has_member_find; reflexivity|]. split; [|reflexivity].
  intros (r & c & f & v & Hm & H). apply has_member_find in Hm. injection Hm as <-.
  apply json_matrix_vec in H; [|discriminate]. destruct H as (_ & -> & H). specialize (H 1 ltac:(cbn; lia)). discriminate.
Qed.
Print Assumptions C116_code_refuted.

(** What is missing: the codes of malformed members; they are never reported. *)
Theorem C116_code_partial : forall D A (one : A) (extract : num D -> option A) me file d b,
  (forall ms, file = Doc (JObj ms) -> small_members ms /\ convertible_member extract ms "train_x") -> may_read d b ->
  exists c d', read_mtx one extract me file d b = Some (c, d') /\
    (forall m, c <> InvalidField m) /\
    (c = FailedToOpenFile <-> file = NoFile) /\ (c = FailedToParseJson <-> file = BadJson) /\
    (c = RootIsNotAnObject <-> exists j, file = Doc j /\ forall ms, j <> JObj ms) /\
    (forall m, c = NoField m -> m = TrainX /\ exists ms, file = Doc (JObj ms) /\ ~ described ms "train_x") /\
    (c = MemoryAllocationFailed -> me = None).
Proof.
  intros D A one extract me file d b Hf U.
  destruct file as [| |j].
  1,2: eexists _, _; split; [reflexivity|]; repeat split; try congruence; try discriminate;
    intros (j & E & _); discriminate.
  assert (Hj : (exists ms, j = JObj ms) \/ forall ms, j <> JObj ms).
  { destruct j; try (right; discriminate). left. eauto. }
  destruct Hj as [[ms ->]|Hj].
  - destruct (Hf ms eq_refl) as [Sm Cv]. destruct (read_mtx_outcome one extract me ms d b U Sm Cv) as (c & d' & E & H).
    exists c, d'. split; [exact E|].
    assert (Hno : (exists j, Doc (JObj ms) = Doc j /\ forall ms', j <> JObj ms') -> False).
    { intros (j & Ej & Hj). injection Ej as <-. exact (Hj ms eq_refl). }
    destruct H as [(-> & _)|[(-> & H & _)|(-> & H & _)]]; repeat split; try discriminate; try congruence; try (intros Hx; destruct (Hno Hx)).
    exists ms. split; [reflexivity|exact H].
  - exists RootIsNotAnObject, d. split; [destruct j; try reflexivity; destruct (Hj ms eq_refl)|].
    repeat split; try discriminate. intros _. exists j. split; [reflexivity|exact Hj].
Qed.
Print Assumptions C116_code_partial.

Example C116_code_partial_ex :
  read_mtx ex_one ex_extract None (Doc (JObj ex_ms)) init false =
    Some (MemoryAllocationFailed, mkS 3 2 false false false false None) /\
  read_mtx ex_one ex_extract ex_mem (Doc (JObj [("train_y"%string, JArr [i_ 1])])) init false = Some (NoField TrainX, init) /\
  read_mtx ex_one ex_extract ex_mem (@BadJson Z) init false = Some (FailedToParseJson, init).
Proof. repeat split. Qed.

(** ** C117: a failed read leaves the matrix as it was, and the read can be repeated.
    Refuted: old elements are lost, the matrix stays biased, and after a failed allocation
    another attempt writes through a null pointer. *)
Theorem C117_failure_refuted :
  (exists (ms : list (string * json Z)) (d d' : smx Z),
     may_read d false /\ read_mtx ex_one ex_extract ex_mem (Doc (JObj ms)) d false = Some (NoField TrainX, d') /\
     s_data d <> None /\ s_data d' = None) /\
  (exists (ms : list (string * json Z)) (d' d2 : smx Z),
     read_mtx ex_one ex_extract ex_mem (Doc (JObj [])) init true = Some (NoField TrainX, d') /\
     read_mtx ex_one ex_extract ex_mem (Doc (JObj ms)) d' false = Some (Success, d2) /\ s_bias d2 = true) /\
  (exists (ms : list (string * json Z)) (d' : smx Z),
     read_mtx ex_one ex_extract None (Doc (JObj ms)) init false = Some (MemoryAllocationFailed, d') /\
     read_mtx ex_one ex_extract ex_mem (Doc (JObj ms)) d' false = None).
Proof.
  split; [|split].
  - exists [("train_x"%string, JArr [i_ 1; JNull])], ex_old. eexists. split.
    { split; [|discriminate]. split; [reflexivity|]. split; [reflexivity|]. intros _. split; [cbn; lia|]. split; [cbn; lia|].
      eexists. split; [reflexivity|]. cbn. lia. }
    split; [reflexivity|]. split; [discriminate|reflexivity].
  - exists ex_ms. eexists _, _. split; [reflexivity|]. split; reflexivity.
  - exists ex_ms. eexists. split; reflexivity.
Qed.
Print Assumptions C117_failure_refuted.

(** What is missing: failed allocations, and that nothing is lost. *)
Theorem C117_failure_partial : forall D A (one : A) (extract : num D -> option A) me file d b c d',
  (forall ms, file = Doc (JObj ms) -> small_members ms /\ convertible_member extract ms "train_x") -> may_read d b ->
  read_mtx one extract me file d b = Some (c, d') -> c <> Success -> c <> MemoryAllocationFailed ->
  (d' = d \/ (b = true /\ d' = with_flag d true) \/ (no_elements d' /\ s_bias d' = b || s_bias d /\ s_ext d' = false)) /\
  forall b', may_read d b' -> may_read d' b'.
Proof.
  intros D A one extract me file d b c d' Hf U E N1 N2.
  split; [exact (mtx_failed one extract me file d b c d' Hf U E N1 N2)|].
  intros b' Hb'. exact (mtx_retry one extract me file d b c d' b' Hf U Hb' E N1 N2).
Qed.
Print Assumptions C117_failure_partial.

Example C117_failure_partial_ex :
  may_read ex_old false /\
  read_mtx ex_one ex_extract ex_mem (Doc (JObj [("train_x"%string, JArr [i_ 1; JNull])])) ex_old false = Some (NoField TrainX, init).
Proof.
  split; [|reflexivity]. split; [|discriminate]. split; [reflexivity|]. split; [reflexivity|]. intros _.
  split; [cbn; lia|]. split; [cbn; lia|]. eexists. split; [reflexivity|]. cbn. lia.
Qed.

(** ** C118: matrices of integers receive the numbers of the file or an error is reported.
    Refuted: 1.5 is undefined behaviour, 300 becomes 44 in a matrix of 8 bit integers. *)
Theorem C118_integral_refuted :
  read_mtx 1%Z (extract_signed 32) ex_mem (Doc (JObj [("train_x"%string, JArr [h_ 3])])) init false = None /\
  exists d', read_mtx 1%Z (extract_signed 8) ex_mem (Doc (JObj [("train_x"%string, JArr [i_ 300])])) init false = Some (Success, d') /\
    cell d' 0 0 = Some 44%Z.
Proof. split; [reflexivity|]. eexists. split; reflexivity. Qed.
Print Assumptions C118_integral_refuted.

(** What is missing: numbers that the type can't represent. *)
Definition all_in {D} (v : json D) (lo hi : Z) : Prop :=
  forall l x, v = JArr l -> In x l ->
    (forall n, x = JNum n -> exists z, n = NInt z /\ (lo <= z < hi)%Z) /\
    (forall row n, x = JArr row -> In (JNum n) row -> exists z, n = NInt z /\ (lo <= z < hi)%Z).
Theorem C118_integral_partial : forall D (w : Z) (sgn : bool) me (ms : list (string * json D)) d b r c f v,
  (0 < w <= 64)%Z -> may_read d b -> small_members ms -> me <> None ->
  has_member ms "train_x" v -> json_matrix v r c f ->
  (if sgn then all_in v (- 2 ^ (w - 1)) (2 ^ (w - 1)) else all_in v 0 (2 ^ w)) ->
  exists d', read_mtx 1%Z (if sgn then extract_signed w else extract_unsigned w) me (Doc (JObj ms)) d b = Some (Success, d') /\
    s_rows_nb d' = r /\ s_cols_nb d' = c /\
    forall j i, j < r -> i < c -> exists z, f j i = NInt z /\ cell d' j i = Some z.
Proof.
  intros D w sgn me ms d b r c f v Hw U Sm Hm Hv HJ HR.
  set (ex := if sgn then extract_signed w else extract_unsigned w).
  assert (K : forall n, (if sgn then exists z, n = NInt z /\ (- 2 ^ (w - 1) <= z < 2 ^ (w - 1))%Z
                         else exists z, n = NInt z /\ (0 <= z < 2 ^ w)%Z) -> exists z, n = NInt z /\ ex n = Some z).
  { intros n Hn. unfold ex. destruct sgn; destruct Hn as (z & -> & Hz); exists z; (split; [reflexivity|]).
    - apply extract_signed_in; assumption.
    - apply extract_unsigned_in; assumption. }
  assert (Cv : convertible_member ex ms "train_x").
  { intros v' Hv' l x El Hx. rewrite <- (has_member_fun _ _ _ _ Hv Hv') in El. split.
    - intros n En. destruct (K n) as (z & _ & Ez); [|congruence]. destruct sgn; destruct (HR l x El Hx) as [H _]; exact (H n En).
    - intros row n Er Hin. destruct (K n) as (z & _ & Ez); [|congruence].
      destruct sgn; destruct (HR l x El Hx) as [_ H]; exact (H row n Er Hin). }
  destruct (mtx_described 1%Z ex me ms d b r c f U Sm Cv Hm) as (d' & E & P1 & P2 & P3 & P4 & P5 & P6 & P7 & P8).
  { exists v. split; assumption. }
  exists d'. split; [exact E|].
  assert (NB : s_rows_nb d' = r /\ s_cols_nb d' = c) by (apply nb_sizes; rewrite P1, P2; assumption).
  destruct NB as [N1 N2]. split; [exact N1|]. split; [exact N2|].
  intros j i Hj Hi. destruct (P8 j i Hj Hi) as (z & Ez & Hz).
  assert (Hf : if sgn then exists z, f j i = NInt z /\ (- 2 ^ (w - 1) <= z < 2 ^ (w - 1))%Z
               else exists z, f j i = NInt z /\ (0 <= z < 2 ^ w)%Z).
  { destruct HJ as (_ & _ & [(cols & -> & Hl & H)|(-> & l & -> & Hl & H)]).
    - destruct (H i Hi) as (col & Hc & _ & Hn). specialize (Hn j Hj).
      destruct sgn; destruct (HR cols (JArr col) eq_refl (nth_error_In _ _ Hc)) as [_ Q];
        exact (Q col (f j i) eq_refl (nth_error_In _ _ Hn)).
    - assert (i = 0) as -> by lia. specialize (H j Hj).
      destruct sgn; destruct (HR l _ eq_refl (nth_error_In _ _ H)) as [Q _]; exact (Q (f j 0) eq_refl). }
  destruct (K _ Hf) as (z' & Ef & Ez'). exists z'. split; [exact Ef|]. congruence.
Qed.
Print Assumptions C118_integral_partial.

Example C118_integral_partial_ex :
  all_in (JArr [JArr [i_ (-128); i_ 127]]) (- 2 ^ (8 - 1)) (2 ^ (8 - 1)) /\
  match read_mtx 1%Z (extract_signed 8) ex_mem (Doc (JObj [("train_x"%string, JArr [JArr [i_ (-128); i_ 127]])])) init false with
  | Some (Success, d) => s_data d = Some [-128; 127]%Z | _ => False end /\
  match read_mtx 1%Z (extract_unsigned 64) ex_mem (Doc (JObj [("train_x"%string, JArr [i_ (2 ^ 64 - 1)])])) init false with
  | Some (Success, d) => s_data d = Some [2 ^ 64 - 1]%Z | _ => False end.
Proof.
  split; [|split; reflexivity].
  intros l x E Hx. injection E as <-. destruct Hx as [<-|[]]. split; [discriminate|].
  intros row n E Hn. injection E as <-. destruct Hn as [E|[E|[]]]; injection E as <-; (eexists; split; [reflexivity|]); split; vm_compute; congruence.
Qed.
