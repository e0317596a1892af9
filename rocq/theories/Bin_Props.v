(** Properties C28, C29, C66-C69: binary data files. *)
From Verif Require Import Base BaseLemmas Kern_Model Smx_Model Smx_Spec Smx_Proofs TData_Model Bin_Model Bin_Spec
  Bin_Proofs Bin_Proofs2 Bin_Proofs3 Bin_Proofs4 Bin_Proofs5 Bin_Proofs6 Bin_Proofs7.
From Coq Require Import NArith Nnat Permutation.

(** Concrete data for the examples: elements are numbers, stored little-endian; the
    destination holds singles. *)
Definition ex_dec (t : N) (e : list N) : N := le e.
Definition ex_mem : mem_env N := Some (fun i => N.of_nat i).
Definition nm (s : list N) : list N := s ++ repeat 0%N (15 - length s).
Definition single (n : N) : list N := enc_int 4 n.
Definition ex_field : field := mkF (nm [109; 116; 120]%N) 2 2 1 (map single [10; 300; 70000; 7]%N).
Definition ex_tx : field := mkF (nm s_train_x) 2 2 1 (map single [1; 2; 3; 4]%N).
Definition ex_ty : field := mkF (nm s_train_y) 2 1 0 (map (enc_int 8) [5; 6]%N).
Definition ex_ex : field := mkF (nm s_test_x) 1 2 1 (map single [7; 8]%N).
Definition ex_ey : field := mkF (nm s_test_y) 1 1 1 (map single [9]%N).
Definition ex_ms : nat -> mem_env N := fun _ => ex_mem.
Definition ex_cs : nat -> bool := fun _ => true.
Definition ex_dest : @sets N N := mkSets init init init init.
Definition cells (m : smx N) : option (list N) := s_data m.

Ltac wf := unfold wf_field, is_cstring; simpl;
  repeat first [lia | match goal with |- _ /\ _ => split end | apply Forall_cons | apply Forall_nil | reflexivity | discriminate | (left; reflexivity) | (right; reflexivity) | (right; eexists; reflexivity)].

(** ** C28: reading what has been written *)
Theorem C28_matrix_round_trip : forall A (one : A) native dec me conv m f tl,
  fresh m -> wf_field f -> countable (f_rows f) (f_cols f) ->
  me <> None -> (conv = true \/ f_type f = native) ->
  exists m2, read_matrix one native dec me conv m (header_bytes 1 0 ++ bytes_of_field f ++ tl) = Some (Success, m2, false) /\
    holds_field one dec m2 f (s_bias m).
Proof. exact @matrix_round_trip. Qed.
Print Assumptions C28_matrix_round_trip.

Example C28_matrix_ex :
  fresh (@init N) /\ wf_field ex_field /\ countable (f_rows ex_field) (f_cols ex_field) /\
  match read_matrix 1%N 1 ex_dec ex_mem true (with_flag init true) (header_bytes 1 0 ++ bytes_of_field ex_field) with
  | Some (Success, m2, _) => cells m2 = Some [10; 300; 70000; 7; 1; 1]%N
  | _ => False
  end.
Proof. split; [repeat split; discriminate|]. split; [wf|]. split; [split; reflexivity|vm_compute; reflexivity]. Qed.

Theorem C28_train_data_round_trip : forall A (one : A) native dec ms cs dest fs fx fy ex ey tl,
  td_fields fs fx fy ex ey -> td_coherent fx fy ex ey ->
  Forall (fun f => countable (f_rows f) (f_cols f)) fs ->
  (forall i, ms i <> None) -> (forall i, cs i = true) ->
  exists S, read_td one native dec ms cs dest (td_bytes fs ++ tl) = Some (Success, S, false) /\
    holds_td one dec S fx fy ex ey.
Proof. exact @td_round_trip. Qed.
Print Assumptions C28_train_data_round_trip.

Example C28_train_data_ex :
  td_fields [ex_ey; ex_tx; ex_ty; ex_ex] ex_tx ex_ty ex_ex ex_ey /\ td_coherent ex_tx ex_ty ex_ex ex_ey /\
  match read_td 1%N 1 ex_dec ex_ms ex_cs ex_dest (td_bytes [ex_ey; ex_tx; ex_ty; ex_ex]) with
  | Some (Success, d, _) =>
      cells (x0 d) = Some [1; 2; 3; 4; 1; 1]%N /\ cells (y0 d) = Some [5; 6]%N /\
      cells (x1 d) = Some [7; 8; 1]%N /\ cells (y1 d) = Some [9]%N
  | _ => False
  end.
Proof.
  split; [|split; [repeat split; reflexivity|vm_compute; auto]].
  split; [|split; [repeat (apply Forall_cons || apply Forall_nil); wf|]].
  - change [ex_tx; ex_ty; ex_ex; ex_ey] with ([ex_tx; ex_ty; ex_ex] ++ [ex_ey]).
    change [ex_ey; ex_tx; ex_ty; ex_ex] with (ex_ey :: [ex_tx; ex_ty; ex_ex]). apply Permutation_cons_append.
  - wf.
Qed.

Theorem C28_sequences_round_trip : forall A (one : A) native dec ms cs n tagged tl,
  wf_seq n tagged -> (forall k f, In (k, f) tagged -> countable (f_rows f) (f_cols f)) ->
  (forall i, ms i <> None) -> (forall i, cs i = true) ->
  exists q, read_seq one native dec ms cs [] (seq_bytes n tagged ++ tl) = Some (Success, q, false) /\
    holds_seqs one dec q n tagged.
Proof. exact @seq_round_trip. Qed.
Print Assumptions C28_sequences_round_trip.

(** c2, c1, c 2x: two sequences of class 2, one of class 1 *)
Definition ex_seq : list (nat * field) :=
  [(2, mkF (nm [99; 50]%N) 1 1 1 [single 20]); (1, mkF (nm [99; 49]%N) 1 2 1 [single 10; single 11]);
   (2, mkF (nm [99; 32; 50; 120]%N) 1 1 1 [single 21])].
Example C28_sequences_ex :
  wf_seq 2 ex_seq /\
  match read_seq 1%N 1 ex_dec ex_ms ex_cs [] (seq_bytes 2 ex_seq) with
  | Some (Success, q, _) => map (map cells) q = [[Some [10; 11]%N]; [Some [20]%N; Some [21]%N]]
  | _ => False
  end.
Proof.
  split; [|vm_compute; reflexivity].
  split; [lia|]. split; [reflexivity|]. split.
  - intros [|[|k]] H; [discriminate|discriminate|lia].
  - intros k f [E|[E|[E|[]]]]; injection E as <- <-; (split; [lia|]); (split; [wf|]); exists []; (split; [auto|]).
    + exists [], [50%N], []. split; [wf|]. split; [constructor|]. split; [discriminate|]. split; [repeat constructor; unfold digit; lia|]. split; reflexivity.
    + exists [], [49%N], []. split; [wf|]. split; [constructor|]. split; [discriminate|]. split; [repeat constructor; unfold digit; lia|]. split; reflexivity.
    + exists [32%N], [50%N], [120%N]. split; [wf|]. split; [repeat constructor; unfold space; lia|]. split; [discriminate|].
      split; [repeat constructor; unfold digit; lia|]. split; [reflexivity|unfold digit; lia].
Qed.

(** ** C29: only well-formed files are accepted *)
Theorem C29_matrix_partial : forall A (one : A) native dec me conv m f m2 lk,
  (native = 0 \/ native = 1)%N -> fresh m -> Forall is_byte f ->
  read_matrix one native dec me conv m f = Some (Success, m2, lk) -> small m2 ->
  exists fl tl, wf_field fl /\ f = header_bytes 1 0 ++ bytes_of_field fl ++ tl /\ holds_field one dec m2 fl (s_bias m).
Proof. intros. eapply matrix_sound; eassumption. Qed.
Print Assumptions C29_matrix_partial.

Theorem C29_train_data_partial : forall A (one : A) native dec ms cs dest f S lk,
  (native = 0 \/ native = 1)%N -> Forall is_byte f ->
  read_td one native dec ms cs dest f = Some (Success, S, lk) ->
  small (x0 S) -> small (x1 S) -> small (y0 S) -> small (y1 S) ->
  exists fs fx fy ex ey tl, f = td_bytes fs ++ tl /\ td_fields fs fx fy ex ey /\
    td_coherent fx fy ex ey /\ holds_td one dec S fx fy ex ey.
Proof. intros. eapply td_sound; eassumption. Qed.
Print Assumptions C29_train_data_partial.

Theorem C29_sequences_partial : forall A (one : A) native dec ms cs f q lk,
  (native = 0 \/ native = 1)%N -> Forall is_byte f ->
  read_seq one native dec ms cs [] f = Some (Success, q, lk) ->
  (forall k l m, nth_error q k = Some l -> In m l -> small m) ->
  exists n tagged tl, f = seq_bytes n tagged ++ tl /\ wf_seq n tagged /\ holds_seqs one dec q n tagged.
Proof. intros. eapply seq_sound; eassumption. Qed.
Print Assumptions C29_sequences_partial.

Example C29_small_ex : small (with_flag (@init N) true) /\
  match read_matrix 1%N 1 ex_dec ex_mem true init (header_bytes 1 0 ++ bytes_of_field ex_field) with
  | Some (Success, m2, _) => small m2 | _ => False end.
Proof. split; [reflexivity|vm_compute; reflexivity]. Qed.

(** The code names the first defect. *)
Theorem C29_matrix_codes_partial : forall A (one : A) native dec me conv m f c,
  (native = 0 \/ native = 1)%N -> fresh m -> Forall is_byte f -> ~ announces_huge f -> c <> Success ->
  ((exists m2 lk, read_matrix one native dec me conv m f = Some (c, m2, lk)) <->
   matrix_defect native (match me with Some _ => true | None => false end) conv f c).
Proof. exact @matrix_codes. Qed.
Print Assumptions C29_matrix_codes_partial.

Theorem C29_train_data_codes_partial : forall A (one : A) native dec ms cs dest f c,
  (native = 0 \/ native = 1)%N -> Forall is_byte f -> ~ announces_huge f ->
  (forall i, ms i <> None) -> (forall i, cs i = true) -> td_defect native f c ->
  exists lk, read_td one native dec ms cs dest f = Some (c, dest, lk).
Proof. exact @td_codes. Qed.
Print Assumptions C29_train_data_codes_partial.

(** the second field repeats the name of the first *)
Example C29_codes_ex :
  td_defect 1 (header_bytes 4 0 ++ fields_bytes [(s_train_x, ex_tx)] ++ bytes_of_field ex_tx ++ []) FieldHasBeenRead /\
  matrix_defect 1 true true (header_bytes 1 0 ++ entry_bytes 2 2 (nm []) 1 ++ single 5) FailedToReadData /\
  matrix_defect 1 true true (header_bytes 1 0 ++ entry_bytes 2 2 (nm []) 2 ++ single 5) UnsupportedIncorrectDataType /\
  matrix_defect 1 true true (header_bytes 3 0 ++ [7%N]) WrongElementsCount.
Proof.
  split; [|split; [|split]].
  - eapply (TD_twice 1 _ s_train_x ex_tx); [|simpl; lia|left; reflexivity|wf|wf].
    split; [repeat constructor; simpl; tauto|]. intros s f [E|[]]. injection E as <- <-.
    split; [simpl; auto|]. split; wf.
  - right. eexists. split; [reflexivity|]. apply FD_data; simpl; try lia; try reflexivity; auto; discriminate.
  - right. eexists. split; [reflexivity|]. apply FD_type; simpl; try lia; try reflexivity; auto; discriminate.
  - left. apply HD_fields; [reflexivity|reflexivity|discriminate].
Qed.

(** A file of 524322 bytes which announces 2^61 + 65536 doubles is accepted. *)
Theorem C29_malformed_accepted_refuted : exists f : file,
  (~ exists fl tl, wf_field fl /\ f = header_bytes 1 0 ++ bytes_of_field fl ++ tl) /\
  exists m2, read_matrix 1%N 0 ex_dec ex_mem true init f = Some (Success, m2, false) /\
    exists l, s_data m2 = Some l /\ (N.of_nat (length l) < N.of_nat (s_rows m2) * N.of_nat (s_cols m2))%N.
Proof.
  exists wrap_file. split; [apply wrap_not_well_formed|].
  destruct (wrap_read 1%N ex_dec (fun i => N.of_nat i) true) as (m2 & E & R & C & l & D & L).
  exists m2. split; [exact E|]. exists l. split; [exact D|]. rewrite L, R, C. reflexivity.
Qed.
Print Assumptions C29_malformed_accepted_refuted.

(** ** C66: reading never leaves the memory of the matrices *)
Theorem C66_matrix_safe_partial : forall A (one : A) native dec me conv m f,
  fresh m -> Forall is_byte f -> ~ announces_huge f -> read_matrix one native dec me conv m f <> None.
Proof. intros A one native dec me conv m f F B H E. apply H. eapply matrix_total; eassumption. Qed.
Print Assumptions C66_matrix_safe_partial.

Theorem C66_train_data_safe_partial : forall A (one : A) native dec ms cs dest f,
  Forall is_byte f -> ~ announces_huge f -> read_td one native dec ms cs dest f <> None.
Proof. intros A one native dec ms cs dest f B H E. apply H. eapply td_total; eassumption. Qed.
Print Assumptions C66_train_data_safe_partial.

Theorem C66_sequences_safe_partial : forall A (one : A) native dec ms cs f,
  Forall is_byte f -> ~ announces_huge f -> ~ announces_big_class f -> read_seq one native dec ms cs [] f <> None.
Proof.
  intros A one native dec ms cs f B H1 H2 E. destruct (seq_total one native dec ms cs f B E); contradiction.
Qed.
Print Assumptions C66_sequences_safe_partial.

Example C66_ex : ~ announces_huge (repeat 1%N 30) /\ Forall is_byte (repeat 1%N 30).
Proof.
  split; [|repeat constructor].
  intros (pre & r & c & name & post & E & L & R & C & H). apply H.
  assert (B : Forall is_byte (enc_int 4 r) /\ Forall (fun b => b = 1%N) (enc_int 4 r) /\ Forall (fun b => b = 1%N) (enc_int 4 c)).
  { assert (FA : Forall (fun b => b = 1%N) (repeat 1%N 30)) by (apply Forall_forall; intros x Hx; apply repeat_spec in Hx; exact Hx).
    rewrite E in FA. rewrite !Forall_app in FA. split; [apply enc_int_byte|]. intuition. }
  destruct B as (_ & B1 & B2).
  assert (Q : forall n, (n < 2 ^ 31)%N -> Forall (fun b => b = 1%N) (enc_int 4 n) -> (n = 16843009)%N).
  { intros n Hn F. rewrite <- (le_enc 4 n) by (change (256 ^ N.of_nat 4)%N with (2 ^ 32)%N; lia).
    pose proof (enc_int_length 4 n) as LE. destruct (enc_int 4 n) as [|a [|b [|c' [|d [|]]]]]; try discriminate.
    inversion_clear F as [|? ? -> F1]. inversion_clear F1 as [|? ? -> F2]. inversion_clear F2 as [|? ? -> F3].
    inversion_clear F3 as [|? ? -> F4]. reflexivity. }
  rewrite (Q r R B1), (Q c C B2). split; reflexivity.
Qed.

(** A train_x field the byte count of which wraps around makes the reader write the
    ones of the bias column behind the storage; one with 2^31 - 1 columns overflows
    the column counter. *)
Theorem C66_memory_refuted : exists f1 f2 : file, Forall is_byte f1 /\ Forall is_byte f2 /\
  read_td 1%N 0 ex_dec ex_ms ex_cs ex_dest f1 = None /\
  forall native, read_td 1%N native ex_dec ex_ms ex_cs ex_dest f2 = None.
Proof.
  exists over_file, overflow_file. split; [|split; [|split]].
  - unfold over_file, header_bytes, entry_bytes. rewrite !Forall_app.
    repeat split; try apply enc_int_byte; repeat constructor.
  - unfold overflow_file, header_bytes, entry_bytes. rewrite !Forall_app.
    repeat split; try apply enc_int_byte; repeat constructor.
  - apply over_read. discriminate.
  - intros native. apply overflow_read.
Qed.
Print Assumptions C66_memory_refuted.

(** ** C67: a failed read leaves the destination as it was *)
Theorem C67_train_data_unchanged_partial : forall A (one : A) native dec ms cs dest f c S lk,
  read_td one native dec ms cs dest f = Some (c, S, lk) -> c <> Success -> S = dest.
Proof. exact @td_unchanged. Qed.
Print Assumptions C67_train_data_unchanged_partial.

Example C67_ex : exists lk, read_td 1%N 1 ex_dec ex_ms ex_cs ex_dest (header_bytes 4 0 ++ bytes_of_field ex_tx ++ bytes_of_field ex_tx) =
  Some (FieldHasBeenRead, ex_dest, lk).
Proof. eexists. vm_compute. reflexivity. Qed.

(** A truncated file leaves a matrix with unspecified contents behind, into which no
    other file can be read. *)
Theorem C67_matrix_refuted : exists f g : file,
  match read_matrix 1%N 1 ex_dec ex_mem true init f with
  | Some (c, m2, _) => c = FailedToReadData /\ m2 <> init /\ s_data m2 <> None /\
      (exists m3, read_matrix 1%N 1 ex_dec ex_mem true init g = Some (Success, m3, false)) /\
      read_matrix 1%N 1 ex_dec ex_mem true m2 g = Some (FieldHasBeenRead, m2, false)
  | None => False
  end.
Proof.
  exists (header_bytes 1 0 ++ firstn 30 (bytes_of_field ex_field)), (header_bytes 1 0 ++ bytes_of_field ex_field).
  vm_compute. split; [reflexivity|]. split; [discriminate|]. split; [discriminate|].
  split; [eexists; reflexivity|reflexivity].
Qed.
Print Assumptions C67_matrix_refuted.

(** ** C68: the temporary buffer is released on every path *)
Theorem C68_buffer_released_partial : forall A (one : A) native dec me conv m f c m2 lk,
  (native = 0 \/ native = 1)%N -> fresh m -> Forall is_byte f -> ~ announces_huge f ->
  read_matrix one native dec me conv m f = Some (c, m2, lk) -> c <> FailedToReadData -> lk = false.
Proof. exact @matrix_no_leak. Qed.
Print Assumptions C68_buffer_released_partial.

Example C68_ex : match read_matrix 1%N 1 ex_dec ex_mem true init (header_bytes 1 0 ++ bytes_of_field ex_ty) with
  | Some (c, _, lk) => c = Success /\ lk = false | None => False end.
Proof. vm_compute. split; reflexivity. Qed.

Theorem C68_buffer_released_refuted : exists f : file,
  match read_matrix 1%N 1 ex_dec ex_mem true init f with
  | Some (c, _, lk) => c = FailedToReadData /\ lk = true | None => False end.
Proof.
  exists (header_bytes 1 0 ++ firstn 30 (bytes_of_field ex_ty)). vm_compute. split; reflexivity.
Qed.
Print Assumptions C68_buffer_released_refuted.

(** ** C69: the exporter writes what the reader accepts *)
Theorem C69_export_matrix : forall A (one : A) native dec me m x,
  wf_mfield x -> fresh m -> me <> None ->
  exists f m2, export_struct false [x] = Some f /\
    read_matrix one native dec me true m f = Some (Success, m2, false) /\ mfield_holds one dec m2 x (s_bias m).
Proof. exact @export_matrix. Qed.
Print Assumptions C69_export_matrix.

Theorem C69_export_train_data_partial : forall A (one : A) native dec ms cs dest l tx ty ex ey,
  Forall wf_mfield l -> td_struct l tx ty ex ey -> length l = 4 ->
  (forall i, ms i <> None) -> (forall i, cs i = true) ->
  exists f S, export_struct true l = Some f /\
    read_td one native dec ms cs dest f = Some (Success, S, false) /\
    mfield_holds one dec (x0 S) tx true /\ mfield_holds one dec (y0 S) ty false /\
    mfield_holds one dec (x1 S) ex true /\ mfield_holds one dec (y1 S) ey false.
Proof. exact @export_td. Qed.
Print Assumptions C69_export_train_data_partial.

Definition mf (s : list N) (r c : N) (es : list N) : mfield := mkMF s r c 1 (map single es).
Definition ex_struct : list mfield :=
  [mf s_train_x 2 1 [1; 2]%N; mf s_train_y 2 1 [3; 4]%N; mf s_test_x 1 1 [5]%N; mf s_test_y 1 1 [6]%N].
Lemma ex_struct_wf : Forall wf_mfield (mf [97]%N 1 1 [1]%N :: ex_struct).
Proof.
  repeat (apply Forall_cons || apply Forall_nil); unfold wf_mfield, countable; simpl;
  repeat match goal with |- _ /\ _ => split end; try lia; repeat constructor; discriminate.
Qed.
Example C69_ex : Forall wf_mfield ex_struct /\
  td_struct ex_struct (mf s_train_x 2 1 [1; 2]%N) (mf s_train_y 2 1 [3; 4]%N) (mf s_test_x 1 1 [5]%N) (mf s_test_y 1 1 [6]%N).
Proof.
  split; [pose proof ex_struct_wf as H; inversion H; assumption|].
  split; [simpl; repeat constructor; simpl; intuition discriminate|].
  simpl. intuition reflexivity.
Qed.

(** With another field in the struct - which is dropped by default - the file cannot
    be read: the header counts the dropped field too. *)
Theorem C69_export_train_data_refuted : exists l tx ty ex ey,
  Forall wf_mfield l /\ td_struct l tx ty ex ey /\
  exists f, export_struct true l = Some f /\
    read_td 1%N 1 ex_dec ex_ms ex_cs ex_dest f = Some (WrongElementsCount, ex_dest, false).
Proof.
  exists (mf [97]%N 1 1 [1]%N :: ex_struct), (mf s_train_x 2 1 [1; 2]%N), (mf s_train_y 2 1 [3; 4]%N), (mf s_test_x 1 1 [5]%N), (mf s_test_y 1 1 [6]%N).
  split; [apply ex_struct_wf|]. split.
  - split; [simpl; repeat constructor; simpl; intuition discriminate|]. simpl. intuition reflexivity.
  - eexists. split; [vm_compute; reflexivity|]. vm_compute. reflexivity.
Qed.
Print Assumptions C69_export_train_data_refuted.
