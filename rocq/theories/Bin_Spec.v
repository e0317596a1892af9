(** The binary file format and what a reader has to deliver, independent of the
    reader.  The format is the one written by nntl/_supp/matlab/export_2bin.m:34-90. *)
From Verif Require Import Base Smx_Model Smx_Spec TData_Model Bin_Model.
From Coq Require Import Permutation.

(** [k] bytes of a little-endian integer *)
Fixpoint enc_int (k : nat) (n : N) : list N :=
  match k with O => [] | S k' => (n mod 256)%N :: enc_int k' (n / 256)%N end.

Definition is_byte (b : N) : Prop := (b < 256)%N.

(** 15 bytes hold the C string [s] *)
Definition is_cstring (name s : list N) : Prop :=
  Forall (fun b => b <> 0%N) s /\ (name = s \/ exists t, name = s ++ 0%N :: t).

Definition elem_bytes (t : N) : nat := if (t =? 0)%N then 8 else 4.

(** A field: its name (15 bytes), sizes, element type (0: double, 1: single) and
    the stored elements, column by column *)
Record field := mkF { f_name : list N; f_rows : N; f_cols : N; f_type : N; f_elems : list (list N) }.

Definition wf_field (f : field) : Prop :=
  length (f_name f) = 15 /\ (0 < f_rows f < 2 ^ 31)%N /\ (0 < f_cols f < 2 ^ 31)%N /\
  (f_type f = 0%N \/ f_type f = 1%N) /\
  N.of_nat (length (f_elems f)) = (f_rows f * f_cols f)%N /\
  Forall (fun e => length e = elem_bytes (f_type f)) (f_elems f).

Definition bytes_of_field (f : field) : list N :=
  enc_int 4 (f_rows f) ++ enc_int 4 (f_cols f) ++ f_name f ++ [f_type f] ++ concat (f_elems f).

(** 'nntl', version 0, number of fields (classes included), number of classes *)
Definition header_bytes (fields classes : N) : list N :=
  [110; 110; 116; 108; 0; 0]%N ++ enc_int 2 fields ++ enc_int 2 classes.

(** The byte count of the matrix (with an additional bias column) can be computed in
    64 bit. *)
Definition countable (rows cols : N) : Prop := (8 * (rows * (cols + 1)) < 2 ^ 64)%N /\ (cols + 1 < 2 ^ 31)%N.

Section B.
Context {A : Type} (one : A) (dec : N -> list N -> A).

(** A destination into which nothing has been read yet *)
Definition fresh (m : smx A) : Prop :=
  s_data m = None /\ s_rows m = 0 /\ s_ext m = false /\ (s_bias m = true -> s_bir m = false).

(** [m] holds the field, and a bias column of ones iff [bias] *)
Definition holds_field (m : smx A) (f : field) (bias : bool) : Prop :=
  N.of_nat (s_rows m) = f_rows f /\ N.of_nat (s_cols m) = (f_cols f + N.b2n bias)%N /\
  s_bias m = bias /\ s_ext m = false /\ well_alloc m /\ biases_one one m /\
  forall r c, (N.of_nat r < f_rows f)%N -> (N.of_nat c < f_cols f)%N ->
    exists e, nth_error (f_elems f) (r + s_rows m * c) = Some e /\ cell m r c = Some (dec (f_type f) e).

(** The destination is big, but its byte count is computable. *)
Definition small (m : smx A) : Prop := (8 * N.of_nat (s_rows m * s_cols m) < 2 ^ 64)%N.

(** *** Train data: four fields, in any order *)
Definition td_fields (fs : list field) (fx fy ex ey : field) : Prop :=
  Permutation fs [fx; fy; ex; ey] /\ Forall wf_field fs /\
  is_cstring (f_name fx) s_train_x /\ is_cstring (f_name fy) s_train_y /\
  is_cstring (f_name ex) s_test_x /\ is_cstring (f_name ey) s_test_y.
Definition td_coherent (fx fy ex ey : field) : Prop :=
  f_rows fx = f_rows fy /\ f_rows ex = f_rows ey /\ f_cols fx = f_cols ex /\ f_cols fy = f_cols ey.
Definition td_bytes (fs : list field) : list N := header_bytes 4 0 ++ concat (map bytes_of_field fs).
Definition holds_td (S : @sets A A) (fx fy ex ey : field) : Prop :=
  holds_field (x0 S) fx true /\ holds_field (y0 S) fy false /\
  holds_field (x1 S) ex true /\ holds_field (y1 S) ey false.

(** *** Sequences: the number of sequences of each class, then the sequences, each
    named c<number of its class><something which is not a digit>; the number may have
    white space and a plus sign in front of it *)
Definition digit (b : N) : Prop := (48 <= b <= 57)%N.
Definition space (b : N) : Prop := (b = 32 \/ 9 <= b <= 13)%N.
Fixpoint decimal (ds : list N) : N := (* the last digit last *)
  match ds with [] => 0 | d :: ds' => (d - 48) * 10 ^ N.of_nat (length ds') + decimal ds' end%N.
Definition numbered (name : list N) (sign : list N) (k : N) : Prop :=
  exists sp ds rest, is_cstring name (99%N :: sp ++ sign ++ ds ++ rest) /\ Forall space sp /\
    ds <> [] /\ Forall digit ds /\ decimal ds = k /\ match rest with b :: _ => ~ digit b | [] => True end.
Definition class_name (name : list N) (k : nat) : Prop :=
  exists sign, (sign = [] \/ sign = [43%N]) /\ numbered name sign (N.of_nat k).
(** [tagged]: the sequences in the order of the file, with the numbers of their
    classes, counted from one *)
Definition of_class (tagged : list (nat * field)) (k : nat) : list field :=
  map snd (filter (fun t => fst t =? k) tagged).
Definition class_counts (n : nat) (tagged : list (nat * field)) : list N :=
  map (fun j => N.of_nat (length (of_class tagged (S j)))) (seq 0 n).
Definition seq_bytes (n : nat) (tagged : list (nat * field)) : list N :=
  header_bytes (N.of_nat (length tagged) + N.of_nat n) (N.of_nat n) ++
  concat (map (enc_int 2) (class_counts n tagged)) ++ concat (map (fun t => bytes_of_field (snd t)) tagged).
Definition wf_seq (n : nat) (tagged : list (nat * field)) : Prop :=
  0 < n /\ (N.of_nat (length tagged) + N.of_nat n < 2 ^ 16)%N /\
  (forall k, k < n -> of_class tagged (S k) <> []) /\
  forall k f, In (k, f) tagged -> 1 <= k <= n /\ wf_field f /\ class_name (f_name f) k.
(** each class gets its sequences, in the order of the file *)
Definition holds_seqs (q : list (list (smx A))) (n : nat) (tagged : list (nat * field)) : Prop :=
  length q = n /\
  forall k l, nth_error q k = Some l -> Forall2 (fun m f => holds_field m f false) l (of_class tagged (S k)).
End B.

(** Somewhere in the file there are 24 bytes which, taken as a field description,
    announce a matrix the byte count of which doesn't fit in 64 bit. *)
Definition announces_huge (f : file) : Prop :=
  exists pre r c name post, f = pre ++ enc_int 4 r ++ enc_int 4 c ++ name ++ post /\ length name = 16 /\
    (r < 2 ^ 31)%N /\ (c < 2 ^ 31)%N /\ ~ countable r c.

(** ... or a class number which doesn't fit in an int *)
Definition announces_big_class (f : file) : Prop :=
  exists pre name post sign k, f = pre ++ name ++ post /\ length name = 15 /\ numbered name sign k /\ (2 ^ 31 <= k)%N.

(** ** Defects, in the order in which they are looked for *)
Definition entry_bytes (r c : N) (name : list N) (t : N) : list N :=
  enc_int 4 r ++ enc_int 4 c ++ name ++ [t].

Definition td_names : list (list N) := [s_train_x; s_train_y; s_test_x; s_test_y].
Definition known (name : list N) : Prop := exists s, In s td_names /\ is_cstring name s.

(** ... of a field; [mem], [conv]: is there memory for the matrix, for the buffer;
    [td]: the field must have one of the four names *)
Inductive field_defect (native : N) (td mem conv : bool) : file -> code -> Prop :=
| FD_entry f : length f < 24 -> field_defect native td mem conv f FailedToReadFieldEntry
| FD_size r c name t tl : length name = 15 -> (r < 2 ^ 32)%N -> (c < 2 ^ 32)%N -> is_byte t ->
    r = 0%N \/ c = 0%N -> field_defect native td mem conv (entry_bytes r c name t ++ tl) InvalidDataSize
| FD_name r c name t tl : length name = 15 -> (0 < r < 2 ^ 32)%N -> (0 < c < 2 ^ 32)%N -> is_byte t ->
    td = true -> ~ known name -> field_defect native td mem conv (entry_bytes r c name t ++ tl) UnknownFieldName
| FD_mem r c name t tl : length name = 15 -> (0 < r < 2 ^ 32)%N -> (0 < c < 2 ^ 32)%N -> is_byte t ->
    (td = true -> known name) -> (2 ^ 31 <= r \/ 2 ^ 31 <= c)%N \/ mem = false ->
    field_defect native td mem conv (entry_bytes r c name t ++ tl) MemoryAllocationFailed
| FD_type r c name t tl : length name = 15 -> (0 < r < 2 ^ 31)%N -> (0 < c < 2 ^ 31)%N -> is_byte t ->
    (td = true -> known name) -> mem = true -> t <> 0%N -> t <> 1%N ->
    field_defect native td mem conv (entry_bytes r c name t ++ tl) UnsupportedIncorrectDataType
| FD_conv r c name t tl : length name = 15 -> (0 < r < 2 ^ 31)%N -> (0 < c < 2 ^ 31)%N -> (t = 0 \/ t = 1)%N ->
    (td = true -> known name) -> mem = true -> t <> native -> conv = false ->
    field_defect native td mem conv (entry_bytes r c name t ++ tl) FailedToAllocateMemoryForDataConvertion
| FD_data r c name t tl : length name = 15 -> (0 < r < 2 ^ 31)%N -> (0 < c < 2 ^ 31)%N -> (t = 0 \/ t = 1)%N ->
    (td = true -> known name) -> mem = true -> (t <> native -> conv = true) ->
    (N.of_nat (length tl) < r * c * N.of_nat (elem_bytes t))%N ->
    field_defect native td mem conv (entry_bytes r c name t ++ tl) FailedToReadData.

(** ... of the header; [n], [k]: the numbers of fields and of classes which are expected *)
Inductive header_defect (n k : N) : file -> code -> Prop :=
| HD_short f : length f < 10 -> header_defect n k f FailedToReadHeader
| HD_sig s tl : length s = 4 -> s <> [110; 110; 116; 108]%N -> 6 <= length tl -> header_defect n k (s ++ tl) WrongHeaderSignature
| HD_version v tl : (0 < v < 2 ^ 16)%N -> 4 <= length tl ->
    header_defect n k ([110; 110; 116; 108]%N ++ enc_int 2 v ++ tl) UnsupportedFormatVersion
| HD_fields n' k' tl : (n' < 2 ^ 16)%N -> (k' < 2 ^ 16)%N -> n' <> n ->
    header_defect n k (header_bytes n' k' ++ tl) WrongElementsCount
| HD_classes k' tl : (k' < 2 ^ 16)%N -> k' <> k -> header_defect n k (header_bytes n k' ++ tl) InvalidSeqClassCount.

Definition matrix_defect (native : N) (mem conv : bool) (f : file) (c : code) : Prop :=
  header_defect 1 0 f c \/
  exists f1, f = header_bytes 1 0 ++ f1 /\ field_defect native false mem conv f1 c.

(** Up to four good fields of different kinds, then a defect; or four good fields
    which don't fit together *)
Definition good_fields (ps : list (list N * field)) : Prop :=
  NoDup (map fst ps) /\ forall s f, In (s, f) ps -> In s td_names /\ is_cstring (f_name f) s /\ wf_field f.
Definition fields_bytes (ps : list (list N * field)) : list N := concat (map (fun p => bytes_of_field (snd p)) ps).
(** (with enough memory) *)
Inductive td_defect (native : N) : file -> code -> Prop :=
| TD_header f c : header_defect 4 0 f c -> td_defect native f c
| TD_field ps f c : good_fields ps -> length ps < 4 -> field_defect native true true true f c ->
    td_defect native (header_bytes 4 0 ++ fields_bytes ps ++ f) c
| TD_twice ps s g g' tl : good_fields ps -> length ps < 4 -> In (s, g) ps -> wf_field g' -> is_cstring (f_name g') s ->
    td_defect native (header_bytes 4 0 ++ fields_bytes ps ++ bytes_of_field g' ++ tl) FieldHasBeenRead
| TD_shapes ps fx fy ex ey tl : good_fields ps ->
    In (s_train_x, fx) ps -> In (s_train_y, fy) ps -> In (s_test_x, ex) ps -> In (s_test_y, ey) ps ->
    ~ td_coherent fx fy ex ey ->
    td_defect native (header_bytes 4 0 ++ fields_bytes ps ++ tl) FailedToMakeTDOutOfReadData.

(** ** A struct to be exported: a field of the given name with valid contents *)
Definition wf_mfield (x : mfield) : Prop :=
  Forall (fun b => b <> 0%N) (mf_name x) /\ length (mf_name x) <= 15 /\
  (0 < mf_rows x < 2 ^ 31)%N /\ (0 < mf_cols x < 2 ^ 31)%N /\ countable (mf_rows x) (mf_cols x) /\
  (mf_type x = 0 \/ mf_type x = 1)%N /\
  N.of_nat (length (mf_elems x)) = (mf_rows x * mf_cols x)%N /\
  Forall (fun e => length e = elem_bytes (mf_type x)) (mf_elems x).
Definition mfield_holds {A} (one : A) dec (m : smx A) (x : mfield) (bias : bool) : Prop :=
  holds_field one dec m (mkF (mf_name x) (mf_rows x) (mf_cols x) (mf_type x) (mf_elems x)) bias.
(** [l] has train data in it *)
Definition td_struct (l : list mfield) (tx ty ex ey : mfield) : Prop :=
  NoDup (map mf_name l) /\ In tx l /\ In ty l /\ In ex l /\ In ey l /\
  mf_name tx = s_train_x /\ mf_name ty = s_train_y /\ mf_name ex = s_test_x /\ mf_name ey = s_test_y /\
  mf_rows tx = mf_rows ty /\ mf_rows ex = mf_rows ey /\ mf_cols tx = mf_cols ex /\ mf_cols ty = mf_cols ey.
