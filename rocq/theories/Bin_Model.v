(** Reading of binary data files, nntl/_supp/io/binfile.h.

    A file is the list of its bytes.  [fread_s] of one item of [n] bytes either
    delivers the next [n] bytes or fails (binfile.h tests for [1 != fread_s]).
    Opening the file and seeking back inside of it (binfile.h:196, 273) are taken
    to succeed.  Allocations are answered by the environment ([mem_env] of
    Smx_Model for matrices, a boolean for the temporary conversion buffer).

    The element type of the destination matrices is a parameter: [native] is its
    DATA_TYPES code and [dec t] turns the [esize t] bytes of a stored element of type
    [t] into a value of the destination type (a reinterpretation of memory when
    [t = native], a reinterpretation followed by a static_cast otherwise).

    vec_len_t is int32, numel_cnt_t is int64, size_t is 64 bit wide; byte sizes are
    computed in size_t and wrap around (smatrix.h:918-923). *)
From Verif Require Import Base Smx_Model TData_Model.

Definition file := list N.

(** binfile.h:89-117 *)
Inductive code :=
| Success | FailedToReadHeader | FailedToReadSeqClassHeader | WrongHeaderSignature
| UnsupportedFormatVersion | WrongElementsCount | InvalidSeqClassCount | InvalidSeqClassElement
| FailedToReadFieldEntry | UnsupportedIncorrectDataType | FailedToAllocateMemoryForDataConvertion
| InvalidDataSize | FailedToReadData | UnknownFieldName | FieldHasBeenRead
| FailedToMakeTDOutOfReadData | FailedToPreallocateSeqData | FailedToParseClassId
| IncoherentSeqClassCount | IncoherentMetaAndContent | MemoryAllocationFailed.

Definition is_success (c : code) : bool := match c with Success => true | _ => false end.

(** fread_s of one item of [n] bytes *)
Definition fread (n : N) (f : file) : option (list N * file) :=
  if (n <=? N.of_nat (length f))%N then Some (firstn (N.to_nat n) f, skipn (N.to_nat n) f) else None.

(** little-endian unsigned integers *)
Fixpoint le (l : list N) : N := match l with [] => 0 | b :: l' => b + 256 * le l' end%N.

(** binfile.h:51-62: dwSignature, wVersionNum, wFieldsCount, wSeqClassCount.
    'ltnn' is 0x6C746E6E. *)
Record header := mkH { h_sig : N; h_ver : N; h_fields : N; h_classes : N }.
Definition sub (o n : nat) (l : list N) := firstn n (skipn o l).
Definition parse_header (l : list N) : header :=
  mkH (le (sub 0 4 l)) (le (sub 4 2 l)) (le (sub 6 2 l)) (le (sub 8 2 l)).
Definition signature : N := 1819569774.

(** binfile.h:70-80 *)
Record fentry := mkE { e_rows : N; e_cols : N; e_name : list N; e_type : N }.
Definition parse_entry (l : list N) : fentry :=
  mkE (le (sub 0 4 l)) (le (sub 4 4 l)) (sub 8 15 l) (le (sub 23 1 l)).

(** szName as a C string; the byte after it has been zeroed (binfile.h:264, 362) *)
Fixpoint cstr (l : list N) : list N :=
  match l with [] => [] | b :: l' => if (b =? 0)%N then [] else b :: cstr l' end.

Fixpoint bytes_eq (a b : list N) : bool :=
  match a, b with
  | [], [] => true
  | x :: a', y :: b' => (x =? y)%N && bytes_eq a' b'
  | _, _ => false
  end.

(** binfile.h:220-226: train_x, train_y, test_x, test_y; [None] is total_members *)
Definition s_train_x : list N := [116; 114; 97; 105; 110; 95; 120]%N.
Definition s_train_y : list N := [116; 114; 97; 105; 110; 95; 121]%N.
Definition s_test_x : list N := [116; 101; 115; 116; 95; 120]%N.
Definition s_test_y : list N := [116; 101; 115; 116; 95; 121]%N.
Definition name2id (sz : list N) : option nat :=
  if bytes_eq s_train_x sz then Some 0 else if bytes_eq s_train_y sz then Some 1
  else if bytes_eq s_test_x sz then Some 2 else if bytes_eq s_test_y sz then Some 3 else None.

(** size_t arithmetic *)
Definition wrap64 (n : N) : N := (n mod 2 ^ 64)%N.

(** sizeof of the types of DATA_TYPES (binfile.h:46-49) *)
Definition esize (t : N) : N := if (t =? 0)%N then 8%N else 4%N.

(** consecutive pieces of [k] bytes *)
Fixpoint chunks (k n : nat) (l : list N) : list (list N) :=
  match n with O => [] | S n' => firstn k l :: chunks k n' (skipn k l) end.

Section B.
Context {A : Type} (one : A) (native : N) (dec : N -> list N -> A).
Implicit Types (m : smx A) (me : mem_env A).

(** smatrix.h:1043-1066 resize, 297-316 _realloc: Smx_Model.resize with the byte
    count as the code computes it.  The storage obtained holds
    [byte_size() / sizeof(value_type)] elements. *)
Definition byte_size (numel : nat) : N := wrap64 (N.of_nat numel * esize native).
Definition capacity (numel : nat) : nat := N.to_nat (byte_size numel / esize native).
Definition resize_bytes me m (r c : nat) : option (bool * smx A) :=
  if (r =? 0) || (c =? 0) then Some (false, m)
  else let r' := r + Nat.b2n (s_bias_row m) in
       let c' := c + Nat.b2n (s_bias_col m) in
       do (b, m') <-
         (if (r' =? s_rows m) && (c' =? s_cols m) then Some (true, m)
          else do _ <- guard (negb (s_ext m));
               let m' := with_holey (with_mem (with_dims m r' c') (option_map (block (capacity (r' * c'))) me)) false in
               Some (negb (empty m'), m'));
       if b && s_bias m' then do m'' <- set_biases one m'; Some (b, m'') else Some (b, m').

(** binfile.h:370: static_cast<vec_len_t> makes sizes of 2^31 and more negative, which
    resize() rejects; adding the bias column to the biggest size overflows. *)
Definition resize_file me m (r c : N) : option (bool * smx A) :=
  if (2 ^ 31 <=? r)%N || (2 ^ 31 <=? c)%N then Some (false, m)
  else do _ <- guard (((r + N.b2n (s_bias_row m) <? 2 ^ 31) && (c + N.b2n (s_bias_col m) <? 2 ^ 31))%N);
       resize_bytes me m (N.to_nat r) (N.to_nat c).

(** Stores [vs] at the beginning of the storage of [m]. *)
Definition store_first m (n : nat) (vs : list A) : option (smx A) :=
  do l <- s_data m;
  do l' <- for_loop 0 n (fun i l => do v <- bget vs i; bset l i v) l;
  Some (with_mem m (Some l')).

(** What reading a field leaves behind: error code, destination, the rest of the
    file and whether the temporary buffer has been lost. *)
Record rd := mkRd { rd_code : code; rd_m : smx A; rd_rest : file; rd_leak : bool }.

(** binfile.h:345-417 _impl_read_field_entry, from line 370 on.  [conv]: the temporary
    buffer can be allocated. *)
Definition read_data me (conv : bool) m (e : fentry) (f : file) : option rd :=
  do (ok, m1) <- resize_file me m (e_rows e) (e_cols e);
  if negb ok then Some (mkRd MemoryAllocationFailed m1 f false)
  else
    let ne := s_numel_nb m1 in
    if (e_type e =? native)%N then
      let sz := byte_size ne in
      match fread sz f with
      | None => Some (mkRd FailedToReadData m1 [] false)
      | Some (d, f') =>
          let n := N.to_nat (sz / esize native) in
          do m2 <- store_first m1 n (map (dec native) (chunks (N.to_nat (esize native)) n d));
          Some (mkRd Success m2 f' false)
      end
    else if negb ((e_type e =? 0) || (e_type e =? 1))%N then
      Some (mkRd UnsupportedIncorrectDataType m1 f false)
    else
      let sz := wrap64 (esize (e_type e) * N.of_nat ne) in
      if negb conv then Some (mkRd FailedToAllocateMemoryForDataConvertion m1 f false)
      else match fread sz f with
           | None => Some (mkRd FailedToReadData m1 [] true)
           | Some (d, f') =>
               let n := N.to_nat (sz / esize (e_type e)) in
               (* smatrix.h:1133-1140 *)
               do m2 <- store_first m1 ne (map (dec (e_type e)) (chunks (N.to_nat (esize (e_type e))) n d));
               Some (mkRd Success m2 f' false)
           end.

(** binfile.h:345-368.  [td]: a field of a train_data is being read (pTdFieldId is
    not null); returns the index of the field then. *)
Definition read_field me conv m (td : bool) (f : file) : option (rd * option nat) :=
  if negb (empty m) then Some (mkRd FieldHasBeenRead m f false, None)
  else match fread 24 f with
  | None => Some (mkRd FailedToReadFieldEntry m [] false, None)
  | Some (d, f1) =>
      let e := parse_entry d in
      if (e_rows e =? 0)%N || (e_cols e =? 0)%N then Some (mkRd InvalidDataSize m f1 false, None)
      else if td then
        match name2id (cstr (e_name e)) with
        | None => Some (mkRd UnknownFieldName m f1 false, None)
        | Some id =>
            do r <- read_data me conv (with_flag m (Nat.even id)) e f1; Some (r, Some id)
        end
      else do r <- read_data me conv m e f1; Some (r, None)
  end.

(** binfile.h:314-329 _read_into(smatrix / smatrix_deform) *)
Definition read_into_matrix me conv m (h : header) (f : file) : option (code * smx A * bool) :=
  if negb (h_fields h =? 1)%N then Some (WrongElementsCount, m, false)
  else if negb (h_classes h =? 0)%N then Some (InvalidSeqClassCount, m, false)
  else do (r, _) <- read_field me conv m false f; Some (rd_code r, rd_m r, rd_leak r).

(** binfile.h:284-312 _read_into(train_data): [mx] are the four local matrices;
    [ms], [cs]: the answers of the allocator for the four fields. *)
Fixpoint td_loop (n : nat) (ms : nat -> mem_env A) (cs : nat -> bool) (mx : list (smx A)) (f : file)
    : option (code * list (smx A) * bool) :=
  match n with
  | O => Some (Success, mx, false)
  | S n' =>
      do (r, id) <- read_field (ms 0) (cs 0) init true f;
      if negb (is_success (rd_code r)) then Some (rd_code r, mx, rd_leak r)
      else
        do id <- id;                       (* an uninitialised fieldId *)
        do old <- bget mx id;
        if negb (empty old) then Some (FieldHasBeenRead, mx, rd_leak r)
        else do mx' <- bset mx id (rd_m r);
             do (r', lk) <- td_loop n' (fun i => ms (S i)) (fun i => cs (S i)) mx' (rd_rest r);
             Some (r', rd_leak r || lk)
  end.

Definition read_into_td ms cs (dest : @sets A A) (h : header) (f : file)
    : option (code * @sets A A * bool) :=
  if negb (h_fields h =? 4)%N then Some (WrongElementsCount, dest, false)
  else if negb (h_classes h =? 0)%N then Some (InvalidSeqClassCount, dest, false)
  else
    do (c, mx, lk) <- td_loop 4 ms cs (repeat init 4) f;
    if negb (is_success c) then Some (c, dest, lk)
    else match mx with
         | [a; b; c; d] =>
             let '(ok, dest') := absorb dest a b c d in
             Some (if ok then Success else FailedToMakeTDOutOfReadData, dest', lk)
         | _ => None
         end.

(** ** Sequence data: train_data/seq_data.h.  The classes with their matrices. *)
Definition seqs := list (list (smx A)).
(** seq_data.h:86-93 *)
Definition seq_empty (q : seqs) : bool :=
  match q with
  | [] => true
  | _ => existsb (fun e => match e with [] => true | _ => existsb empty e end) q
  end.
(** seq_data.h:140-158 (allocation succeeds) *)
Definition prealloc_classes (q : seqs) (cnt : list N) : bool * seqs :=
  match q, cnt with
  | [], _ :: _ => (true, map (fun c => repeat init (N.to_nat c)) cnt)
  | _, _ => (false, q)
  end.
(** seq_data.h:160-169: the position of the first empty matrix of the class *)
Fixpoint first_empty (l : list (smx A)) : option nat :=
  match l with
  | [] => None
  | m :: l' => if empty m then Some 0 else option_map S (first_empty l')
  end.
Definition next_mtx (q : seqs) (cls : nat) : option nat :=
  match nth_error q cls with None => None | Some l => first_empty l end.

(** sscanf_s(name, "c%d", &classId): the letter, white space, a sign, decimal digits;
    the value assigned or nothing.  A number which doesn't fit in an int is undefined
    behaviour (checked by the caller). *)
Definition is_space (b : N) : bool := ((b =? 32) || ((9 <=? b) && (b <=? 13)))%N.
Definition is_digit (b : N) : bool := ((48 <=? b) && (b <=? 57))%N.
Fixpoint skip_space (l : list N) : list N :=
  match l with b :: l' => if is_space b then skip_space l' else l | [] => [] end.
Fixpoint digits (acc : Z) (l : list N) : Z :=
  match l with
  | b :: l' => if is_digit b then digits (acc * 10 + (Z.of_N b - 48)) l' else acc
  | [] => acc
  end%Z.
Definition unsigned_number (l : list N) : option Z :=
  match l with
  | b :: _ => if is_digit b then Some (digits 0 l) else None
  | [] => None
  end.
Definition scan_number (l : list N) : option Z :=
  match skip_space l with
  | b :: l' => if (b =? 43)%N then unsigned_number l'
               else if (b =? 45)%N then option_map Z.opp (unsigned_number l')
               else unsigned_number (b :: l')
  | [] => None
  end.
Definition scan_class (sz : list N) : option Z :=
  match sz with
  | b :: l => if (b =? 99)%N then scan_number l else None
  | [] => None
  end.

(** binfile.h:233-246: the CLASS_ENTRY table *)
Fixpoint read_classes (n : nat) (f : file) : code * list N * file :=
  match n with
  | O => (Success, [], f)
  | S n' =>
      match fread 2 f with
      | None => (FailedToReadSeqClassHeader, [], [])
      | Some (d, f1) =>
          if (le d =? 0)%N then (InvalidSeqClassElement, [], f1)
          else let '(c, l, f2) := read_classes n' f1 in (c, le d :: l, f2)
      end
  end.

(** binfile.h:252-277 *)
Fixpoint seq_loop (n : nat) (ms : nat -> mem_env A) (cs : nat -> bool) (q : seqs) (f : file)
    : option (code * seqs * bool) :=
  match n with
  | O => Some (Success, q, false)
  | S n' =>
      match fread 24 f with
      | None => Some (FailedToReadFieldEntry, q, false)
      | Some (d, _) =>
          match scan_class (cstr (e_name (parse_entry d))) with
          | None => Some (FailedToParseClassId, q, false)
          | Some cls =>
              do _ <- guard ((- 2 ^ 31 <=? cls) && (cls <? 2 ^ 31))%Z;
              if (cls <? 1)%Z then Some (FailedToParseClassId, q, false)
              else
                let k := Z.to_nat (cls - 1) in
                match next_mtx q k with
                | None => Some (IncoherentSeqClassCount, q, false)
                | Some j =>
                    do row <- bget q k;
                    do m <- bget row j;
                    do (r, _) <- read_field (ms 0) (cs 0) m false f;
                    do row' <- bset row j (rd_m r);
                    do q' <- bset q k row';
                    if negb (is_success (rd_code r)) then Some (rd_code r, q', rd_leak r)
                    else do (r', lk) <- seq_loop n' (fun i => ms (S i)) (fun i => cs (S i)) q' (rd_rest r);
                         Some (r', rd_leak r || lk)
                end
          end
      end
  end.

(** binfile.h:228-282 _read_into(seq_data) *)
Definition read_into_seq ms cs (q : seqs) (h : header) (f : file) : option (code * seqs * bool) :=
  if (h_fields h <=? h_classes h)%N then Some (WrongElementsCount, q, false)
  else
    let '(c, cnt, f1) := read_classes (N.to_nat (h_classes h)) f in
    if negb (is_success c) then Some (c, q, false)
    else
      let total := fold_right N.add 0%N cnt in
      if negb (total + h_classes h =? h_fields h)%N then Some (WrongElementsCount, q, false)
      else
        let '(ok, q1) := prealloc_classes q cnt in
        if negb ok then Some (FailedToPreallocateSeqData, q, false)
        else
          do (c, q2, lk) <- seq_loop (N.to_nat total) ms cs q1 f1;
          if negb (is_success c) then Some (c, q2, lk)
          else Some (if seq_empty q2 then IncoherentMetaAndContent else Success, q2, lk).

(** ** binfile.h:185-209 read, after the file has been opened *)
Definition read_header (f : file) : code + (header * file) :=
  match fread 10 f with
  | None => inl FailedToReadHeader
  | Some (d, f1) =>
      let h := parse_header d in
      if negb (h_sig h =? signature)%N then inl WrongHeaderSignature
      else if negb (h_ver h =? 0)%N then inl UnsupportedFormatVersion
      else inr (h, f1)
  end.

Definition read_matrix me conv m (f : file) : option (code * smx A * bool) :=
  match read_header f with
  | inl c => Some (c, m, false)
  | inr (h, f1) => read_into_matrix me conv m h f1
  end.
Definition read_td ms cs dest (f : file) : option (code * @sets A A * bool) :=
  match read_header f with
  | inl c => Some (c, dest, false)
  | inr (h, f1) => read_into_td ms cs dest h f1
  end.
Definition read_seq ms cs q (f : file) : option (code * seqs * bool) :=
  match read_header f with
  | inl c => Some (c, q, false)
  | inr (h, f1) => read_into_seq ms cs q h f1
  end.
End B.

(** ** The exporter: nntl/_supp/matlab/export_2bin.m:1-94 for a struct or a matrix
    (no sequences).  A field of the struct: its name (characters are bytes), sizes and
    elements as fwrite stores them; [mf_type]: 0 for class double, 1 for single,
    anything else is a class data_type() refuses (98-108).  [drop]: bDropUnknown, true
    by default for structs, false for matrices (7-20).  [None]: error(). *)
Record mfield := mkMF { mf_name : list N; mf_rows : N; mf_cols : N; mf_type : N; mf_elems : list (list N) }.
Fixpoint le_bytes (k : nat) (n : N) : list N :=
  match k with O => [] | S k' => (n mod 256)%N :: le_bytes k' (n / 256)%N end.
(** fwrite to an unsigned integer format saturates *)
Definition sat (k : nat) (n : N) : list N := le_bytes k (N.min n (256 ^ N.of_nat k - 1)).
Definition export_field (x : mfield) : option (list N) :=
  do _ <- guard (length (mf_name x) <=? 15);
  do _ <- guard ((mf_type x =? 0) || (mf_type x =? 1))%N;
  Some (sat 4 (mf_rows x) ++ sat 4 (mf_cols x) ++ mf_name x ++ repeat 0%N (15 - length (mf_name x)) ++
        [mf_type x] ++ concat (mf_elems x)).
Definition is_td_name (s : list N) : bool := match name2id s with Some _ => true | None => false end.
Fixpoint export_fields (drop : bool) (l : list mfield) : option (list N) :=
  match l with
  | [] => Some []
  | x :: l' =>
      if drop && negb (is_td_name (mf_name x)) then export_fields drop l'
      else do a <- export_field x; do b <- export_fields drop l'; Some (a ++ b)
  end.
Definition export_struct (drop : bool) (l : list mfield) : option (list N) :=
  do b <- export_fields drop l;
  Some ([110; 110; 116; 108]%N ++ sat 2 0 ++ sat 2 (N.of_nat (length l)) ++ sat 2 0 ++ b).
