(** [jsonreader]: reading matrices and train data from JSON files.
    nntl/_supp/io/jsonreader.h.

    Simplifications: rapidjson is not modelled; a file is one that can't be opened, one
    that rapidjson rejects, or a parsed document.  A parsed number is either an integer or
    a double (rapidjson's kNumberInt*Flag / kNumberDoubleFlag).  Sizes are natural numbers,
    compared with the largest vec_len_t where the code does; m_parseError and
    m_parseErrorOffset are not kept.  The number of bytes of the storage is not checked
    for overflow (such an allocation fails in practice). *)
From Verif Require Import Base Kern_Model Smx_Model TData_Model.
From Coq Require Import String List.
Local Open Scope list_scope.

(** Parsed documents *)
Inductive num (D : Type) := NInt (z : Z) | NDbl (d : D).
Arguments NInt {D}. Arguments NDbl {D}.
Inductive json (D : Type) :=
| JNull | JBool (b : bool) | JStr (s : string) | JNum (n : num D)
| JArr (l : list (json D)) | JObj (ms : list (string * json D)).
Arguments JNull {D}. Arguments JBool {D}. Arguments JStr {D}. Arguments JNum {D}.
Arguments JArr {D}. Arguments JObj {D}.
Inductive file (D : Type) := NoFile | BadJson | Doc (j : json D).
Arguments NoFile {D}. Arguments BadJson {D}. Arguments Doc {D}.

(** jsonreader.h:183-188 *)
Inductive member := TrainX | TrainY | TestX | TestY.
(** jsonreader.h:71-89 *)
Inductive ecode :=
| Success | FailedToOpenFile | FailedToParseJson | RootIsNotAnObject
| NoField (m : member)        (* NoTrainX, NoTrainY, NoTestX, NoTestY *)
| InvalidField (m : member)   (* InvalidTrainX, ... *)
| MismatchingDataLength | MemoryAllocationFailed.

(** jsonreader.h:192-202 *)
Definition member_str (m : member) : string :=
  match m with TrainX => "train_x" | TrainY => "train_y" | TestX => "test_x" | TestY => "test_y" end%string.
(** jsonreader.h:204-209: the code passed in is not looked at *)
Definition members2ErrorCode (b : ecode) (m : member) : ecode := NoField m.

(** rapidjson's FindMember: the first member of that name *)
Fixpoint find_member {D} (ms : list (string * json D)) (name : string) : option (json D) :=
  match ms with
  | [] => None
  | (k, v) :: ms' => if String.eqb k name then Some v else find_member ms' name
  end.

Definition fits_len (n : nat) : bool := (Z.of_nat n <=? max_vec_len)%Z.

(** jsonreader.h:285-296 _extract_value, for the three kinds of elements.  GetInt64()
    and GetUint64() assert that the number has been parsed as such an integer; the cast
    to a narrower type keeps its [w] lowest bits (rapidjson document.h: IsInt64, IsUint64). *)
Definition extract_float {D A} (of_double : D -> A) (of_int : Z -> A) (n : num D) : option A :=
  match n with NInt z => Some (of_int z) | NDbl d => Some (of_double d) end.
Definition wrap_signed (w : Z) (z : Z) : Z := ((z + 2 ^ (w - 1)) mod 2 ^ w - 2 ^ (w - 1))%Z.
Definition extract_signed {D} (w : Z) (n : num D) : option Z :=
  match n with
  | NInt z => if ((- 2 ^ 63 <=? z) && (z <? 2 ^ 63))%Z then Some (wrap_signed w z) else None
  | NDbl _ => None
  end.
Definition extract_unsigned {D} (w : Z) (n : num D) : option Z :=
  match n with
  | NInt z => if ((0 <=? z) && (z <? 2 ^ 64))%Z then Some (z mod 2 ^ w)%Z else None
  | NDbl _ => None
  end.

Section J.
Context {D A : Type} (one : A) (extract : num D -> option A).
Implicit Types (d : smx A) (me : mem_env A).

(** smatrix.h:1043-1052 called with sizes converted from rapidjson's SizeType: a size above
    the largest vec_len_t becomes negative and is refused; the sizes with the biases are
    computed in vec_len_t *)
Definition resize_checked me d (r c : nat) : option (bool * smx A) :=
  if negb (fits_len r && fits_len c) then Some (false, d)
  else do _ <- guard (fits_len (r + Nat.b2n (s_bias_row d)) && fits_len (c + Nat.b2n (s_bias_col d)));
       resize one me d r c.

(** jsonreader.h:247-257; [false]: an element which is not a number *)
Fixpoint row_loop (i j : nat) (row : list (json D)) d : option (bool * smx A) :=
  match row with
  | [] => Some (true, d)
  | JNum n :: row' => do v <- extract n; do d' <- set d j i v; row_loop i (S j) row' d'
  | _ :: _ => Some (false, clear d)
  end.
(** jsonreader.h:239-258 *)
Fixpoint mtx_loop (inrd i : nat) (rows : list (json D)) d : option (bool * smx A) :=
  match rows with
  | [] => Some (true, d)
  | JArr row :: rows' =>
      if inrd =? length row then
        do (ok, d') <- row_loop i 0 row d;
        if ok then mtx_loop inrd (S i) rows' d' else Some (false, d')
      else Some (false, clear d)
  | _ :: _ => Some (false, clear d)
  end.
(** jsonreader.h:228-260; [vec] starts with the array [fst_row] *)
Definition parse_as_mtx me (m : member) (vec fst_row : list (json D)) d : option (ecode * smx A) :=
  if negb (fits_len (length fst_row)) then Some (members2ErrorCode (InvalidField TrainX) m, d)
  else let inrd := length fst_row in
  if inrd =? 0 then Some (members2ErrorCode (InvalidField TrainX) m, d)
  else do (b, d1) <- resize_checked me d inrd (length vec);
  if negb b then Some (MemoryAllocationFailed, d1)
  else do (ok, d2) <- mtx_loop inrd 0 vec d1;
  if ok then Some (Success, d2) else Some (members2ErrorCode (InvalidField TrainX) m, d2).

(** jsonreader.h:270-281 *)
Fixpoint vec_loop (i : nat) (vec : list (json D)) d : option (bool * smx A) :=
  match vec with
  | [] => Some (true, d)
  | JNum n :: vec' => do v <- extract n; do d' <- set d i 0 v; vec_loop (S i) vec' d'
  | _ :: _ => Some (false, clear d)
  end.
(** jsonreader.h:262-283 *)
Definition parse_as_vector me (m : member) (vec : list (json D)) d : option (ecode * smx A) :=
  if negb (fits_len (length vec)) then Some (members2ErrorCode (InvalidField TrainX) m, d)
  else do (b, d1) <- resize_checked me d (length vec) 1;
  if negb b then Some (MemoryAllocationFailed, d1)
  else do (ok, d2) <- vec_loop 0 vec d1;
  if ok then Some (Success, d2) else Some (members2ErrorCode (InvalidField TrainX) m, d2).

(** jsonreader.h:211-226 *)
Definition parse_mtx me (ms : list (string * json D)) (m : member) d : option (ecode * smx A) :=
  match find_member ms (member_str m) with
  | None => Some (members2ErrorCode (NoField TrainX) m, d)
  | Some (JArr (JArr row :: vec)) => parse_as_mtx me m (JArr row :: vec) row d
  | Some (JArr (x :: vec)) => parse_as_vector me m (x :: vec) d
  | Some _ => Some (members2ErrorCode (InvalidField TrainX) m, d)
  end.

(** smatrix.h:620-623; the assertion aborts *)
Definition will_emulate_biases d : option (smx A) :=
  do _ <- guard (empty d && (s_rows d =? 0) && (s_cols d =? 0)); Some (with_flag d true).

(** jsonreader.h:333-342 *)
Definition parse_doc_mtx me (j : json D) d (bMakeMtxBiased : bool) : option (ecode * smx A) :=
  match j with
  | JObj ms =>
      do d1 <- (if bMakeMtxBiased then will_emulate_biases d else Some d);
      parse_mtx me ms TrainX d1
  | _ => Some (RootIsNotAnObject, d)
  end.
(** jsonreader.h:154-181 *)
Definition read_mtx me (f : file D) d (bMakeMtxBiased : bool) : option (ecode * smx A) :=
  match f with
  | NoFile => Some (FailedToOpenFile, d)
  | BadJson => Some (FailedToParseJson, d)
  | Doc j => parse_doc_mtx me j d bMakeMtxBiased
  end.
End J.

Section T.
Context {D X Y : Type} (onex : X) (oney : Y) (exx : num D -> option X) (exy : num D -> option Y).

(** jsonreader.h:304-331; [mx], [my], [ex], [ey]: what the allocations for train_x, train_y,
    test_x and test_y do.  The four local matrices are freed on every early return. *)
Definition parse_doc_td mx my ex ey (j : json D) (dest : @sets X Y) : option (ecode * @sets X Y) :=
  match j with
  | JObj ms =>
      do tr_x0 <- will_emulate_biases init;
      do t_x0 <- will_emulate_biases init;
      do (c, tr_x) <- parse_mtx onex exx mx ms TrainX tr_x0;
      match c with Success =>
        do (c, tr_y) <- parse_mtx oney exy my ms TrainY init;
        match c with Success =>
          do (c, t_x) <- parse_mtx onex exx ex ms TestX t_x0;
          match c with Success =>
            do (c, t_y) <- parse_mtx oney exy ey ms TestY init;
            match c with Success =>
              let '(ok, dest') := absorb dest tr_x tr_y t_x t_y in
              if ok then Some (Success, dest') else Some (MismatchingDataLength, dest')
            | _ => Some (c, dest) end
          | _ => Some (c, dest) end
        | _ => Some (c, dest) end
      | _ => Some (c, dest) end
  | _ => Some (RootIsNotAnObject, dest)
  end.
Definition read_td mx my ex ey (f : file D) (dest : @sets X Y) : option (ecode * @sets X Y) :=
  match f with
  | NoFile => Some (FailedToOpenFile, dest)
  | BadJson => Some (FailedToParseJson, dest)
  | Doc j => parse_doc_td mx my ex ey j dest
  end.
End T.
