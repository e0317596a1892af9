(** Archives in Matlab files.  nntl/_supp/io/matfile.h, nntl/utils/matlab.h.

    Not modelled: Matlab's library itself (its calls fail or do what is documented), opening,
    the lengths of names, complex numbers, leaks of Matlab's arrays.  Elements are numbers; for
    the floating-point classes a number stands for its bit pattern. *)
From Coq Require Import String List.
From Verif Require Import Base Smx_Model.
Import ListNotations.

Inductive cls := Logical | Int (sgn : bool) (w : Z) | Single | Double.
Definition cls_eqb (a b : cls) : bool :=
  match a, b with
  | Logical, Logical | Single, Single | Double, Double => true
  | Int s w, Int s' w' => Bool.eqb s s' && (w =? w')%Z
  | _, _ => false
  end.

(** mxArray: a numeric matrix; a 1x1 structure; another array of structures; anything else *)
Inductive mx :=
| Num (k : cls) (r c : nat) (d : list Z)
| Str (fs : list (string * mx))
| StrArr (r c : nat)
| Other.

Inductive ecode :=
| Success | WrongState_NameAlreadySet | WrongState_NoName | NoFileOpened | FailedToAllocateMxData
| FailedToTransferVariable | CantAddNewFieldToStruct | FailedToCreateStructVariable
| WrongVariableTypeHasBeenRead | EmptyVariableHasBeenRead | NoMemoryToCreateReadVariable
| NoStructToSave | WrongState_NoStructAllocated | WrongStateStructUnsaved | WrongStateManualStructUnsaved | ErrorClosingFile.
Definition is_ok (e : ecode) : bool := match e with Success => true | _ => false end.

Definition fields := list (string * mx).
Fixpoint lookup (n : string) (l : fields) : option mx :=
  match l with [] => None | (m, v) :: l' => if String.eqb n m then Some v else lookup n l' end.
(** replace the value, or add a field at the end *)
Fixpoint store (n : string) (v : mx) (l : fields) : fields :=
  match l with
  | [] => [(n, v)]
  | (m, w) :: l' => if String.eqb n m then (n, v) :: l' else (m, w) :: store n v l'
  end.

(** An entry of m_structureStack; [e_alias]: the pointer is that of a field of the structure
    below it (what is stored through it is kept here as a copy: the field itself is not looked
    at again before the entry is saved) *)
Record entry := mkE { e_fs : fields; e_alias : bool }.

(** m_matFile, whether the file was opened for reading too, m_curVarName, m_structureStack,
    m_nestedStructs, the last error, the variables of the file, the number of library calls *)
Record ar := mkAr {
  a_open : bool; a_rd : bool; a_name : option string; a_stk : list entry;
  a_nest : list (string * option entry); a_err : ecode; a_file : fields; a_calls : nat }.
Definition with_name s n := mkAr (a_open s) (a_rd s) n (a_stk s) (a_nest s) (a_err s) (a_file s) (a_calls s).
Definition with_stk s k := mkAr (a_open s) (a_rd s) (a_name s) k (a_nest s) (a_err s) (a_file s) (a_calls s).
Definition with_nest s k := mkAr (a_open s) (a_rd s) (a_name s) (a_stk s) k (a_err s) (a_file s) (a_calls s).
Definition with_err s e := mkAr (a_open s) (a_rd s) (a_name s) (a_stk s) (a_nest s) e (a_file s) (a_calls s).
Definition with_file s f := mkAr (a_open s) (a_rd s) (a_name s) (a_stk s) (a_nest s) (a_err s) f (a_calls s).
Definition tick s := mkAr (a_open s) (a_rd s) (a_name s) (a_stk s) (a_nest s) (a_err s) (a_file s) (S (a_calls s)).
(** "update last_error only if an error occured" *)
Definition note_err s (e : ecode) : ar := if is_ok e then s else with_err s e.

(** What a serialize() function passes to the archive: named values and named structures *)
Inductive value := VScal (k : cls) (z : Z) | VMat (k : cls) (m : smx Z).
Inductive item := INvp (n : string) (v : value) | INamed (n : string) (l : items)
with items := inil | icons (i : item) (l : items).

Section W.
(** [ok]: whether the n-th call of Matlab's library succeeds *)
Context (ok : nat -> bool).

(** matfile.h:183-212 _save_to_file_or_struct: into the current structure, or into the file *)
Definition save_to (v : mx) s : ecode * ar :=
  match a_name s with
  | None => (WrongState_NoName, s) (* asserted not to happen *)
  | Some n =>
      match a_stk s with
      | [] =>
          if ok (a_calls s) then (Success, tick (with_name (with_file s (store n v (a_file s))) None))
          else (FailedToTransferVariable, tick s)
      | e :: st =>
          match lookup n (e_fs e) with
          | Some _ => (Success, with_name (with_stk s (mkE (store n v (e_fs e)) (e_alias e) :: st)) None)
          | None =>
              if ok (a_calls s) then (Success, tick (with_name (with_stk s (mkE (store n v (e_fs e)) (e_alias e) :: st)) None))
              else (CantAddNewFieldToStruct, tick s)
          end
      end
  end.
(** 165-181 _save_var *)
Definition save_var (k : cls) (r c : nat) (d : list Z) s : ar :=
  let '(e, s) :=
    if a_open s then
      match a_name s with
      | Some _ => if ok (a_calls s) then save_to (Num k r c d) (tick s) else (FailedToAllocateMxData, tick s)
      | None => (WrongState_NoName, s)
      end
    else (NoFileOpened, s) in
  note_err s e.
(** 509-515, 536-541: numbers and matrices (with their biases); null data may not be accessed *)
Definition save_value (v : value) s : option ar :=
  match v with
  | VScal k z => Some (save_var k 1 1 [z] s)
  | VMat k m => do l <- s_data m; Some (save_var k (s_rows m) (s_cols m) (firstn (s_numel m) l) s)
  end.
(** 392-407 nvp, 411-445 named_struct *)
Fixpoint save_item (i : item) s : option ar :=
  if negb (is_ok (a_err s)) then Some s else
  match i with
  | INvp n v =>
      if a_open s then
        match a_name s with
        | Some _ => Some (with_err s WrongState_NameAlreadySet)
        | None => save_value v (with_name s (Some n))
        end
      else Some (with_err s NoFileOpened)
  | INamed n l =>
      if a_open s then
        match a_name s with
        | Some _ => Some (with_err s WrongState_NameAlreadySet)
        | None =>
            if ok (a_calls s) then
              do s <- save_items l (with_stk (tick s) (mkE [] false :: a_stk s));
              match a_stk s with
              | [] => None
              | e :: st =>
                  let '(ec, s) := save_to (Str (e_fs e)) (with_name (with_stk s st) (Some n)) in
                  Some (note_err s ec)
              end
            else Some (with_err (tick s) FailedToCreateStructVariable)
        end
      else Some (with_err s NoFileOpened)
  end
with save_items (l : items) s : option ar :=
  match l with
  | inil => Some s
  | icons i l' => do s <- save_item i s; save_items l' s
  end.

(** 216-247 _load_var: the array, if any, and its sizes; the error is noted.  [true]: it is a field *)
Definition dims (v : mx) : nat * nat :=
  match v with Num _ r c _ => (r, c) | Str _ => (1, 1) | StrArr r c => (r, c) | Other => (0, 0) end.
Definition is_struct (v : mx) : bool := match v with Str _ | StrArr _ _ => true | _ => false end.
Definition is_num (v : mx) : bool := match v with Num _ _ _ _ => true | _ => false end.
Definition load_var (expectStruct : bool) s : option mx * ar :=
  if negb (a_open s) then (None, with_err s NoFileOpened)
  else
    match a_name s with
    | None => (None, with_err s WrongState_NoName)
    | Some n =>
        let found := match a_stk s with
                     | e :: _ => lookup n (e_fs e)
                     | [] => if a_rd s then lookup n (a_file s) else None
                     end in
        match found with
        | None => (None, with_err s FailedToTransferVariable)
        | Some v =>
            if (expectStruct && is_struct v) || (negb expectStruct && is_num v) then
              let '(r, c) := dims v in
              (Some v, if (r =? 0) || (c =? 0) then with_err s EmptyVariableHasBeenRead else s)
            else (None, with_err s WrongVariableTypeHasBeenRead)
        end
    end.

(** Conversions.  [fd], [fs]: of a double or a float to a class; [fi]: of an integer.
    utils/matlab.h:74-111: integers are read through pointers to the unsigned types *)
Context (fd fs fi : cls -> Z -> Z).
Definition conv (dst src : cls) (z : Z) : option Z :=
  if cls_eqb dst src then Some z
  else
    match src with
    | Double => Some (fd dst z)
    | Single => Some (fs dst z)
    | Int _ w => if ((w =? 64) || (w =? 32) || (w =? 8))%Z then Some (fi dst (z mod 2 ^ w)%Z) else None
    | Logical => Some (fi dst z)
    end.

Context (one : cls -> Z) (me : nat -> mem_env Z).

(** smatrix.h:1133-1146 fill_from_array_no_bias *)
Fixpoint fill_from (k src : cls) (d : list Z) (n i : nat) (l : list Z) : option (option (list Z)) :=
  match n with
  | O => Some (Some l)
  | S n' =>
      do z <- nth_error d i;
      match conv k src z with
      | None => Some None
      | Some z' => do l' <- bset l i z'; fill_from k src d n' (S i) l'
      end
  end.
(** 566-589: a matrix; the last column of train_x and of test_x is taken for biases *)
Definition is_x (n : string) : bool := String.eqb "train_x"%string n || String.eqb "test_x"%string n.
Definition load_mat (k : cls) (t : smx Z) s : option (smx Z * ar) :=
  let '(pv, s) := load_var false s in
  match pv with
  | None => Some (t, s)
  | Some (Num k' r c d) =>
      do n <- a_name s;
      let t := clear t in
      let s := tick s in
      let '(bad, t, c) := if is_x n then (c - 1 =? 0, with_flag t (negb (c - 1 =? 0) || s_bias t), c - 1)%nat else (false, with_flag t false, c) in
      if bad then Some (t, with_err s EmptyVariableHasBeenRead)
      else
        do (b, t) <- resize (one k) (me (a_calls s)) t r c;
        if b then
          do l <- s_data t;
          do f <- fill_from k k' d (s_numel_nb t) 0 l;
          match f with
          | Some l' => Some (with_mem t (Some l'), with_name s None)
          | None => Some (t, with_err s WrongVariableTypeHasBeenRead)
          end
        else Some (t, with_err s NoMemoryToCreateReadVariable)
  | Some _ => None
  end.
(** 602-615: a number *)
Definition load_scal (k : cls) (z : Z) s : option (Z * ar) :=
  let '(pv, s) := load_var false s in
  match pv with
  | None => Some (z, s)
  | Some (Num k' r c d) =>
      if (r =? 1) && (c =? 1) && cls_eqb k k' then do z' <- nth_error d 0; Some (z', with_name s None)
      else Some (z, with_err s WrongVariableTypeHasBeenRead)
  | Some _ => None
  end.
Definition load_value (v : value) s : option (value * ar) :=
  match v with
  | VScal k z => do (z', s) <- load_scal k z s; Some (VScal k z', s)
  | VMat k m => do (m', s) <- load_mat k m s; Some (VMat k m', s)
  end.
(** 449-464 nvp, 472-501 named_struct; the destinations are the values of the item *)
Fixpoint load_item (i : item) s : option (item * ar) :=
  if negb (is_ok (a_err s)) then Some (i, s) else
  match i with
  | INvp n v =>
      if a_open s then
        match a_name s with
        | Some _ => Some (i, with_err s WrongState_NameAlreadySet)
        | None => do (v', s) <- load_value v (with_name s (Some n)); Some (INvp n v', s)
        end
      else Some (i, with_err s NoFileOpened)
  | INamed n l =>
      if a_open s then
        match a_name s with
        | Some _ => Some (i, with_err s WrongState_NameAlreadySet)
        | None =>
            let '(pv, s) := load_var true (with_name s (Some n)) in
            let s := with_name s None in
            match pv with
            | None => Some (i, s)
            | Some (Str f) =>
                do (l', s') <- load_items l (with_stk s (mkE f (negb (match a_stk s with [] => true | _ => false end)) :: a_stk s));
                Some (INamed n l', with_stk s' (tl (a_stk s')))
            | Some _ => Some (i, with_err s WrongVariableTypeHasBeenRead)
            end
        end
      else Some (i, with_err s NoFileOpened)
  end
with load_items (l : items) s : option (items * ar) :=
  match l with
  | inil => Some (inil, s)
  | icons i l' => do (i', s) <- load_item i s; do (l'', s) <- load_items l' s; Some (icons i' l'', s)
  end.

(** 678-726 save_struct_begin *)
Definition struct_begin (n : string) (upd dontNest : bool) s : ecode * ar :=
  if negb (is_ok (a_err s)) then (a_err s, s) else
  if negb (a_open s) then (NoFileOpened, with_err s NoFileOpened) else
  match a_name s with
  | Some _ => (WrongState_NameAlreadySet, with_err s WrongState_NameAlreadySet)
  | None =>
      let '(old, s) := match dontNest, a_stk s with
                       | true, e :: st => (Some e, with_stk s st)
                       | _, _ => (None, s)
                       end in
      let '(new, s) :=
        if upd then
          let '(pv, s1) := load_var true (with_name s (Some n)) in
          let s1 := with_name s1 None in
          match pv with
          | Some (Str f) => (Some (mkE f (negb (match a_stk s with [] => true | _ => false end))), s1)
          | Some _ => (None, s1)
          | None => (None, with_err s1 Success)
          end
        else (None, s) in
      let '(new, s) :=
        match new with
        | Some e => (Some e, s)
        | None => if ok (a_calls s) then (Some (mkE [] false), tick s) else (None, tick s)
        end in
      match new with
      | Some e => (Success, with_stk (with_nest s ((n, old) :: a_nest s)) (e :: a_stk s))
      | None =>
          let s := match old with Some e => with_stk s (e :: a_stk s) | None => s end in
          (FailedToCreateStructVariable, with_err s FailedToCreateStructVariable)
      end
  end.
(** 729-765 save_struct_end; [None]: a field that is the structure itself is destroyed and
    then used *)
Definition struct_end s : option (ecode * ar) :=
  if negb (is_ok (a_err s)) then Some (a_err s, s) else
  match a_nest s with
  | [] => Some (NoStructToSave, with_err s NoStructToSave)
  | (n, old) :: nest' =>
      if negb (a_open s) then Some (NoFileOpened, with_err s NoFileOpened) else
      match a_name s with
      | Some _ => Some (WrongState_NameAlreadySet, with_err s WrongState_NameAlreadySet)
      | None =>
          match a_stk s with
          | [] => Some (WrongState_NoStructAllocated, with_err s WrongState_NoStructAllocated)
          | e :: st =>
              do _ <- guard (negb (e_alias e));
              let '(ec, s) := save_to (Str (e_fs e)) (with_name (with_stk s st) (Some n)) in
              let s := match old with Some o => with_stk s (o :: a_stk s) | None => s end in
              let s := with_nest s nest' in
              Some (ec, note_err s ec)
          end
      end
  end.

(** 301-327, 649-670 close *)
Definition close s : ecode * ar :=
  let e0 := match a_nest s with [] => Success | _ => WrongStateManualStructUnsaved end in
  let e1 := match a_name s with None => Success | _ => WrongState_NameAlreadySet end in
  let e2 := match a_stk s with [] => e1 | _ => WrongStateStructUnsaved end in
  let '(e3, k) := if a_open s then ((if ok (a_calls s) then e2 else ErrorClosingFile), S (a_calls s)) else (e2, a_calls s) in
  let ec := if is_ok e0 then e3 else e0 in
  (ec, mkAr false false None [] [] ec (a_file s) k).

(** A program that saves *)
Inductive op := OSave (i : item) | OBegin (n : string) (upd dontNest : bool) | OEnd.
Definition run_op (o : op) s : option ar :=
  match o with
  | OSave i => save_item i s
  | OBegin n u d => Some (snd (struct_begin n u d s))
  | OEnd => do (_, s) <- struct_end s; Some s
  end.
Fixpoint run_ops (l : list op) s : option ar :=
  match l with [] => Some s | o :: l' => do s <- run_op o s; run_ops l' s end.
End W.

(** After a successful open(); [rd]: for updating or reading *)
Definition opened (rd : bool) (f : fields) : ar := mkAr true rd None [] [] Success f 0.
