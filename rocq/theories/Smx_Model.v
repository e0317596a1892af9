(** [smatrix] / [smatrix_deform]: shape, flags and storage management.
    nntl/interface/math/smatrix.h.

    Simplifications: sizes are natural numbers (the code rejects non-positive
    ones at the same places where [0] is rejected here); the debug-only member
    m_maxSize is not modelled, instead every memory access is checked against the
    length of the storage; a freshly allocated block has arbitrary content,
    supplied by the environment. *)
From Verif Require Import Base Kern_Model.

Record smx (A : Type) := mkS {
  s_rows : nat; s_cols : nat;
  s_bias : bool;              (* m_bEmulateBiases *)
  s_ext : bool;               (* m_bDontManageStorage *)
  s_holey : bool;             (* m_bHoleyBiases *)
  s_bir : bool;               (* m_bBatchInRow *)
  s_data : option (list A) }. (* None: m_pData == nullptr *)
Arguments mkS {A}. Arguments s_rows {A}. Arguments s_cols {A}. Arguments s_bias {A}.
Arguments s_ext {A}. Arguments s_holey {A}. Arguments s_bir {A}. Arguments s_data {A}.

(** What _aligned_malloc does: fail, or return a block with some content. *)
Definition mem_env (A : Type) := option (nat -> A).
Definition block {A} (n : nat) (f : nat -> A) : list A := map f (seq 0 n).

Section S.
Context {A : Type} (one zero nan : A).
Implicit Types (s d : smx A) (me : mem_env A).

(** The matrix as seen by the kernels; null data may not be accessed. *)
Definition as_mtx s : option (mtx A) :=
  do l <- s_data s; Some (mkM (s_rows s) (s_cols s) (s_bias s) (s_bir s) l).

(** smatrix.h:796-868 *)
Definition s_bias_row s := s_bias s && s_bir s.
Definition s_bias_col s := s_bias s && negb (s_bir s).
Definition s_rows_nb s := s_rows s - Nat.b2n (s_bias_row s).
Definition s_cols_nb s := s_cols s - Nat.b2n (s_bias_col s).
Definition s_numel s := s_rows s * s_cols s.
Definition s_numel_nb s := s_rows_nb s * s_cols_nb s.
(** smatrix.h:464-469 sample_size, batch_size *)
Definition sample_size s := if s_bir s then s_rows_nb s else s_cols_nb s.
Definition batch_size s := if s_bir s then s_cols s else s_rows s.
(** smatrix.h:925 empty, 553-555 isAllocationFailed *)
Definition empty s := match s_data s with None => true | _ => false end.
Definition alloc_failed s := empty s && (0 <? s_rows s) && (0 <? s_cols s).

Definition with_dims s r c := mkS r c (s_bias s) (s_ext s) (s_holey s) (s_bir s) (s_data s).
Definition with_flag s b := mkS (s_rows s) (s_cols s) b (s_ext s) (s_holey s) (s_bir s) (s_data s).
Definition with_holey s h := mkS (s_rows s) (s_cols s) (s_bias s) (s_ext s) h (s_bir s) (s_data s).
Definition with_bir s b := mkS (s_rows s) (s_cols s) (s_bias s) (s_ext s) (s_holey s) b (s_data s).
Definition with_mem s (l : option (list A)) := mkS (s_rows s) (s_cols s) (s_bias s) (s_ext s) (s_holey s) (s_bir s) l.

(** smatrix.h:297-316; aborts in external storage mode *)
Definition realloc me s : option (smx A) :=
  do _ <- guard (negb (s_ext s));
  if (0 <? s_rows s) && (0 <? s_cols s)
  then Some (with_mem s (option_map (block (s_numel s)) me))
  else Some (with_mem (with_dims s 0 0) None).
(** smatrix.h:317-325 *)
Definition free s : smx A := with_mem (with_dims s 0 0) None.
(** smatrix.h:333 *)
Definition init : smx A := mkS 0 0 false false false false None.

(** smatrix.h:602-605 _fill_seq_elements; 579-590 fill_row_with's loop *)
Definition fill_seq (v : A) (ofs n : nat) (l : list A) : option (list A) :=
  for_loop 0 n (fun i l => bset l (ofs + i) v) l.
Definition fill_strided (v : A) (ofs ld n : nat) (l : list A) : option (list A) :=
  for_loop 0 n (fun i l => bset l (ofs + i * ld) v) l.

(** smatrix.h:563-570, 572-575 *)
Definition fill_column_with s (c : nat) (v : A) : option (smx A) :=
  do l <- s_data s;
  do l' <- fill_seq v (s_rows s * c) (s_rows s) l; Some (with_mem s (Some l')).
(** smatrix.h:579-590, 594-597 *)
Definition fill_row_with s (r : nat) (v : A) : option (smx A) :=
  do l <- s_data s;
  do l' <- fill_strided v r (s_rows s) (s_cols s) l; Some (with_mem s (Some l')).
(** smatrix.h:609-617 *)
Definition set_biases s : option (smx A) :=
  do s' <- (if s_bir s then fill_row_with s (s_rows s - 1) one
            else fill_column_with s (s_cols s - 1) one);
  Some (with_holey s' false).

(** smatrix.h:337-346 *)
Definition create me (r c : nat) (bias bir : bool) : option (smx A) :=
  do s <- realloc me (mkS (r + Nat.b2n (bias && bir)) (c + Nat.b2n (bias && negb bir))
                          bias false false bir None);
  if bias then set_biases s else Some s.

(** smatrix.h:1024-1032 *)
Definition clear s : smx A :=
  let s := free s in mkS (s_rows s) (s_cols s) (s_bias s) false false false (s_data s).

(** smatrix.h:1054-1066 *)
Definition impl_resize me s (r c : nat) : option (bool * smx A) :=
  if (r =? 0) || (c =? 0) then Some (false, s)
  else if (r =? s_rows s) && (c =? s_cols s) then Some (true, s)
  else do s' <- realloc me (with_dims s r c);
       let s' := with_holey s' false in
       Some (negb (empty s'), s').
(** smatrix.h:1043-1052 *)
Definition resize me s (r c : nat) : option (bool * smx A) :=
  if (r =? 0) || (c =? 0) then Some (false, s)
  else do (b, s') <- impl_resize me s (r + Nat.b2n (s_bias_row s)) (c + Nat.b2n (s_bias_col s));
       if b && s_bias s' then do s'' <- set_biases s'; Some (b, s'') else Some (b, s').
(** smatrix.h:1072-1079 (tag_noBias) *)
Definition resize_noBias me s (r c : nat) := impl_resize me (with_flag s false) r c.
(** smatrix.h:1082-1085 *)
Definition resize_as_dataset me s (bs w : nat) :=
  if s_bir s then resize me s w bs else resize me s bs w.
(** smatrix.h:1443-1460, 1463-1470: [smatrix_deform] always drops the storage first *)
Definition d_resize me s r c := resize me (free s) r c.
Definition d_resize_as_dataset me s bs w := resize_as_dataset me (free s) bs w.

(** memcpy between matrices *)
Definition copy_n s d (n : nat) : option (smx A) :=
  do src <- s_data s; do dst <- s_data d;
  do l <- for_loop 0 n (fun i l => do v <- bget src i; bset l i v) dst;
  Some (with_mem d (Some l)).

(** smatrix.h:525-538; dest.m_rows/m_cols are overwritten *)
Definition copy_to s d : option (bool * smx A) :=
  if (s_numel d =? s_numel s) && eqb (s_bias d) (s_bias s) then
    do d' <- copy_n s d (s_numel s);
    Some (true, mkS (s_rows s) (s_cols s) (s_bias d') (s_ext d') (s_holey s) (s_bir s) (s_data d'))
  else Some (false, d).
(** smatrix.h:475-487 *)
Definition clone_to me s d : option (bool * smx A) :=
  if s_ext d then
    if (s_rows d =? s_rows s) && (s_cols d =? s_cols s)
    then copy_to s (with_flag d (s_bias s)) else Some (false, d)
  else
    do (b, d') <- resize me (with_flag d false) (s_rows s) (s_cols s);
    if b then copy_to s (with_flag d' (s_bias s)) else Some (false, d').
(** smatrix.h:491-509 *)
Definition clone_to_no_bias me s d : option (bool * smx A) :=
  let cnb := s_cols_nb s in
  do (b, d') <- (if s_ext d then Some ((s_rows d =? s_rows s) && (s_cols d =? cnb), d)
                 else resize me d (s_rows s) cnb);
  if b then
    do d'' <- copy_n s (mkS (s_rows d') (s_cols d') false (s_ext d') false (s_bir s) (s_data d')) (s_numel_nb s);
    Some (true, d'')
  else Some (false, d').
(** smatrix.h:512-522 *)
Definition s_copy_data_skip_bias s d : option (bool * smx A) :=
  if (s_rows d =? s_rows s) && (s_cols_nb d =? s_cols_nb s) then
    do d' <- copy_n s (with_bir d (s_bir s)) (s_numel_nb s); Some (true, d')
  else Some (false, d).

(** smatrix.h:1103-1107 *)
Definition zeros s : option (smx A) :=
  do l <- s_data s;
  do l' <- fill_seq zero 0 (if s_bir s then s_numel s else s_numel_nb s) l;
  let s' := with_mem s (Some l') in
  if s_bir s && s_bias s then fill_row_with s' (s_rows s - 1) one else Some s'.
(** smatrix.h:1090-1094, 1110-1113, 1114-1117, 1120-1126 *)
Definition fill s v : option (smx A) :=
  do l <- s_data s; do l' <- fill_seq v 0 (s_numel s) l; Some (with_mem s (Some l')).
Definition ones s : option (smx A) := do s' <- fill s one; Some (with_holey s' false).
Definition nans s : option (smx A) := do s' <- fill s nan; Some (with_holey s' false).
Definition nans_no_bias s : option (smx A) :=
  do l <- s_data s; do l' <- fill_seq nan 0 (s_numel_nb s) l;
  Some (with_holey (with_mem s (Some l')) false).
(** smatrix.h:1005-1009 *)
Definition set s r c v : option (smx A) :=
  do l <- s_data s; do l' <- bset l (r + s_rows s * c) v; Some (with_mem s (Some l')).

(** smatrix.h:1208-1225; [l] is the memory from ptr on *)
Definition use_external (l : list A) r c bias holey bir : smx A :=
  mkS r c bias true holey bir (Some l).
(** smatrix.h:1248-1256 *)
Definition use_internal me s (r c : nat) bias bir : option (bool * smx A) :=
  let s := free s in
  let s := mkS (s_rows s) (s_cols s) bias false false bir (s_data s) in
  if (0 <? r) && (0 <? c) then resize me s r c else Some (true, s).

(** ** [smatrix_deform], smatrix.h:1566-1700 *)
Definition deform_cols s c := with_dims s (s_rows s) c.
Definition deform_rows s r := with_dims s r (s_cols s).
Definition deform s r c := with_dims s r c.
(** 1654-1656, 1647-1651 *)
Definition deform_batch_size s bs := if s_bir s then deform_cols s bs else deform_rows s bs.
Definition deform_batch_size_with_biases s bs : option (smx A) :=
  let s' := deform_batch_size s bs in
  if batch_size s =? bs then Some s'
  else if s_bias s' then set_biases s' else Some s'.
(** 1664-1677; [ss] is the full sample size, bias included *)
Definition deform_dataset s bs ss : option (smx A) :=
  let s' := if s_bir s then with_dims s ss bs else with_dims s bs ss in
  if (s_rows s =? s_rows s') && (s_cols s =? s_cols s') then Some s'
  else if s_bias s' then set_biases s' else Some s'.
(** 1573-1581 *)
Definition hide_last_col s := with_dims s (s_rows s) (s_cols s - 1).
Definition restore_last_col s := with_dims s (s_rows s) (s_cols s + 1).
(** 1584-1597 *)
Definition hide_last_n_cols s n : bool * smx A :=
  let b := s_bias s && negb (s_bir s) in
  let s' := with_dims s (s_rows s) (s_cols s - (n + Nat.b2n b)) in
  (b, if b then with_flag s' false else s').
Definition restore_last_n_cols s (b : bool) n : smx A :=
  let s' := with_dims s (s_rows s) (s_cols s + (n + Nat.b2n b)) in
  if b then with_flag s' true else s'.
(** 1600-1617 *)
Definition hide_biases s : bool * smx A :=
  if s_bias s then (true, with_flag (hide_last_col s) false) else (false, s).
Definition restore_biases s (b : bool) : smx A :=
  if b then with_flag (restore_last_col s) true else s.
(** 1696-1700 *)
Definition on_transposition s := with_bir (with_dims s (s_cols s) (s_rows s)) (negb (s_bir s)).

(** ** Checks.  [is1 v]: v == value_type(1.0); [isbin v]: the bit pattern of v is
    one of 1.0, 0.0, -0.0 *)
Context (is1 isbin : A -> bool).

(** smatrix.h:686-712; [while (pS < pE)] over the bias row / column *)
Definition test_biases_strict s : option bool :=
  do l <- s_data s;
  if s_bir s then
    for_loop 0 (s_cols s) (fun i b => do v <- bget l (s_rows s - 1 + i * s_rows s); Some (b && is1 v)) true
  else
    for_loop 0 (s_rows s) (fun i b => do v <- bget l (s_rows s * (s_cols s - 1) + i); Some (b && is1 v)) true.

(** smatrix.h:160-183 _isBinaryVecWLd: [pE = ptr + ne; while (ptr != pE) { v = *ptr; ptr += ld; }];
    running past pE is undefined *)
Definition is_binary_vec_wld (l : list A) (ofs ne ld : nat) : option bool :=
  (fix go (fuel p : nat) (b : bool) : option bool :=
     if p =? ofs + ne then Some b
     else match fuel with
     | O => None
     | S f => do v <- bget l p; go f (p + ld) (b && isbin v)
     end) (S (length l)) ofs true.
(** smatrix.h:715-722 *)
Definition test_biases_holey s : option bool :=
  do l <- s_data s;
  if s_bir s then is_binary_vec_wld l (s_rows s - 1) (s_cols s) (s_rows s)
  else for_loop 0 (s_rows s) (fun i b => do v <- bget l (s_rows s * (s_cols s - 1) + i); Some (b && isbin v)) true.
End S.
