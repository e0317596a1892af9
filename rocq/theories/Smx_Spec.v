(** Vocabulary for the properties of [smatrix]. *)
From Verif Require Import Base Kern_Model Smx_Model.

Section S.
Context {A : Type} (one zero nan : A).
Implicit Types (s d : smx A) (me : mem_env A).

(** get(r, c) *)
Definition cell s (r c : nat) : option A := do l <- s_data s; bget l (r + s_rows s * c).

(** Non-empty storage is large enough for the matrix, sizes are positive. *)
Definition well_alloc s : Prop :=
  0 < s_rows s /\ 0 < s_cols s /\ exists l, s_data s = Some l /\ s_numel s <= length l.

(** The bias column (row) holds ones. *)
Definition biases_one s : Prop :=
  s_bias s = true ->
  if s_bir s then 0 < s_rows s /\ forall c, c < s_cols s -> cell s (s_rows s - 1) c = Some one
  else 0 < s_cols s /\ forall r, r < s_rows s -> cell s r (s_cols s - 1) = Some one.

(** ** Sequences of operations on one matrix *)
Inductive op :=
| OResize (me : mem_env A) (r c : nat)            (* smatrix::resize *)
| ODResize (me : mem_env A) (r c : nat)           (* smatrix_deform::resize *)
| ODResizeDs (me : mem_env A) (bs w : nat)        (* smatrix_deform::resize_as_dataset *)
| ODeformBatch (bs : nat)                         (* deform_batch_size_with_biases *)
| ODeformDs (bs ss : nat)                         (* deform_dataset *)
| OSetBiases | OZeros | OOnes | ONansNoBias
| OWrite (r c : nat) (v : A)                      (* set() of a data element *)
| OCopyData (src : smx A)                         (* src.copy_data_skip_bias(this) *)
| OClone (me : mem_env A) (src : smx A)           (* src.clone_to(this) *)
| OHide | OHideN (n : nat)                        (* hide_biases, hide_last_n_cols *)
| ORestore.                                       (* undoes the last hide *)

(** A matrix and the hides not undone yet (last first): the return value of the
    hide and the number of columns hidden besides the bias column; [None]: hide_biases *)
Definition state : Type := smx A * list (bool * option nat).

Definition step (o : op) (st : state) : option state :=
  let '(s, hs) := st in
  let keep (r : option (smx A)) := do s' <- r; Some (s', hs) in
  let keepb (r : option (bool * smx A)) := do (_, s') <- r; Some (s', hs) in
  match o with
  | OResize me r c => keepb (resize one me s r c)
  | ODResize me r c => keepb (d_resize one me s r c)
  | ODResizeDs me bs w => keepb (d_resize_as_dataset one me s bs w)
  | ODeformBatch bs => keep (deform_batch_size_with_biases one s bs)
  | ODeformDs bs ss => keep (deform_dataset one s bs ss)
  | OSetBiases => keep (if s_bias s then set_biases one s else Some s)
  | OZeros => keep (zeros one zero s)
  | OOnes => keep (ones one s)
  | ONansNoBias => keep (nans_no_bias nan s)
  | OWrite r c v => keep (set s r c v)
  | OCopyData src => keepb (s_copy_data_skip_bias src s)
  | OClone me src => keepb (clone_to one me src s)
  | OHide => let '(b, s') := hide_biases s in Some (s', (b, None) :: hs)
  | OHideN n => let '(b, s') := hide_last_n_cols s n in Some (s', (b, Some n) :: hs)
  | ORestore =>
      match hs with
      | [] => Some st
      | (b, None) :: hs' => Some (restore_biases s b, hs')
      | (b, Some n) :: hs' => Some (restore_last_n_cols s b n, hs')
      end
  end.

(** The matrix with everything hidden shown again. *)
Fixpoint unhide (s : smx A) (hs : list (bool * option nat)) : smx A :=
  match hs with
  | [] => s
  | (b, None) :: hs' => unhide (restore_biases s b) hs'
  | (b, Some n) :: hs' => unhide (restore_last_n_cols s b n) hs'
  end.

(** What the documentation and the assertions of each operation demand of its
    caller.  (The length of the storage stands for m_maxSize.)  Cloning must not
    run out of memory: a failed clone_to() leaves the flag m_bEmulateBiases off. *)
Definition cap s : nat := match s_data s with Some l => length l | None => 0 end.
Definition pre (o : op) (st : state) : Prop :=
  let '(s, hs) := st in
  match o with
  | OResize me r c => hs = [] /\ s_ext s = false /\ 0 < r /\ 0 < c /\ alloc_failed s = false
  | ODResize me r c => hs = [] /\ s_ext s = false /\ 0 < r /\ 0 < c
  | ODResizeDs me bs w => hs = [] /\ s_ext s = false /\ 0 < bs /\ 0 < w
  | ODeformBatch bs =>
      hs = [] /\ empty s = false /\ 0 < bs /\
      (if s_bir s then s_rows s * bs else bs * s_cols s) <= cap s
  | ODeformDs bs ss => hs = [] /\ empty s = false /\ 0 < bs /\ 0 < ss /\ bs * ss <= cap s
  | OSetBiases | OZeros | OOnes => empty s = false
  | ONansNoBias => empty s = false /\ (s_bias s = true -> s_bir s = false)
  | OWrite r c v => empty s = false /\ r < s_rows_nb s /\ c < s_cols_nb s
  | OCopyData src =>
      empty s = false /\ well_alloc src /\ s_bir src = s_bir s /\
      (s_bias s = true -> s_bir s = false) /\ (s_bias src = true -> s_bir src = false)
  | OClone me src =>
      hs = [] /\ me <> None /\ well_alloc src /\ s_bias src = true /\ biases_one src /\ alloc_failed s = false /\
      (s_ext s = true -> empty s = false)
  | OHide => empty s = false /\ (s_bias s = true -> s_bir s = false /\ 2 <= s_cols s)
  | OHideN n => empty s = false /\ n + Nat.b2n (s_bias s) < s_cols s
  | ORestore => True
  end.

(** A run whose every call respects the documentation. *)
Inductive valid_run : list op -> state -> Prop :=
| vr_nil st : valid_run [] st
| vr_cons o os st : pre o st ->
    (forall st', step o st = Some st' -> valid_run os st') -> valid_run (o :: os) st.

Fixpoint run (os : list op) (st : state) : option state :=
  match os with [] => Some st | o :: os' => do st' <- step o st; run os' st' end.

(** ** Equality of matrices as decided by operator== (smatrix.h:542-547) *)
Definition same_matrix s d : Prop :=
  s_rows s = s_rows d /\ s_cols s = s_cols d /\ s_bias s = s_bias d /\ s_bir s = s_bir d /\
  s_holey s = s_holey d /\
  forall r c, r < s_rows s -> c < s_cols s -> cell d r c = cell s r c /\ cell d r c <> None.

(** [d] is [s] without its bias column. *)
Definition stripped s d : Prop :=
  s_bias d = false /\ s_rows d = s_rows s /\ s_cols d = s_cols_nb s /\ s_bir d = s_bir s /\
  forall r c, r < s_rows s -> c < s_cols_nb s -> cell d r c = cell s r c /\ cell d r c <> None.
End S.
