(** The internal temporary memory of the math object: nntl/interface/math/smath.h:124-250.

    Sizes are natural numbers (numel_cnt_t, overflow not modelled).  A block is
    identified by its offset in m_threadTempRawStorage.  std::abort() and forming the
    address of a cell behind the end of the storage (possible only for an empty block
    or when init() was skipped) are distinct outcomes. *)
From Verif Require Import Base.

Record istor := mkI {
  i_size : nat;    (* m_threadTempRawStorage.size() *)
  i_min : nat;     (* m_minTempStorageSize *)
  i_cur : nat }.   (* m_curStorElementsAllocated *)

Inductive outcome (X : Type) := Ret (x : X) | Abort | OutOfRange.
Arguments Ret {X}. Arguments Abort {X}. Arguments OutOfRange {X}.

(** smath.h:132-139: a new object *)
Definition istor0 : istor := mkI 0 0 0.

(** smath.h:174-184; the NNTL_ASSERT is a no-op, [&v[i]] is valid for i < size *)
Definition istor_alloc (s : istor) (n : nat) : outcome (nat * istor) :=
  if i_min s <? n + i_cur s then Abort
  else if i_size s <=? i_cur s then OutOfRange
  else Ret (i_cur s, mkI (i_size s) (i_min s) (i_cur s + n)).

(** smath.h:185-197 *)
Definition istor_free (s : istor) (ptr n : nat) : outcome istor :=
  if i_cur s <? n then Abort
  else let c := i_cur s - n in
       if i_size s <=? c then OutOfRange
       else if ptr =? c then Ret (mkI (i_size s) (i_min s) c) else Abort.

(** smath.h:207-210 *)
Definition preinit (s : istor) (n : nat) : istor := mkI (i_size s) (Nat.max (i_min s) n) (i_cur s).
(** smath.h:220-224 *)
Definition preinit_push (s : istor) : nat * istor := (i_min s, mkI (i_size s) 0 (i_cur s)).
(** smath.h:225-227 *)
Definition preinit_pop (s : istor) (pushed arg : nat) : istor :=
  mkI (i_size s) (Nat.max pushed (i_min s + arg)) (i_cur s).
(** smath.h:231-239; vector::resize() either succeeds or throws out of the noexcept
    function (not modelled) *)
Definition init (s : istor) : istor :=
  mkI (if i_size s <? i_min s then i_min s else i_size s) (i_min s) 0.
(** smath.h:240-246 *)
Definition deinit (_ : istor) : istor := mkI 0 0 0.

(** smath.h:155-165 *)
Definition round_to_cache_line (szT n : nat) : nat :=
  let lines := (n * szT + (64 - 1)) / 64 in
  (lines * 64 + (szT - 1)) / szT.
