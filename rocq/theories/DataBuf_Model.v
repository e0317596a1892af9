(** Model of [nntl/utils/data_buffer.h]: the circular buffer between the random
    number producers (background threads) and the consumer (main thread).

    Every method locks [m_bufMutex] for its whole body, so methods are atomic;
    the consumer's reads between acquire_data() and release_data() are separate
    operations.  Simplification: the zero-content validation of [_copy2buf<true>]
    (398-408) is left out; [size_t] is [nat]. *)
From Verif Require Import Base.

Section Model.
Context {A : Type}.

(** [DataBuffer], 180-189; [b_mem] is the memory at m_pBegin, m_total its length *)
Record dbuf := mkB { b_mem : list A; b_cur : nat; b_alv : nat; b_alc : nat; b_empty : bool }.

Definition b_total (b : dbuf) : nat := length (b_mem b).

(** [DataBuffer(pBuf, s)], 194 *)
Definition db_new (mem : list A) : dbuf := mkB mem 0 0 0 true.

(** [CircBufferRange], 40-60; pointers are indices into the buffer *)
Record range := mkRng { r_p1 : nat; r_n1 : nat; r_p2 : option nat; r_n2 : nat }.

(** [acquire_data], 229-259; [None] is a range that is not acquired() *)
Definition acquire (b : dbuf) (n : nat) : option range :=
  if negb (b_empty b) && negb (n =? 0) then
    let after := b_cur b + n in
    if b_cur b <? b_alv b then
      if after <=? b_alv b then Some (mkRng (b_cur b) n None 0) else None
    else
      if after <=? b_total b then Some (mkRng (b_cur b) n None 0)
      else
        let n1 := b_total b - b_cur b in
        let n2 := n - n1 in
        if n2 <=? b_alv b then Some (mkRng (b_cur b) n1 (Some 0) n2) else None
  else None.

(** [release_data], 264-281 *)
Definition release (b : dbuf) (r : range) : dbuf :=
  let cur := match r_p2 r with Some _ => r_n2 r | None => b_cur b + r_n1 r end in
  let '(cur, alv, alc) :=
    if b_total b <=? cur then
      (0, (if b_alv b =? b_total b then 0 else b_alv b),
          (if b_alc b =? b_total b then 0 else b_alc b))
    else (cur, b_alv b, b_alc b) in
  mkB (b_mem b) cur alv alc (cur =? alv).

(** [CircBufferFeeder::next], 88-101: the [k]-th element of the range; [None] is
    abort() or an access outside of the buffer. *)
Definition feeder_get (b : dbuf) (r : range) (k : nat) : option A :=
  if r_n1 r <=? k then
    match r_p2 r with
    | Some p => if k <? r_n1 r + r_n2 r then bget (b_mem b) (p + (k - r_n1 r)) else None
    | None => None
    end
  else bget (b_mem b) (r_p1 r + k).

(** [CircBufferFeeder::shrink], 103-117, after [k] elements were taken *)
Definition shrink (r : range) (k : nat) : range :=
  if r_n1 r <=? k then mkRng (r_p1 r) (r_n1 r) (r_p2 r) (k - r_n1 r)
  else mkRng (r_p1 r) k None 0.

(** [_as_should_work], 288-350; returns the size to generate *)
Definition should_work (b : dbuf) (n0 : nat) : nat * dbuf :=
  let total := b_total b in
  let cur := b_cur b in
  let alc := b_alc b in
  let n := if n0 <=? total then n0 else total in
  let set a := mkB (b_mem b) cur (b_alv b) a (b_empty b) in
  if negb (b_empty b) &&
     ((negb (alc =? 0) && (alc =? cur)) || ((cur =? 0) && (alc =? total)))
  then (0, b)
  else if cur <=? alc then
    if alc <? total then
      let res := total - alc in
      if n <=? res then (n, set (alc + n))
      else
        let rem := n - res in
        if rem <=? cur then (n, set rem)
        else if negb (cur =? 0) then (res + cur, set cur)
        else (res, set total)
    else
      if negb (cur =? 0) then
        let r := if n <? cur then n else cur in (r, set r)
      else (0, b)
  else
    let res := cur - alc in
    let r := if n <? res then n else res in (r, set (alc + r)).

(** [_copy2buf<false>], 410-412 *)
Fixpoint copy2buf (mem : list A) (ofs : nat) (data : list A) : option (list A) :=
  match data with
  | [] => Some mem
  | v :: data' => do mem' <- bset mem ofs v; copy2buf mem' (S ofs) data'
  end.

(** [_as_done], 354-394; the caller's array is [data] *)
Definition as_done (b : dbuf) (data : list A) : option dbuf :=
  let n := length data in
  let total := b_total b in
  if b_alv b <? b_alc b then
    let bs := b_alc b - b_alv b in
    let ds := if bs <? n then bs else n in
    do mem <- copy2buf (b_mem b) (b_alv b) (firstn ds data);
    Some (mkB mem (b_cur b) (b_alv b + ds) (b_alc b) false)
  else
    let bs1 := total - b_alv b in
    if n <=? bs1 then
      do mem <- copy2buf (b_mem b) (b_alv b) data;
      Some (mkB mem (b_cur b) (b_alv b + n) (b_alc b) false)
    else
      do mem <- copy2buf (b_mem b) (b_alv b) (firstn bs1 data);
      let ds := n - bs1 in
      let bs2 := if ds <? b_alc b then ds else b_alc b in
      do mem' <- copy2buf mem 0 (firstn bs2 (skipn bs1 data));
      Some (mkB mem' (b_cur b) bs2 (b_alc b) false).

(** ** Clients: one consumer holding at most one range, producers. *)
Inductive op :=
| Acquire (n : nat)
| Read (k : nat)          (* k-th element of the held range *)
| Release (k : nat)       (* after taking k elements *)
| Claim (n : nat)         (* _as_should_work *)
| Fill (data : list A).   (* _as_done *)

Inductive out :=
| OAcq (ok : bool)
| OVal (v : A)
| OUnit
| OClaim (r : nat).

Record sys := mkSys { y_buf : dbuf; y_held : option range }.

Definition sys_step (s : sys) (o : op) : option (sys * out) :=
  match o with
  | Acquire n =>
      match acquire (y_buf s) n with
      | Some r => Some (mkSys (y_buf s) (Some r), OAcq true)
      | None => Some (s, OAcq false)
      end
  | Read k =>
      do r <- y_held s; do v <- feeder_get (y_buf s) r k; Some (s, OVal v)
  | Release k =>
      do r <- y_held s; Some (mkSys (release (y_buf s) (shrink r k)) None, OUnit)
  | Claim n => let (r, b) := should_work (y_buf s) n in Some (mkSys b (y_held s), OClaim r)
  | Fill d => do b <- as_done (y_buf s) d; Some (mkSys b (y_held s), OUnit)
  end.

Fixpoint sys_run (s : sys) (os : list op) : option (list out) :=
  match os with
  | [] => Some []
  | o :: os' => do (s', x) <- sys_step s o; do xs <- sys_run s' os'; Some (x :: xs)
  end.
End Model.
Arguments dbuf : clear implicits.
Arguments op : clear implicits.
Arguments out : clear implicits.
Arguments sys : clear implicits.
