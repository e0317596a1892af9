(** What users of the temporary memory rely on. *)
From Verif Require Import Base Istor_Model.

(** ** Announcing requirements *)
(** One user announces [need]s with preinit(); code running while it holds its own block
    of [arg] elements announces its needs between preinit_push and preinit_pop. *)
Inductive req := Plain (n : nat) | Nested (inner : list req) (arg : nat).

Fixpoint announce1 (r : req) (s : istor) : istor :=
  match r with
  | Plain n => preinit s n
  | Nested inner arg =>
      let '(rv, s1) := preinit_push s in
      preinit_pop (fold_left (fun s r => announce1 r s) inner s1) rv arg
  end.
Definition announce (rs : list req) (s : istor) : istor := fold_left (fun s r => announce1 r s) rs s.

(** What is needed at the same time, at most. *)
Fixpoint need1 (r : req) : nat :=
  match r with
  | Plain n => n
  | Nested inner arg => fold_right (fun r m => Nat.max (need1 r) m) 0 inner + arg
  end.
Definition need (rs : list req) : nat := fold_right (fun r m => Nat.max (need1 r) m) 0 rs.

(** ** Using it *)
Inductive op := Alloc (n : nat) | Free (ptr n : nat).
(** blocks not freed yet: offset and size, last one first *)
Definition blocks := list (nat * nat).

Fixpoint total (bl : blocks) : nat := match bl with [] => 0 | (_, n) :: bl' => n + total bl' end.
Definition disjoint (b c : nat * nat) : Prop := fst b + snd b <= fst c \/ fst c + snd c <= fst b.
Definition inside (N : nat) (b : nat * nat) : Prop := fst b + snd b <= N.

(** Executes the operations, recording the blocks alive. *)
Fixpoint exec (os : list op) (s : istor) (bl : blocks) : outcome (istor * blocks) :=
  match os with
  | [] => Ret (s, bl)
  | Alloc n :: os' =>
      match istor_alloc s n with
      | Ret (p, s') => exec os' s' ((p, n) :: bl) | Abort => Abort | OutOfRange => OutOfRange end
  | Free p n :: os' =>
      match istor_free s p n with
      | Ret s' => exec os' s' (tl bl) | Abort => Abort | OutOfRange => OutOfRange end
  end.

(** Stack discipline: sizes positive, every free is of the block allocated last, and
    the blocks alive never exceed [N] elements.  [depth]: sizes of the blocks alive. *)
Fixpoint lifo (N : nat) (os : list op) (sizes : list nat) : Prop :=
  match os with
  | [] => True
  | Alloc n :: os' => 0 < n /\ n + list_sum sizes <= N /\ lifo N os' (n :: sizes)
  | Free p n :: os' =>
      match sizes with
      | m :: rest => n = m /\ p = list_sum rest /\ lifo N os' rest
      | [] => False end
  end.
