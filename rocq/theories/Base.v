(** Common notation and small executable building blocks of the models.
    Nothing here models code of /repo by itself. *)
From Coq Require Export List Arith ZArith Lia Bool.
From Coq Require Export ZifyBool ZifyNat ZifyN.
Export ListNotations.

Ltac Zify.zify_post_hook ::= Z.div_mod_to_equations.

(** ** The option monad: [None] is undefined behaviour (an access outside of an
    object, a use of an uninitialised value, ...). *)
Definition obind {A B} (x : option A) (f : A -> option B) : option B :=
  match x with Some a => f a | None => None end.

Notation "'do' x <- a ; b" := (obind a (fun x => b))
  (at level 200, x pattern, a at level 100, b at level 200, right associativity).

Definition guard (b : bool) : option unit := if b then Some tt else None.

(** ** Checked memory: a buffer is a list of cells, an access outside is [None]. *)
Definition bget {A} (b : list A) (i : nat) : option A := nth_error b i.

Fixpoint bset {A} (b : list A) (i : nat) (v : A) : option (list A) :=
  match b, i with
  | [], _ => None
  | _ :: t, O => Some (v :: t)
  | x :: t, S i' => do t' <- bset t i' v; Some (x :: t')
  end.

(** ** [for (i = lo; i < lo + n; ++i) s = body(i, s)] with possible UB. *)
Fixpoint for_loop {S} (lo n : nat) (body : nat -> S -> option S) (s : S) : option S :=
  match n with
  | O => Some s
  | Datatypes.S n' => do s' <- body lo s; for_loop (Datatypes.S lo) n' body s'
  end.

(** ** Total list update (used on protocol states, where indices are thread ids
    drawn from the list itself). *)
Fixpoint upd {A} (l : list A) (i : nat) (v : A) : list A :=
  match l, i with
  | [], _ => []
  | _ :: t, O => v :: t
  | x :: t, S i' => x :: upd t i' v
  end.
