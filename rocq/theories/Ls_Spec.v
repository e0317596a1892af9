(** Settings per layer, without lists, maps and iterators. *)
From Verif Require Import Base Ls_Model.

Section L.
Context {V : Type}.

(** What is done to the objects (numbered as they are made) *)
Inductive op :=
| ONew (def : V)
| OAdd (o idx : nat) (s : V)
| ODefault (o : nat) (def : V)
| OEach (o : nat) (f : V -> V)
| ODestroy (o : nat).

Definition apply (p : op) (w : world V) : option (world V) :=
  match p with
  | ONew d => Some (snd (construct w d))
  | OAdd o i s => add w o i s
  | ODefault o d => set_default w o d
  | OEach o f => do (_, w) <- for_each w o f; Some w
  | ODestroy o => destroy w o
  end.
Fixpoint run (ps : list op) (w : world V) : option (world V) :=
  match ps with [] => Some w | p :: ps' => do w' <- apply p w; run ps' w' end.

(** The settings of one object: the default and one (or none) for each layer *)
Definition conf : Type := V * (nat -> option V).
Definition c_op (o : nat) (p : op) (c : conf) : option conf :=
  let '(d, g) := c in
  match p with
  | OAdd o' i s => Some (if o' =? o then (d, fun k => if k =? i then Some s else g k) else c)
  | ODefault o' d' => Some (if o' =? o then (d', g) else c)
  | OEach o' f => Some (if o' =? o then (f d, fun k => option_map f (g k)) else c)
  | ODestroy o' => if o' =? o then None else Some c
  | ONew _ => Some c
  end.
(** The settings of the [o]-th object after [ps]; [None]: there is no such object (yet or any
    more); [n] objects have been made before *)
Fixpoint conf_after (ps : list op) (o n : nat) (c : option conf) : option conf :=
  match ps with
  | [] => c
  | p :: ps' =>
      let n' := match p with ONew _ => S n | _ => n end in
      conf_after ps' o n'
        (match p with ONew d => if n =? o then Some (d, fun _ => None) else c
         | _ => do c' <- c; c_op o p c' end)
  end.
Definition final (ps : list op) (o : nat) : option conf := conf_after ps o 0 None.

(** Only objects that exist are used. *)
Definition target (p : op) : option nat :=
  match p with ONew _ => None | OAdd o _ _ => Some o | ODefault o _ => Some o | OEach o _ => Some o | ODestroy o => Some o end.
Definition legal (ps : list op) : Prop :=
  forall l1 p l2 o, ps = l1 ++ p :: l2 -> target p = Some o -> final l1 o <> None.

Definition setting (c : conf) (idx : nat) : V := match snd c idx with Some s => s | None => fst c end.
End L.
Arguments op : clear implicits.
