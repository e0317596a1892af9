(** What a printed duration says. *)
From Coq Require Import Reals ZArith List.
From Verif Require Import Base Tt_Model.
Import ListNotations.
Local Open Scope R_scope.

(** Ticks of a unit in a second *)
Definition per_second (u : tunit) : R := match u with NS => 1000000000 | US => 1000000 | MS => 1000 | SEC => 1 end.
(** The text [x] says [s] seconds *)
Definition says (x : R * tunit) (s : R) : Prop := fst x / per_second (snd x) = s.

(** The runs stored since the last reset *)
Fixpoint since_reset (os : list top) (acc : list Z) : list Z :=
  match os with [] => acc | TReset :: os => since_reset os [] | TStore d :: os => since_reset os (acc ++ [d]) end.
Definition smallest (l : list Z) (m : Z) : Prop := In m l /\ forall x, In x l -> (m <= x)%Z.
Definition sumZ (l : list Z) : Z := fold_right Z.add 0%Z l.

(** The unit can be enlarged as often as the number asks for *)
Definition room (u : tunit) (t : R) : Prop :=
  match u with NS => True | US => t < 1000000000 | MS => t < 1000000 | SEC => t < 1000 end.
