(** Specifications for the utility classes, written without the model's functions
    (only its data types and the named counters of the confusion matrix are used). *)
From Verif Require Import Base Util_Model.
From Coq Require Import Reals.
Local Open Scope Z_scope.

(** ** Epoch conditions (C50) *)

(** [e] (counted from 0) is one of [beg - 1, beg - 1 + stride, ...] below [en]. *)
Definition selected (beg en stride e : Z) : Prop :=
  exists k, 0 <= k /\ e = beg - 1 + k * stride /\ e < en.

(** A vector of conditions as a partial map from epochs to booleans: the answers are
    defined exactly on [0, n). *)
Definition holds (v : list bool) (n : Z) (f : Z -> bool) : Prop :=
  Z.of_nat (length v) = n /\ forall e, 0 <= e < n -> nth_error v (Z.to_nat e) = Some (f e).

(** The calls whose every index is inside of a vector of [n] conditions. *)
Definition op_inside (n : Z) (o : vc_op) : Prop :=
  match o with
  | OVerbose i | OSilence i => 0 <= i < n
  | OVerboseR b e s | OSilenceR b e s =>
      1 <= s /\ forall x, selected b e s x -> 0 <= x < n
  | OResize m _ => 0 <= m
  | OClear => True
  end.

Definition op_size (n : Z) (o : vc_op) : Z :=
  match o with OResize m _ => m | OClear => 0 | _ => n end.

Fixpoint ops_inside (n : Z) (ops : list vc_op) : Prop :=
  match ops with
  | [] => True
  | o :: t => op_inside n o /\ ops_inside (op_size n o) t
  end.

(** The effect of one call on the map: [op_effect n f o f'] *)
Definition op_effect (n : Z) (f : Z -> bool) (o : vc_op) (f' : Z -> bool) : Prop :=
  match o with
  | OVerbose i => f' i = true /\ forall e, e <> i -> f' e = f e
  | OSilence i => f' i = false /\ forall e, e <> i -> f' e = f e
  | OVerboseR b en s =>
      (forall e, selected b en s e -> f' e = true) /\
      (forall e, ~ selected b en s e -> f' e = f e)
  | OSilenceR b en s =>
      (forall e, selected b en s e -> f' e = false) /\
      (forall e, ~ selected b en s e -> f' e = f e)
  | OResize m b =>
      (forall e, e < n -> f' e = f e) /\ (forall e, n <= e -> f' e = b)
  | OClear => True
  end.

Inductive ops_effect : Z -> (Z -> bool) -> list vc_op -> Z -> (Z -> bool) -> Prop :=
| oe_nil n f : ops_effect n f [] n f
| oe_cons n f o f' t n'' f'' :
    op_effect n f o f' -> ops_effect (op_size n o) f' t n'' f'' ->
    ops_effect n f (o :: t) n'' f''.

(** ** Black and white lists (C82) *)

(** What has been listed, in which mode, after a sequence of calls: listing in the
    other mode, or setting a mode, starts from empty lists; listing a whole vector
    replaces the list of its kind. *)
Record listing := mkL { l_white : bool; l_types : list Z; l_idxs : list Z }.

Definition in_mode (b : bool) (l : listing) : listing :=
  match l_white l, b with
  | true, true | false, false => l
  | _, _ => mkL b [] []
  end.

Definition list_op (l : listing) (o : bw_op) : listing :=
  match o with
  | BListType b t => mkL b (t :: l_types (in_mode b l)) (l_idxs (in_mode b l))
  | BListIdx b i => mkL b (l_types (in_mode b l)) (i :: l_idxs (in_mode b l))
  | BListTypes b ts => mkL b ts (l_idxs (in_mode b l))
  | BListIdxs b is => mkL b (l_types (in_mode b l)) is
  | BReset => mkL (l_white l) [] []
  | BMode b => mkL b [] []
  end.

Definition listed (l : listing) (idx ty : Z) : Prop :=
  In ty (l_types l) \/ In idx (l_idxs l).

(** ** Confusion matrix (C55, C81) *)

(** Number of the pairs (truth, prediction) equal to the given one. *)
Fixpoint occurrences (t p : bool) (l : list (bool * bool)) : Z :=
  match l with
  | [] => 0
  | (t', p') :: l' =>
      (match t, t' with true, true | false, false =>
         match p, p' with true, true | false, false => 1 | _, _ => 0 end
       | _, _ => 0 end) + occurrences t p l'
  end.

(** The matrix shows the counts of the pairs. *)
Definition counts (m : cmtx) (l : list (bool * bool)) : Prop :=
  cm_TP m = Some (occurrences true true l) /\
  cm_FN m = Some (occurrences true false l) /\
  cm_FP m = Some (occurrences false true l) /\
  cm_TN m = Some (occurrences false false l) /\
  length m = 4%nat.

(** A matrix with the given counters. *)
Definition shows (m : cmtx) (tp fn fp tn : Z) : Prop :=
  cm_TP m = Some tp /\ cm_FN m = Some fn /\ cm_FP m = Some fp /\ cm_TN m = Some tn /\
  length m = 4%nat.
