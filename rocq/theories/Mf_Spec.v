(** What is saved and loaded. *)
From Coq Require Import String List.
From Verif Require Import Base Smx_Model Mf_Model.
Import ListNotations.

(** The array a value is, and the fields a sequence of items is *)
Definition mx_val (v : value) : mx :=
  match v with
  | VScal k z => Num k 1 1 [z]
  | VMat k m => Num k (s_rows m) (s_cols m) (match s_data m with Some l => firstn (s_rows m * s_cols m) l | None => [] end)
  end.
Definition iname (i : item) : string := match i with INvp n _ => n | INamed n _ => n end.
Fixpoint mx_item (i : item) : mx :=
  match i with INvp _ v => mx_val v | INamed _ l => Str (put_all l []) end
with put_all (l : items) (f : fields) : fields :=
  match l with
  | inil => f
  | icons i l' => put_all l' (store (iname i) (mx_item i) f)
  end.

(** Matrices that exist *)
Definition has_data (v : value) : Prop := match v with VMat _ m => s_data m <> None | _ => True end.
Fixpoint items_ok (l : items) : Prop :=
  match l with inil => True | icons i l' => item_ok i /\ items_ok l' end
with item_ok (i : item) : Prop :=
  match i with INvp _ v => has_data v | INamed _ l => items_ok l end.

(** What can be read back: names differ; matrices are not empty, have ones in their biases, and
    have biases if they are called train_x or test_x *)
Definition x_name (n : string) : bool := if string_dec n "train_x" then true else if string_dec n "test_x" then true else false.
Definition readable_val (one : cls -> Z) (n : string) (v : value) : Prop :=
  match v with
  | VScal _ _ => True
  | VMat k m =>
      exists l, s_data m = Some l /\ length l = (s_rows m * s_cols m)%nat /\ (0 < s_rows m)%nat /\ s_bir m = false /\
        s_bias m = x_name n /\ (Nat.b2n (s_bias m) < s_cols m)%nat /\
        (s_bias m = true -> forall r, (r < s_rows m)%nat -> bget l (r + s_rows m * (s_cols m - 1)) = Some (one k))
  end.
Fixpoint names (l : items) : list string := match l with inil => [] | icons i l' => iname i :: names l' end.
Fixpoint readable_item (one : cls -> Z) (i : item) : Prop :=
  match i with INvp n v => readable_val one n v | INamed _ l => NoDup (names l) /\ readable_items one l end
with readable_items (one : cls -> Z) (l : items) : Prop :=
  match l with inil => True | icons i l' => readable_item one i /\ readable_items one l' end.

(** Destinations of the same names and types *)
Definition shape_val (v w : value) : Prop :=
  match v, w with
  | VScal k _, VScal k' _ => k = k'
  | VMat k _, VMat k' _ => k = k'
  | _, _ => False
  end.
Fixpoint shape_item (i j : item) : Prop :=
  match i, j with
  | INvp n v, INvp n' v' => n = n' /\ shape_val v v'
  | INamed n l, INamed n' l' => n = n' /\ shape_items l l'
  | _, _ => False
  end
with shape_items (l l' : items) : Prop :=
  match l, l' with
  | inil, inil => True
  | icons i l1, icons j l2 => shape_item i j /\ shape_items l1 l2
  | _, _ => False
  end.

(** The same values *)
Definition eq_val (v w : value) : Prop :=
  match v, w with
  | VScal k z, VScal k' z' => k = k' /\ z = z'
  | VMat k m, VMat k' m' => k = k' /\ s_rows m' = s_rows m /\ s_cols m' = s_cols m /\ s_bias m' = s_bias m /\ s_bir m' = s_bir m /\ s_data m' = s_data m
  | _, _ => False
  end.
Fixpoint eq_item (i j : item) : Prop :=
  match i, j with
  | INvp n v, INvp n' v' => n = n' /\ eq_val v v'
  | INamed n l, INamed n' l' => n = n' /\ eq_items l l'
  | _, _ => False
  end
with eq_items (l l' : items) : Prop :=
  match l, l' with
  | inil, inil => True
  | icons i l1, icons j l2 => eq_item i j /\ eq_items l1 l2
  | _, _ => False
  end.

(** Structures written piece by piece *)
Inductive block := BSave (i : item) | BStruct (n : string) (upd dontNest : bool) (l : blocks)
with blocks := bnil | bcons (b : block) (l : blocks).
Fixpoint ops_b (b : block) : list op :=
  match b with BSave i => [OSave i] | BStruct n u d l => OBegin n u d :: ops_bs l ++ [OEnd] end
with ops_bs (l : blocks) : list op :=
  match l with bnil => [] | bcons b l' => ops_b b ++ ops_bs l' end.

(** Their effect on the open structures [c] and the file [f].  A structure begins empty, or with
    the fields it had if it is to be updated; one that is not to be nested belongs to what the
    innermost open structure belongs to. *)
Definition old_fields (upd : bool) (n : string) (f : fields) : fields :=
  if upd then match lookup n f with Some (Str g) => g | _ => [] end else [].
Definition top (c : list fields) (f : fields) : fields := match c with [] => f | g :: _ => g end.
Definition set_top (n : string) (v : mx) (c : list fields) (f : fields) : list fields * fields :=
  match c with [] => ([], store n v f) | g :: c' => (store n v g :: c', f) end.
Fixpoint eff_b (b : block) (c : list fields) (f : fields) : list fields * fields :=
  match b with
  | BSave i => set_top (iname i) (mx_item i) c f
  | BStruct n u d l =>
      let '(held, c) := match d, c with true, g :: c' => ([g], c') | _, _ => ([], c) end in
      match eff_bs l (old_fields u n (top c f) :: c) f with
      | (g :: c', f') => let '(c', f') := set_top n (Str g) c' f' in (held ++ c', f')
      | ([], f') => ([], f')
      end
  end
with eff_bs (l : blocks) (c : list fields) (f : fields) : list fields * fields :=
  match l with bnil => (c, f) | bcons b l' => let '(c, f) := eff_b b c f in eff_bs l' c f end.

(** No structure inside of another one is to be updated ([dep]: the number of open structures) *)
Fixpoint upd_top_b (dep : nat) (b : block) : Prop :=
  match b with
  | BSave i => item_ok i
  | BStruct n u d l =>
      let dep' := if d then (dep - 1)%nat else dep in
      (u = true -> dep' = 0%nat) /\ upd_top_bs (S dep') l
  end
with upd_top_bs (dep : nat) (l : blocks) : Prop :=
  match l with bnil => True | bcons b l' => upd_top_b dep b /\ upd_top_bs dep l' end.
(** No variable is an empty array of structures *)
Definition no_empty_arr (f : fields) : Prop := forall n r c, lookup n f = Some (StrArr r c) -> (0 < r /\ 0 < c)%nat.
