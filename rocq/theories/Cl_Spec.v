(** Restricted derivatives; complements. *)
From Coq Require Import Reals.
From Verif Require Import Base Kern_Model Sum_Spec Rw_Spec Cl_Model.
Local Open Scope R_scope.

(** [y] is the point of the interval that is nearest to [x] *)
Definition nearest (lo hi x y : R) : Prop := lo <= y <= hi /\ forall z, lo <= z <= hi -> Rabs (y - x) <= Rabs (z - x).

(** The restriction in force after these calls, newest last *)
Fixpoint in_force (os : list rop) (now : option (R * R)) : option (R * R) :=
  match os with
  | [] => now
  | Unrestrict :: os => in_force os None
  | Restrict lo hi :: os => in_force os (if Req_EM_T lo 0 then None else Some (lo, hi))
  end.
(** The calls are as documented: bounds on both sides of zero, or both zero *)
Definition proper (o : rop) : Prop := match o with Restrict lo hi => (lo = 0 /\ hi = 0) \/ lo < 0 < hi | Unrestrict => True end.

(** Every element of the first [n] is the nearest point of the interval to what it was: none
    changes its sign or grows; the rest is unchanged *)
Definition restricted (lo hi : R) (n : nat) (d d' : list R) : Prop :=
  (forall a, (a < n)%nat -> nearest lo hi (nth a d 0) (nth a d' 0)) /\
  (forall a, (n <= a)%nat -> nth a d' 0 = nth a d 0).

(** Element (i, j) of the gradient of the weights for derivatives [z] and incoming activations
    [p] (a column each) of [n] samples: output.h 238 *)
Definition grad (n : nat) (z p : nat -> R) : R := / INR n * total n (fun k => z k * p k).

(** The elements of [A] but the biases are combined with those of [B]; the biases of [A] and what
    is behind its elements are unchanged *)
Definition combined (f : R -> R -> R) (A B : mtx R) (d' : list R) : Prop :=
  (forall i j, (i < m_rows A)%nat -> (j < m_cols A)%nat -> ~ bias_cell A i j ->
     nth (i + m_rows A * j) d' 0 = f (nth (i + m_rows A * j) (m_data A) 0) (nth (i + m_rows A * j) (m_data B) 0)) /\
  (forall i j, (i < m_rows A)%nat -> (j < m_cols A)%nat -> bias_cell A i j -> nth (i + m_rows A * j) d' 0 = nth (i + m_rows A * j) (m_data A) 0) /\
  (forall a, (numel A <= a)%nat -> nth a d' 0 = nth a (m_data A) 0).
(** [B] has a sample in each row, as [A] has, and an element for each one of [A] but its biases *)
Definition fits (A B : mtx R) : Prop :=
  alloc A /\ alloc B /\ m_bir A = false /\ m_rows B = m_rows A /\ m_cols B = cols_nb A /\ (0 < numel B)%nat.
