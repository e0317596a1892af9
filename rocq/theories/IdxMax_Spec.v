(** Specification of the row maximum search. *)
From Verif Require Import Base Workers_Model Kern_Model IdxMax_Model.

Section S.
Context {A : Type} (gt : A -> A -> bool).

(** > is a total (pre)order: what holds for numbers other than NaN. *)
Record total_gt : Prop := {
  gt_irrefl : forall x, gt x x = false;
  gt_trans : forall x y z, gt x y = true -> gt y z = true -> gt x z = true;
  gt_ntrans : forall x y z, gt x y = false -> gt y z = false -> gt x z = false }.

(** Column i holds a maximum of row r. *)
Definition is_max (src : mtx A) (r i : nat) : Prop :=
  i < m_cols src /\ exists v, mget src r i = Some v /\
    forall j, j < m_cols src -> exists w, mget src r j = Some w /\ gt w v = false.

(** ... and no column to the left of i does. *)
Definition is_first_max (src : mtx A) (r i : nat) : Prop :=
  is_max src r i /\ forall j, j < i -> ~ is_max src r j.

(** Row r has a single maximum. *)
Definition unique_max (src : mtx A) (r : nat) : Prop :=
  forall i j, is_max src r i -> is_max src r j -> i = j.

(** A pool with [W] workers: the ranges have ids 1..W (workers.h:112-116), the
    calling thread has id 0. *)
Definition pool_ok (pool : list prange) : Prop := map r_tid pool = seq 1 (length pool).

(** Arguments of a legal call: non-empty matrix, room for the result, a temporary
    block of rows * (number of threads asked for) elements. *)
Definition ready (src : mtx A) (tmp : list (A * nat)) (dest : list nat) (cpt : nat) (pool : list prange) : Prop :=
  alloc src /\ 0 < m_rows src /\ 0 < m_cols src /\ m_rows src <= length dest /\ 0 < cpt /\ pool_ok pool /\
  m_rows src * howMuchThreads cpt (m_cols src) (length pool) <= length tmp.

Definition untouched (src : mtx A) (dest dest' : list nat) := forall a, m_rows src <= a -> bget dest' a = bget dest a.
End S.
