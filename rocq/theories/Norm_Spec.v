(** Specification of max-norm. *)
From Coq Require Import Reals.
From Verif Require Import Base Workers_Model Kern_Model IdxMax_Model IdxMax_Spec Act_Spec Sfm_Spec Norm_Model.
Local Open Scope R_scope.

(** squared L2 norm of the first [cols] elements of a row *)
Definition row_norm2 (rows cols : nat) (d : list R) (r : nat) : R :=
  sumR (map (fun c => (elt rows d r c) ^ 2) (seq 0 cols)).

(** the columns which count: all, or all but the last one (the bias weights) *)
Definition counted (A : mtx R) (incl : bool) : nat := if incl then m_cols A else (m_cols A - 1)%nat.

Definition norm_ready (t : nthr) (pool : list prange) (A : mtx R) (maxn : R) (incl : bool) (m : list R) : Prop :=
  (0 < m_rows A)%nat /\ (0 < counted A incl)%nat /\ (m_rows A * m_cols A = length (m_data A))%nat /\
  0 < maxn /\ pool_ok pool /\ (0 < n_l2_cpt t)%nat /\ length m = norm_mem t pool A.
