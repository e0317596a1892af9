(** What normalising data means. *)
From Coq Require Import Reals.
From Verif Require Import Base Act_Spec Kern_Model Smx_Model Smx_Spec TData_Model TData_Spec Nrm_Model.
Local Open Scope nat_scope.

(** ** Statistics *)
Definition mean (l : list R) : R := (sumR l / INR (length l))%R.
(** standard deviation: of the population, or estimated from a sample ([adj]) *)
Definition dev (adj : bool) (l : list R) : R :=
  sqrt (sumR (map (fun v => Rsqr (v - mean l)) l) / INR (length l - Nat.b2n adj)).
(** The statistics are what was asked for; data without deviation cannot be scaled. *)
Definition met (p : nset) (l : list R) : Prop :=
  (n_dos p = true -> dev (n_adj p) l = 0%R \/ (Rabs (dev (n_adj p) l - n_scale p) < n_stol p)%R) /\
  (n_doc p = true -> (Rabs (mean l - n_central p) < n_ctol p)%R).

(** ** What is looked at *)
(** value [j] of sample [i] *)
Definition xv (x : smx R) (i j : nat) : R := match scell x i j with Some v => v | None => 0%R end.
(** number of samples: a remainder of one sample is dropped (C12); [n_bc] batches if not 0 *)
Definition looked (p : nset) (N b : nat) : nat :=
  let n := Nat.min b N in
  let all := if N mod n =? 1 then N - 1 else N in
  if n_bc p =? 0 then all else Nat.min (n_bc p * n) all.
(** the groups of values normalised together: all, or every column *)
Definition groups (p : nset) (x : smx R) (L : nat) : list (list R) :=
  if n_cw p then map (fun j => map (fun i => xv x i j) (seq 0 L)) (seq 0 (sample_size x))
  else [flat_map (fun i => map (xv x i) (seq 0 (sample_size x))) (seq 0 L)].

(** ** What may change *)
(** [x'] is [x] with v replaced by a_j * v + b_j in column j *)
Definition mapped (a b : nat -> R) (x x' : smx R) : Prop :=
  s_rows x' = s_rows x /\ s_cols x' = s_cols x /\ s_bias x' = s_bias x /\ s_bir x' = s_bir x /\ s_ext x' = s_ext x /\
  forall i j, i < batch_size x -> j < sample_size x -> scell x' i j = Some (a j * xv x i j + b j)%R.

Section S.
Context {B : Type} (oneB : B).
Notation sets := (sets R B). Notation tds := (tds R B).

(** An object that reports to be not initialised ([None]), or has been initialised for
    training or for inference and used since in the documented way; with the sizes
    returned by the initialisation *)
Inductive history (S : sets) (t : tds) : option (nat * nat) -> Prop :=
| h_none : (forall b, is_initialized4inference S t b = None) -> history S t None
| h_train mx my mi t00 rf rt fp tb t0 os obs : init4train 1%R oneB mx my mi S t00 rf rt = Some (Success, fp, tb, t0) ->
    allowed_run 1%R oneB S fp tb t0 Idle os -> run 1%R S t0 os = Some (obs, t) -> history S t (Some (fp, tb))
| h_inf mx my t00 rf fp t0 os obs : init4inference 1%R oneB mx my S t00 rf = Some (Success, fp, t0) ->
    allowed_run 1%R oneB S fp 0 t0 Idle os -> run 1%R S t0 os = Some (obs, t) -> history S t (Some (fp, 0)).

(** the batch size used: the one asked for; if negative, the one the object is initialised
    for; if 0, the input batch size of the network, [ibs] *)
Definition used (p : nset) (ibs : nat) (S : sets) (h : option (nat * nat)) : nat :=
  asked (match h with Some (fp, _) => fp | None => Nat.max (cnt S 0) (cnt S 1) end) ibs (n_bs p).
(** The input batch size of the network, if it is used, is one the object can serve. *)
Definition fit (p : nset) (ibs : nat) (S : sets) (t : tds) (h : option (nat * nat)) : Prop :=
  n_bs p = 0%Z ->
  match h with Some _ => 0 < ibs /\ is_initialized4inference S t ibs = Some ibs | None => ibs = Nat.max (cnt S 0) (cnt S 1) end.
(** the object goes on to serve the documented sequences of calls, with the data [S] *)
Definition serves (S : sets) (t : tds) (fp tb : nat) : Prop :=
  forall os, allowed_run 1%R oneB S fp tb t Idle os -> exists obs t' ph, run 1%R S t os = Some (obs, t') /\
    spec_run 1%R oneB S fp tb Idle os obs ph.
(** everything that may go wrong outside does not: memory, initialisation of the math object;
    a batch size bigger than the biggest set is refused (see C94) *)
Definition prepared (p : nset) (mx : mem_env R) (my : mem_env B) (mok : bool) (S : sets) (t : tds) : Prop :=
  is_initialized4inference S t (Z.to_nat (n_bs p)) <> None \/
  (mx <> None /\ my <> None /\ mok = true /\ (n_bs p <= Z.of_nat (Nat.max (cnt S 0) (cnt S 1)))%Z).
End S.

(** enough values for the statistics in every group *)
Definition enough_values (p : nset) (x : smx R) (L : nat) : Prop :=
  Nat.b2n (n_adj p) < L * (if n_cw p then 1 else sample_size x).
(** positive tolerances and scale *)
Definition positive (p : nset) : Prop := (0 < n_scale p)%R /\ (0 < n_stol p)%R /\ (0 < n_ctol p)%R.
(** one try for every thing asked for, and one to see that it is reached *)
Definition enough_tries (p : nset) : Prop := (if n_dos p && n_doc p then 3 else 2) <= n_tries p.
(** the values are the same *)
Definition same_values (x x' : smx R) : Prop := mapped (fun _ => 1%R) (fun _ => 0%R) x x'.
