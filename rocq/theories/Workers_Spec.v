(** What C01-C05 mean, stated on ranges and on the log of observable events
    only.  Nothing here refers to program counters, locks or counters. *)
From Coq Require Import Permutation.
From Verif Require Import Base Workers_Model.

(** Indices covered by a range. *)
Definition idxs (r : prange) : list nat := seq (r_ofs r) (r_cnt r).

(** Calls of the functor of the [n]-th API call that began / ended in a log. *)
Fixpoint calls_begun (n : nat) (l : list event) : list (nat * prange) :=
  match l with
  | [] => []
  | EvBegin m t r :: l' => if m =? n then (t, r) :: calls_begun n l' else calls_begun n l'
  | _ :: l' => calls_begun n l'
  end.

Fixpoint calls_ended (n : nat) (l : list event) : list (nat * prange) :=
  match l with
  | [] => []
  | EvEnd m t r :: l' => if m =? n then (t, r) :: calls_ended n l' else calls_ended n l'
  | _ :: l' => calls_ended n l'
  end.

(** In log [before], the functor of call [n] over [cnt] items was run to
    completion: every index in exactly one call, every call finished, no thread
    used twice, and every range carries the id of the thread that got it. *)
Definition ran_exactly_once (n cnt : nat) (before : list event) : Prop :=
  Permutation (calls_begun n before) (calls_ended n before) /\
  Permutation (flat_map (fun c => idxs (snd c)) (calls_ended n before)) (seq 0 cnt) /\
  NoDup (map fst (calls_ended n before)) /\
  (forall t r, In (t, r) (calls_ended n before) -> r_tid r = t).

(** No call of the functor of API call [n] begins or ends in [after]. *)
Definition quiet_after (n : nat) (after : list event) : Prop :=
  calls_begun n after = [] /\ calls_ended n after = [].

(** The number of threads a call over [cnt] items may use: the request is
    honoured if it is between 2 and the pool size, otherwise the whole pool. *)
Definition max_threads (W : nat) (req : Z) : nat :=
  if ((2 <=? req) && (req <=? Z.of_nat (W + 1)))%Z%bool then Z.to_nat req else W + 1.

Definition no_spurious (l : label) : bool :=
  match l with LMain | LWorker _ => true | _ => false end.

Definition spurious_count (ls : list label) : nat :=
  length (filter (fun l => negb (no_spurious l)) ls).

(** Some thread can make a step (spurious wakeups do not count). *)
Definition can_step (s : state) : Prop :=
  exists l s', no_spurious l = true /\ step s l = Some s'.

(** All API calls returned. *)
Definition all_returned (s : state) : Prop := s_mpc s = MIdle /\ s_todo s = [].

(** What an API call gives back: [run] nothing; [reduce] either the value of the
    functor on the whole range, or the final reduction of an array whose t-th
    cell is the value of the functor on the range of thread t; the ranges tile
    [0, cnt), the caller's (thread 0) being the last one. *)
Definition return_ok (n : nat) (j : job) (v : retval) (before : list event) : Prop :=
  match j_kind j, v with
  | JRun, RRun => True
  | JReduce, RDirect c =>
      c = Some (n, mkR 0 (j_cnt j) 0) /\ calls_ended n before = [(0, mkR 0 (j_cnt j) 0)]
  | JReduce, RReduced cs =>
      exists r0 rs,
        cs = map (fun r => Some (n, r)) (r0 :: rs) /\
        map r_tid (r0 :: rs) = seq 0 (length (r0 :: rs)) /\
        flat_map idxs (rs ++ [r0]) = seq 0 (j_cnt j) /\
        Permutation (calls_ended n before) (map (fun r => (r_tid r, r)) (r0 :: rs))
  | _, _ => False
  end.

(** The value of reduce() when the functor folds [f] over its range and the final
    reduction folds the cells ([None]: a cell was never written). *)
Section Value.
  Context {A : Type} (op : A -> A -> A) (e : A) (f : nat -> A).
  Definition cell_value (c : cell) : option A :=
    match c with Some (_, r) => Some (fold_right op e (map f (idxs r))) | None => None end.
  Fixpoint cells_value (cs : list cell) : option A :=
    match cs with
    | [] => Some e
    | c :: cs' => do x <- cell_value c; do y <- cells_value cs'; Some (op x y)
    end.
  Definition reduce_result (v : retval) : option A :=
    match v with
    | RRun => None
    | RDirect c => cell_value c
    | RReduced cs => cells_value cs
    end.
End Value.
