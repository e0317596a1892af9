(** mcwFindKOrdered (nntl/interface/math/mathn.h:5186-5268) and its helper
    (nntl/interface/math/_mcwFindKOrdered_hlpr.h).

    [lt a b]: a < b.  The orders Order_Biggest..., lines 43-65 of the helper, are given
    by [lt], [ns] (false for the 'Distinct' ones) and [bot] (most_extreme()); for the
    'Smallest' orders [lt] is >.  The helper matrix column is modelled as its two parts,
    the k cached values and the k indices (-1 is [None]); get_cache_ptr_from_column_ptr
    and get_idxs_ptr_from_column_ptr place them side by side (see [hlpr_numel]). *)
From Verif Require Import Base Workers_Model.

(** helper.h:106-131: helper rows for k, and k for helper rows; s1 >= s2 are the sizes
    of the two element types *)
Definition hlpr_numel (s1 s2 k : nat) : nat :=
  if s1 =? s2 then 2 * k else k + (k * s2 + s1 - 1) / s1.
Definition hlpr_k (s1 s2 rows : nat) : nat :=
  if s1 =? s2 then rows / 2 else (rows * s1) / (s1 + s2).

Section F.
Context {V : Type} (lt eqv : V -> V -> bool) (bot : V) (ns : bool).

(** helper.h:46, 51 *)
Definition first_better (vNew vOld : V) : bool := if ns then negb (lt vNew vOld) else lt vOld vNew.

Definition column : Type := list V * list (option nat).

(** mathn.h:5243-5247: first hi in [hi, hi+n) with first_better(pCache[hi], v) *)
Fixpoint find_hi (cache : list V) (v : V) (hi n : nat) : option nat :=
  match n with
  | 0 => Some hi
  | S n' => do c <- bget cache hi; if first_better c v then Some hi else find_hi cache v (hi + 1) n'
  end.

(** mathn.h:5253-5256 *)
Definition shift (pos : nat) (c : column) : option column :=
  for_loop 0 pos (fun hj '(cache, idx) =>
    do a <- bget cache (hj + 1); do cache' <- bset cache hj a;
    do b <- bget idx (hj + 1); do idx' <- bset idx hj b; Some (cache', idx')) c.

(** mathn.h:5236-5262: one element; the local cache0 is part of the state *)
Definition visit (k i : nat) (v : V) (st : column * V) : option (column * V) :=
  let '(cache, idx, cache0) := st in
  if first_better v cache0 then
    do hi <- find_hi cache v 1 (k - 1);
    let pos := hi - 1 in
    do c <- bget cache pos;
    if ns || first_better v c then
      do (cache1, idx1) <- shift pos (cache, idx);
      do cache2 <- bset cache1 pos v;
      do idx2 <- bset idx1 pos (Some i);
      do c0 <- bget cache2 0;
      Some (cache2, idx2, c0)
    else Some (cache, idx, cache0)
  else Some (cache, idx, cache0).

(** mathn.h:5211-5265: one column; [src]: rows_no_bias() elements *)
Definition find_k_column (src : list V) (c : column) (bNextBatch : bool) : option column :=
  let '(cache, idx) := c in
  let k := length cache in
  do idx <- for_loop 0 k (fun i l => bset l i None) idx;
  do cache <- (if bNextBatch then Some cache else for_loop 0 k (fun i l => bset l i bot) cache);
  do c0 <- bget cache 0;
  do (c', _) <- for_loop 0 (length src) (fun i st => do v <- bget src i; visit k i v st) (cache, idx, c0);
  Some c'.

(** mathn.h:5200-5266: threads process ranges of columns; they write to their own
    columns only, the order of the ranges is arbitrary *)
Definition find_k (parts : list prange) (src : list (list V)) (hlpr : list column) (bNextBatch : bool) : option (list column) :=
  fold_left (fun st p => do h <- st;
    for_loop (r_ofs p) (r_cnt p) (fun c h => do s <- bget src c; do old <- bget h c;
      do new <- find_k_column s old bNextBatch; bset h c new) h) parts (Some hlpr).

(** ** Aggregator, helper.h:213-371 *)
(** DatasetElement: batchIdx, val, idx *)
Record dse := mkD { d_batch : nat; d_val : V; d_idx : option nat }.

(** helper.h:301-318: one column of batch 0 *)
Definition aggregate_first (c : column) : list dse := map (fun '(v, i) => mkD 0 v i) (combine (fst c) (snd c)).
(** helper.h:348-358: first r in [r, r+n) with the value *)
Fixpoint find_val (d : list dse) (v : V) (r n : nat) : option (option dse) :=
  match n with
  | 0 => Some None
  | S n' => do e <- bget d r; if eqv v (d_val e) then Some (Some e) else find_val d v (r + 1) n'
  end.
(** helper.h:320-369: one column of a later batch; [break] ends the loop *)
Fixpoint aggregate_loop (c : column) (batch hr n : nat) (d : list dse) : option (list dse) :=
  match n with
  | 0 => Some d
  | S n' =>
    do nV <- bget (fst c) hr; do nI <- bget (snd c) hr;
    match nI with
    | None =>
      do e <- bget d hr;
      if eqv nV (d_val e) then Some d
      else
        do found <- find_val d nV (hr + 1) (length d - (hr + 1));
        do d' <- match found with Some e' => bset d hr e' | None => Some d end;
        aggregate_loop c batch (hr + 1) n' d'
    | Some i =>
      do d' <- bset d hr (mkD batch nV (Some i));
      aggregate_loop c batch (hr + 1) n' d'
    end
  end.
Definition aggregate_next (c : column) (batch : nat) (d : list dse) : option (list dse) :=
  aggregate_loop c batch 0 (length d) d.

(** helper.h:221-241: values in descending order *)
Definition export_values (d : list dse) : list V := rev (map d_val d).

(** mcwFindKOrdered followed by aggregate() for every batch of one column, k values *)
Fixpoint next_batches (bs : list (list V)) (batch : nat) (c : column) (d : list dse) : option (column * list dse) :=
  match bs with
  | [] => Some (c, d)
  | b :: bs' => do c' <- find_k_column b c true; do d' <- aggregate_next c' batch d; next_batches bs' (batch + 1) c' d'
  end.
Definition aggregate_all (b0 : list V) (bs : list (list V)) (c : column) : option (column * list dse) :=
  do c' <- find_k_column b0 c false; next_batches bs 1 c' (aggregate_first c').
End F.
