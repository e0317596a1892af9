(** Sums of vectors and matrices: nntl/interface/math/smath.h 250-440, 964-1105 and
    the sums of nntl/interface/math/mathn.h (2350-2374, 4392-4588), the final
    reduction being done by Workers::reduce (threads/workers.h:212-262).

    Arithmetic is that of the real numbers.  [data] is the storage of a matrix,
    accesses outside of it are [None]. *)
From Coq Require Import Reals.
From Verif Require Import Base Workers_Model Kern_Model Tri_Model Act_Model.
Local Open Scope R_scope.

(** ** Functors *)

(** func_SUM<_T, false>, smath.h:280-291 *)
Definition sum_op (ret v : R) : R := ret + v.
(** func_SUM<_T, true>, smath.h:293-307; state: ret, C *)
Definition kahan_op (st : R * R) (v : R) : R * R :=
  let '(ret, C) := st in
  let Y := v - C in
  let T := ret + Y in
  (T, T - ret - Y).
(** func_SUM_squares, smath.h:309-318 *)
Definition sumsq_op (ret v : R) : R := sum_op ret (v * v).
Definition kahansq_op (st : R * R) (v : R) : R * R := kahan_op st (v * v).
(** func_SUMNZ<_T, false>, smath.h:323-340: elements different from the "center
    value" [cv]; state: ret, _cnt *)
Definition sumnz_op (cv : R) (st : R * nat) (v : R) : R * nat :=
  let '(ret, cnt) := st in
  let b := if Req_EM_T v cv then 0 else 1 in
  (ret + b * v, (cnt + if Req_EM_T v cv then 0 else 1)%nat).
(** func_SUMNZ<_T, true>, smath.h:342-366; state: ret, C, _cnt *)
Definition kahannz_op (cv : R) (st : R * R * nat) (v : R) : R * R * nat :=
  let '(r, C, cnt) := st in
  let Y := v - C in
  let T := r + Y in
  if Req_EM_T v cv then (r, C, cnt) else (T, T - r - Y, (cnt + 1)%nat).

(** _vec_apply_func, smath.h:253-269: elements ofs .. ofs+cnt-1 *)
Definition vec_apply_func {S} (data : list R) (ofs cnt : nat) (op : S -> R -> S) (s : S) : option S :=
  for_loop 0 cnt (fun i s => do v <- bget data (ofs + i); Some (op s v)) s.
(** _vec_apply_func_get_result, smath.h:270-275; _vec_sum, _vec_sum_squares, 408-415 *)
Definition vec_sum (ns : bool) (data : list R) (ofs cnt : nat) : option R :=
  if ns then do s <- vec_apply_func data ofs cnt kahan_op (0, 0); Some (fst s)
  else vec_apply_func data ofs cnt sum_op 0.
Definition vec_sum_squares (ns : bool) (data : list R) (ofs cnt : nat) : option R :=
  if ns then do s <- vec_apply_func data ofs cnt kahansq_op (0, 0); Some (fst s)
  else vec_apply_func data ofs cnt sumsq_op 0.

(** _reduce_vec_sum, smath.h:418-440 *)
Definition reduce_vec_sum (ns : bool) (cells : list R) : R :=
  if ns then fst (fold_left kahan_op cells (0, 0)) else fold_left sum_op cells 0.

(** Workers::reduce, workers.h:212-262: a single call when there is nothing to split,
    else the caller's result goes to the first cell of m_reduceCache, those of the
    threads with work follow (C05 is about the threads' protocol) *)
Definition reduce (FRed : prange -> option R) (FRF : list R -> R) (pool : list prange) (cnt : nat) : option R :=
  if (cnt <=? 1)%nat then FRed (mkR 0 cnt 0)
  else
    let '(_, rs', ofs) := partition cnt 0 pool in
    do cells <- omap FRed (main_range cnt ofs :: filter (fun r => negb (r_cnt r =? 0)%nat) rs');
    Some (FRF cells).

(** ** Sums over matrices; [thr]: the constant of Thresholds_t *)
Section M.
Context (pool : list prange) (thr : nat).

(** 976-983 *)
Definition iewSumProd_st (A B : mtx R) (er : prange) : option R :=
  for_loop (r_ofs er) (r_cnt er) (fun i ret =>
    do a <- bget (m_data A) i; do b <- bget (m_data B) i; Some (ret + a * b)) 0.
(** 968-992 *)
Definition ewSumProd (A B : mtx R) : option R :=
  if (numel A <? thr)%nat then iewSumProd_st A B (mkR 0 (numel A) 0)
  else reduce (iewSumProd_st A B) (reduce_vec_sum true) pool (numel A).

(** 997-1004; ewSumSquares 1006-1039, ewSumSquares_ns 1041-1074: data pointer and
    number of elements *)
Definition iewSumSquares_st (ns : bool) (data : list R) (er : prange) : option R :=
  vec_sum_squares ns data (r_ofs er) (r_cnt er).
Definition ewSumSquares (ns : bool) (data : list R) (n : nat) : option R :=
  if (n <? thr)%nat then iewSumSquares_st ns data (mkR 0 n 0)
  else reduce (iewSumSquares_st ns data) (reduce_vec_sum ns) pool n.
Definition ewSumSquares_mtx (ns : bool) (A : mtx R) : option R := ewSumSquares ns (m_data A) (numel A).

(** 1101-1104 with _triang_apply_func_get_result, 444-503: [triang_apply] lists the
    elements given to the functor *)
Definition triang_sumsq (ns lower : bool) (A : mtx R) (er : prange) : option R :=
  let n := m_rows A in
  let ofss := triang_apply col_dbl lower n (r_ofs er) (r_ofs er + r_cnt er) in
  do vs <- omap (bget (m_data A)) ofss;
  Some (if ns then fst (fold_left kahansq_op vs (0, 0)) else fold_left sumsq_op vs 0).
(** 1080-1098 *)
Definition ewSumSquaresTriang (ns lower : bool) (A : mtx R) : option R :=
  if (m_rows A <? thr)%nat then triang_sumsq ns lower A (mkR 0 (numel_triangl (m_rows A)) 0)
  else reduce (triang_sumsq ns lower A) (reduce_vec_sum ns) pool (numel_triangl (m_rows A)).

(** mathn.h 2347-2374 *)
Definition isumAbs (A : mtx R) (er : prange) : option R :=
  for_loop (r_ofs er) (r_cnt er) (fun i ret => do a <- bget (m_data A) i; Some (ret + Rabs a)) 0.
Definition vSumAbs (A : mtx R) : option R :=
  if (numel A <? thr)%nat then isumAbs A (mkR 0 (numel A) 0)
  else reduce (isumAbs A) (reduce_vec_sum false) pool (numel A).

(** mathn.h 4397-4410, 4431-4447 *)
Definition iloss_quadratic_st (acts data_y : mtx R) (er : prange) : option R :=
  for_loop (r_ofs er) (r_cnt er) (fun i ret =>
    do a <- bget (m_data acts) i; do y <- bget (m_data data_y) i;
    let e := a - y in Some (ret + e * e)) 0.
Definition iloss_quadratic_ns_st (acts data_y : mtx R) (er : prange) : option R :=
  do s <- for_loop (r_ofs er) (r_cnt er) (fun i (st : R * R) =>
    do a <- bget (m_data acts) i; do y <- bget (m_data data_y) i;
    let '(sum, C) := st in
    let e := a - y in
    let Y := e * e - C in
    let T := sum + Y in
    Some (T, T - sum - Y)) (0, 0);
  Some (fst s).
(** 4392-4421, 4425-4459 *)
Definition loss_quadratic (ns : bool) (acts data_y : mtx R) : option R :=
  let k := if ns then iloss_quadratic_ns_st else iloss_quadratic_st in
  do ql <- (if (numel acts <? thr)%nat then k acts data_y (mkR 0 (numel acts) 0)
            else reduce (k acts data_y) (reduce_vec_sum ns) pool (numel acts));
  Some (ql / 2).

(** mathn.h 4472-4497, 4515-4544; [tiny] as in Act_Model.v *)
Definition xent_term (tiny a y : R) : R :=
  if Rlt_dec 0 y then log_eps tiny a else log1p_eps tiny (- a).
Definition iloss_xentropy_st (tiny : R) (acts data_y : mtx R) (er : prange) : option R :=
  for_loop (r_ofs er) (r_cnt er) (fun i ql =>
    do y <- bget (m_data data_y) i; do a <- bget (m_data acts) i; Some (ql + xent_term tiny a y)) 0.
Definition iloss_xentropy_ns_st (tiny : R) (acts data_y : mtx R) (er : prange) : option R :=
  do s <- for_loop (r_ofs er) (r_cnt er) (fun i (st : R * R) =>
    do y <- bget (m_data data_y) i; do a <- bget (m_data acts) i;
    let '(sum, C) := st in
    let ev := xent_term tiny a y in
    let Y := ev - C in
    let T := sum + Y in
    Some (T, T - sum - Y)) (0, 0);
  Some (fst s).
(** 4464-4471, 4498-4504; 4506-4514, 4545-4550 *)
Definition loss_xentropy (tiny : R) (ns : bool) (acts data_y : mtx R) : option R :=
  let k := if ns then iloss_xentropy_ns_st tiny else iloss_xentropy_st tiny in
  do ql <- (if (numel acts <? thr)%nat then k acts data_y (mkR 0 (numel acts) 0)
            else reduce (k acts data_y) (reduce_vec_sum ns) pool (numel acts));
  Some (- ql).

(** mathn.h 4562-4588; [laz]: log_almost_zero *)
Definition iloss_softmax_st (laz : R) (acts data_y : mtx R) (er : prange) : option R :=
  for_loop (r_ofs er) (r_cnt er) (fun i ret =>
    do a <- bget (m_data acts) i; do y' <- bget (m_data data_y) i;
    let y := - y' in
    let a := if Rlt_dec 0 a then ln a else laz in
    Some (ret + y * a)) 0.
Definition loss_softmax_xentropy (laz : R) (acts data_y : mtx R) : option R :=
  if (numel acts <? thr)%nat then iloss_softmax_st laz acts data_y (mkR 0 (numel acts) 0)
  else reduce (iloss_softmax_st laz acts data_y) (reduce_vec_sum false) pool (numel acts).

(** mathn.h 2966-3000 for a loss class with [loss] and [normalize] *)
Definition icompute_loss_st (loss : R -> R -> R) (acts data_y : mtx R) (er : prange) : option R :=
  for_loop (r_ofs er) (r_cnt er) (fun i ret =>
    do a <- bget (m_data acts) i; do y <- bget (m_data data_y) i; Some (ret + loss a y)) 0.
Definition compute_loss (loss : R -> R -> R) (normalize : R -> nat -> R) (acts data_y : mtx R) : option R :=
  do ql <- (if (numel acts <? thr)%nat then icompute_loss_st loss acts data_y (mkR 0 (numel acts) 0)
            else reduce (icompute_loss_st loss acts data_y) (reduce_vec_sum false) pool (numel acts));
  Some (normalize ql (m_rows acts)).
End M.
