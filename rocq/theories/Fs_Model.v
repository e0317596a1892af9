(** Sums in floating-point arithmetic: the functors of nntl/interface/math/smath.h 277-366,
    408-440 and the sums built of them (997-1074), nntl/interface/math/mathn.h 4392-4459.

    As Sum_Model, but every operation is followed by the rounding [rnd]; the structure of the
    loops, ranges and reductions is that of Sum_Model.  Numbers are real numbers of the format;
    overflow to infinity and NaN are not modelled.  The operations are done one by one in the
    order of the source, without extended precision, fused or reassociated operations
    (what #pragma float_control(precise, on) would give; the comments at smath.h:300 and 428
    wish for it; with other settings the compiler may simplify C to 0). *)
From Coq Require Import Reals.
From Verif Require Import Base Workers_Model Kern_Model Tri_Model Sum_Model.
Local Open Scope R_scope.

Section A.
Context (rnd : R -> R).

(** func_SUM<_T, false>, smath.h:280-291 *)
Definition fsum_op (ret v : R) : R := rnd (ret + v).
(** func_SUM<_T, true>, smath.h:293-307; state: ret, C *)
Definition fkahan_op (st : R * R) (v : R) : R * R :=
  let '(ret, C) := st in
  let Y := rnd (v - C) in
  let T := rnd (ret + Y) in
  (T, rnd (rnd (T - ret) - Y)).
(** func_SUM_squares, smath.h:309-318 *)
Definition fsumsq_op (ret v : R) : R := fsum_op ret (rnd (v * v)).
Definition fkahansq_op (st : R * R) (v : R) : R * R := fkahan_op st (rnd (v * v)).
(** func_SUMNZ<_T, false>, smath.h:323-340; [b]: a bool converted to the type of the
    elements, so the product is exact *)
Definition fsumnz_op (cv : R) (st : R * nat) (v : R) : R * nat :=
  let '(ret, cnt) := st in
  let b := if Req_EM_T v cv then 0 else 1 in
  (rnd (ret + b * v), (cnt + if Req_EM_T v cv then 0 else 1)%nat).
(** func_SUMNZ<_T, true>, smath.h:342-366 *)
Definition fkahannz_op (cv : R) (st : R * R * nat) (v : R) : R * R * nat :=
  let '(r, C, cnt) := st in
  let Y := rnd (v - C) in
  let T := rnd (r + Y) in
  if Req_EM_T v cv then (r, C, cnt) else (T, rnd (rnd (T - r) - Y), (cnt + 1)%nat).

(** _vec_sum, _vec_sum_squares, 408-415 *)
Definition fvec_sum (ns : bool) (data : list R) (ofs cnt : nat) : option R :=
  if ns then do s <- vec_apply_func data ofs cnt fkahan_op (0, 0); Some (fst s)
  else vec_apply_func data ofs cnt fsum_op 0.
Definition fvec_sum_squares (ns : bool) (data : list R) (ofs cnt : nat) : option R :=
  if ns then do s <- vec_apply_func data ofs cnt fkahansq_op (0, 0); Some (fst s)
  else vec_apply_func data ofs cnt fsumsq_op 0.
(** _reduce_vec_sum, smath.h:418-440 *)
Definition freduce_vec_sum (ns : bool) (cells : list R) : R :=
  if ns then fst (fold_left fkahan_op cells (0, 0)) else fold_left fsum_op cells 0.

Context (pool : list prange) (thr : nat).
(** 997-1004; ewSumSquares 1006-1039, ewSumSquares_ns 1041-1074 *)
Definition fewSumSquares (ns : bool) (data : list R) (n : nat) : option R :=
  let k er := fvec_sum_squares ns data (r_ofs er) (r_cnt er) in
  if (n <? thr)%nat then k (mkR 0 n 0) else reduce k (freduce_vec_sum ns) pool n.

(** mathn.h 4397-4410, 4431-4447 *)
Definition filoss_quadratic_st (acts data_y : mtx R) (er : prange) : option R :=
  for_loop (r_ofs er) (r_cnt er) (fun i ret =>
    do a <- bget (m_data acts) i; do y <- bget (m_data data_y) i;
    let e := rnd (a - y) in Some (rnd (ret + rnd (e * e)))) 0.
Definition filoss_quadratic_ns_st (acts data_y : mtx R) (er : prange) : option R :=
  do s <- for_loop (r_ofs er) (r_cnt er) (fun i (st : R * R) =>
    do a <- bget (m_data acts) i; do y <- bget (m_data data_y) i;
    let '(sum, C) := st in
    let e := rnd (a - y) in
    let Y := rnd (rnd (e * e) - C) in
    let T := rnd (sum + Y) in
    Some (T, rnd (rnd (T - sum) - Y))) (0, 0);
  Some (fst s).
(** 4392-4421, 4425-4459 *)
Definition floss_quadratic (ns : bool) (acts data_y : mtx R) : option R :=
  let k := if ns then filoss_quadratic_ns_st else filoss_quadratic_st in
  do ql <- (if (numel acts <? thr)%nat then k acts data_y (mkR 0 (numel acts) 0)
            else reduce (k acts data_y) (freduce_vec_sum ns) pool (numel acts));
  Some (rnd (ql / 2)).
End A.
