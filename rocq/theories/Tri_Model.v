(** Triangular matrices: nntl/interface/math/smatrix.h:870-915 and the traversal of a
    triangle, nntl/interface/math/smath.h:441-503.

    vec_len_t / numel_cnt_t are natural numbers here: nothing overflows as long as
    8*k+9 fits into 64 bits.  The square root is taken in binary64 arithmetic
    (round to nearest even, as the compiler's x64 code does); overflow to infinity
    cannot happen for 64-bit integers. *)
From Coq Require Import ZArith Reals.
From Flocq Require Import Core.
From Verif Require Import Base.

(** result of a double operation whose exact result is x *)
Definition dbl (x : R) : R := round radix2 (FLT_exp (-1074) 53) ZnearestE x.

(** smatrix.h:887, 904: ceil((sqrt((double)(8*k+9)) - 1)/2) *)
Definition col_dbl (k : nat) : nat :=
  Z.to_nat (Zceil (dbl (dbl (dbl (sqrt (dbl (IZR (8 * Z.of_nat k + 9)))) - 1) / 2))).

(** smatrix.h:873-876 *)
Definition numel_triangl (n : nat) : nat := n * (n - 1) / 2.

Section T.
(** [col_dbl] is passed as a parameter, in order that examples can be computed *)
Context (root : nat -> nat).

(** smatrix.h:883-892; (row, column) *)
Definition coords_upper (k : nat) : nat * nat :=
  let ci := root k in (k - ci * (ci - 1) / 2, ci).
(** smatrix.h:893-909 *)
Definition coords_lower (n k : nat) : nat * nat :=
  let tr := numel_triangl n in
  if k =? tr then (0, n - 1)
  else let k' := tr - k - 1 in
       let ci := root k' in (n - 1 - (k' - ci * (ci - 1) / 2), n - 1 - ci).
Definition coords (lower : bool) (n k : nat) : nat * nat := if lower then coords_lower n k else coords_upper k.

(** smath.h:253-268: offsets of the elements given to the functor *)
Definition vec_apply (ofs cnt : nat) : list nat := seq ofs cnt.

(** smath.h:473-482; [cnt] steps; state: ri, pCol, elements visited *)
Fixpoint middle (lower : bool) (n ci cnt : nat) (st : nat * nat * list nat) : nat * nat * list nat :=
  match cnt with
  | 0 => st
  | S cnt' =>
    let '(ri, pCol, out) := st in
    middle lower n (ci + 1) cnt'
      (if lower then (ri + 1, pCol + n, out ++ vec_apply (pCol + ri) (n - ri))
       else (ri, pCol + n, out ++ vec_apply pCol ci))
  end.

(** smath.h:444-503: the elements of an n x n matrix visited for the range [b, e) *)
Definition triang_apply (lower : bool) (n b e : nat) : list nat :=
  let '(ri, ci) := coords lower n b in
  let '(endRi, endCi) := coords lower n e in
  let firstIsLast := ci =? endCi in
  let pCol := n * ci in
  let out := if lower then vec_apply (pCol + ri) (n - ri - (if firstIsLast then n - endRi else 0))
             else vec_apply (pCol + ri) (ci - ri - (if firstIsLast then ci - endRi else 0)) in
  let ri := if lower then ci + 2 else ri in
  let '(ri, pCol, out) := middle lower n (ci + 1) (endCi - (ci + 1)) (ri, pCol + n, out) in
  if firstIsLast then out
  else if lower then
    if endCi + 1 <? endRi then out ++ vec_apply (pCol + ri) (endRi - ri) else out
  else if 0 <? endRi then out ++ vec_apply pCol endRi else out.
End T.
