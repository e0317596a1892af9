(** Counting the elements of a vector that are not zero: nntl/interface/math/mathn.h 1045-1077.

    Elements are bit patterns of an IEEE format with [p] bits of fraction and [e] bits of exponent
    (23 and 8 for float, 52 and 11 for double).  [daz]: the mode of disable_denormals(),
    nntl/utils/denormal_floats.h 39-44, in which subnormal operands are zeros; of it only that is
    modelled.  The count of vCountNonZeros() is an integer without bounds. *)
From Coq Require Import NArith ZArith List Bool.
From Coq Require Import Floats.SpecFloat.
From Verif Require Import Base.
Import ListNotations.
Local Open Scope N_scope.

Section Format.
Context (p e : N).

(** IEEE 754 interchange formats *)
Definition decode (b : N) : spec_float :=
  let s := N.testbit b (p + e) in
  let ex := (b / 2 ^ p) mod 2 ^ e in
  let m := b mod 2 ^ p in
  let bias := (2 ^ (Z.of_N e - 1) - 1 + Z.of_N p)%Z in
  if ex =? 0 then match m with N0 => S754_zero s | Npos m => S754_finite s m (1 - bias) end
  else if ex =? 2 ^ e - 1 then match m with N0 => S754_infinity s | Npos _ => S754_nan end
  else match 2 ^ p + m with N0 => S754_nan | Npos m => S754_finite s m (Z.of_N ex - bias) end.
(** What an operation sees of an operand *)
Definition operand (daz : bool) (b : N) : spec_float :=
  if daz && ((b / 2 ^ p) mod 2 ^ e =? 0) then S754_zero (N.testbit b (p + e)) else decode b.

(** 1047-1057: nz += (v > +0.) + (v < -0.) *)
Definition b2N (b : bool) : N := if b then 1 else 0.
Definition vCountNonZeros (daz : bool) (v : list N) : N :=
  fold_left (fun nz b => nz + (b2N (SFltb (S754_zero false) (operand daz b)) + b2N (SFltb (operand daz b) (S754_zero true)))) v 0.
(** 1060-1077: the counter has the size of an element *)
Definition vCountNonZerosStrict (v : list N) : N :=
  fold_left (fun nz b => (nz + b2N (0 <? b)) mod 2 ^ (p + e + 1)) v 0.
(** 623-648, 687-711: the rows that are extracted or filled, m != _z for the bits of +0. *)
Definition rows_taken (v : list N) : list nat :=
  filter (fun i => negb (nth i v 0 =? 0)) (seq 0 (length v)).
End Format.
