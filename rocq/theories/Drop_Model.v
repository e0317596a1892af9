(** Dropout: nntl/dropout/dropout.h, nntl/dropout/alpha_dropout.h, nntl/_SNN_common.h
    and the kernels make_dropout, make_alphaDropout, evMul_ip of
    nntl/interface/math/mathn.h.  Real arithmetic.

    Activations, mask, saved activations and dL/dA are separate storages accessed at
    one index at a time; they are modelled as one array of records.  The array has the
    length of the activations including the bias column, which comes last; the mask,
    the saved activations and dL/dA have no bias column and [n] elements, so the
    fields of the records from [n] on other than [x_act] stand for nothing. *)
From Coq Require Import Reals.
From Verif Require Import Base Workers_Model Kern_Model Kern_Spec Ew_Model Norm_Model.
Local Open Scope R_scope.

Record xcell := mkX { x_act : R; x_mask : R; x_orig : R; x_dl : R }.

(** _imake_dropout_st 1219-1229 *)
Definition f_dropout (p : R) (c : xcell) : option xcell :=
  do inv <- rdiv 1 p;
  let v := x_mask c in
  let dv := if Rlt_dec v p then inv else 0 in
  Some (mkX (x_act c * dv) dv (x_orig c) (x_dl c)).
(** _imake_alphaDropout_st 1321-1333 *)
Definition f_alpha (p a b mbDrop : R) (c : xcell) : option xcell :=
  do b_div_a <- rdiv b a; do mbDV_div_a <- rdiv mbDrop a;
  let v := x_mask c in
  let dv := if Rlt_dec v p then a else 0 in
  Some (mkX (dv * (x_act c + b_div_a) + (a - dv) * mbDV_div_a) dv (x_orig c) (x_dl c)).
(** _ievMul_ip_st 1779-1786 on dL/dA and the mask *)
Definition f_mul (c : xcell) : option xcell := Some (mkX (x_act c) (x_mask c) (x_orig c) (x_dl c * x_mask c)).

(** calc_coeffs, _SNN_common.h:97-121; [al] is -Alpha*Lambda, [mu] and [nu] the fixed
    point mean and variance *)
Definition calc_coeffs (al mu nu p : R) : option (R * R * R) :=
  let dropProb := 1 - p in
  let amfpm := al - mu in
  do q <- rdiv nu (p * (dropProb * (amfpm * amfpm) + nu));
  do a <- rsqrt q;
  let b := mu - a * (p * mu + dropProb * al) in
  Some (a, b, a * al + b).

(** X(): X_st below the threshold, else X_mt *)
Definition xparts (pool : list prange) (thr n : nat) : list prange :=
  if (n <? thr)%nat then whole n else run_ranges pool 0 n.

(** first [n] elements of a storage are overwritten *)
Definition pre (n : nat) (f : nat -> xcell -> xcell) (d : list xcell) : list xcell :=
  map (fun q => if (fst q <? n)%nat then f (fst q) (snd q) else snd q) (combine (seq 0 (length d)) d).

Inductive dkind := Classic | Alpha (al mu nu : R).

(** _dropout_apply, dropout.h:217-237, alpha_dropout.h:102-123, in training mode; [rnd]
    is what gen_matrix_norm delivers.  Read: [post] holds afterwards *)
Definition dropout_apply (k : dkind) (pool : list prange) (thr n : nat) (p : R) (rnd : list R) (d : list xcell)
  (post : list xcell -> Prop) : Prop :=
  let d := pre n (fun _ c => mkX (x_act c) (x_mask c) (x_act c) (x_dl c)) d in
  let d := pre n (fun i c => mkX (x_act c) (nth i rnd 0) (x_orig c) (x_dl c)) d in
  match k with
  | Classic => computes (ew (xparts pool thr n) (fun _ => f_dropout p) d) d post
  | Alpha al mu nu =>
      exists a b m, calc_coeffs al mu nu p = Some (a, b, m) /\
      computes (ew (xparts pool thr n) (fun _ => f_alpha p a b m) d) d post
  end.

(** _dropout_restoreScaling, dropout.h:144-158 *)
Definition dropout_restore (pool : list prange) (thr n : nat) (d : list xcell) (post : list xcell -> Prop) : Prop :=
  computes (ew (xparts pool thr n) (fun _ => f_mul) d) d (fun d =>
    post (pre n (fun _ c => mkX (x_orig c) (x_mask c) (x_orig c) (x_dl c)) d)).
