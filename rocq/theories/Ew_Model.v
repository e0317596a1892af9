(** The loop shared by the elementwise kernels of nntl/interface/math/mathn.h,
    e.g. 3055-3086 [_isigm_st]/[sigm_mt], 3131-3152 [_idSigmQuadLoss_dZ_st]:

      while (p != pE) { v = *p; *p++ = f(v [, other buffers at the same index]); }

    over a range of elements; the _st version works on one range, the _mt version
    on the ranges of run() over the element count.  An iteration reads and writes
    only the element it stands at, so reading the storage as it was before the
    call is exact.  [f i v]: value to be stored at offset i. *)
From Verif Require Import Base Workers_Model Kern_Model.

Section E.
Context {A : Type}.

Definition iew (f : nat -> A -> option A) (d : list A) (er : prange) : option (list (wr A)) :=
  do (_, w) <- ptr_loop (r_ofs er) (r_ofs er + r_cnt er) 1 (fun p (_ : unit) =>
    do v <- bget d p; do v' <- f p v; Some (tt, [(p, v')])) tt;
  Some w.

Definition ew (parts : list prange) (f : nat -> A -> option A) (d : list A) :
  option (list (list (wr A))) := par (iew f d) parts.
End E.
