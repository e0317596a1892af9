(** Clamping of derivatives: evClamp (nntl/interface/math/mathn.h 1160-1186), the restriction of
    dL/dZ of output layers (nntl/layer/output.h 106-110, 210-250, 270-290); the elementwise kernels
    evOneCompl (mathn.h 2093-2147), evSubMtxMulC_ip_nb (1714-1751), evMul_ip_Anb (1798-1813),
    evAdd_Anb_ip (1936-1952) and evMulC_ip (1663-1712).

    Simplifications: real arithmetic; an iteration touches its own element only, so reading the
    storage as it was before the call is exact.  A violated NNTL_ASSERT is [None]. *)
From Coq Require Import Reals.
From Verif Require Import Base Workers_Model Kern_Model Kern_Spec IdxMax_Model Priv_Model Sum_Model Norm_Model Opt_Model La_Model Sfm_Model Rw_Model.
Local Open Scope R_scope.

(** boost/algorithm/clamp.hpp: clamp *)
Definition clamp (lo hi x : R) : R := if Rlt_dec x lo then lo else if Rlt_dec hi x then hi else x.

(** A loop from element [p] to element [pE], writing [g] there *)
Definition vmap (g : nat -> option R) (p pE : nat) : option (list (wr R)) :=
  do (_, w) <- ptr_loop p pE 1 (fun p (_ : unit) => do y <- g p; Some (tt, [(p, y)])) tt; Some w.

(** mathn.h 1162-1186 *)
Definition evClamp (thr : nat) (pool : list prange) (m : mtx R) (lo hi : R) : option (list (list (wr R))) :=
  do _ <- guard (0 <? numel m)%nat; do _ <- (if Rlt_dec lo hi then Some tt else None);
  par (fun r => vmap (fun p => do x <- bget (m_data m) p; Some (clamp lo hi x)) (r_ofs r) (r_ofs r + r_cnt r))
    (by_thr pool thr (numel m) (numel m)).

(** m_bRestrictdLdZ, m_dLdZRestrictLowerBnd, m_dLdZRestrictUpperBnd; output.h 108 *)
Record rst := mkRst { r_on : bool; r_lo : R; r_hi : R }.
Definition rst0 : rst := mkRst false 0 0.
Inductive rop := Restrict (lo hi : R) | Unrestrict.
Definition req (x y : R) : bool := if Req_EM_T x y then true else false.
Definition rlt (x y : R) : bool := if Rlt_dec x y then true else false.
(** 273-284 restrict_dL_dZ, 285-288 drop_dL_dZ_restriction *)
Definition r_step (o : rop) (s : rst) : option rst :=
  match o with
  | Restrict lo hi =>
      if req hi 0 || req lo 0 then do _ <- guard (req hi 0 && req lo 0); Some (mkRst false lo hi)
      else do _ <- guard (rlt lo 0 && rlt 0 hi); Some (mkRst true lo hi)
  | Unrestrict => Some (mkRst false (r_lo s) (r_hi s))
  end.
Fixpoint r_run (os : list rop) (s : rst) : option rst :=
  match os with [] => Some s | o :: os => do s <- r_step o s; r_run os s end.
(** 213-220: dL/dZ has been computed into the storage of the activations *)
Definition restrict_dLdZ (thr : nat) (pool : list prange) (s : rst) (dLdZ : mtx R) : option (list (list (wr R))) :=
  if r_on s then evClamp thr pool dLdZ (r_lo s) (r_hi s) else Some [].

(** mathn.h 2096-2147; [D]: the storage of gcompl, whose size_no_bias() is that of the gate *)
Definition evOneCompl (thr : nat) (pool : list prange) (gate : mtx R) : option (list (list (wr R))) :=
  par (fun r => vmap (fun p =>
      do g <- bget (m_data gate) p;
      do _ <- guard (req g 1 || req g 0);
      let gc := 1 - g in
      do _ <- guard (req gc 1 || req gc 0);
      Some gc) (r_ofs r) (r_ofs r + r_cnt r))
    (by_thr pool thr (numel_nb gate) (numel_nb gate)).

(** A loop over the elements of [B], whose size() is A.size_no_bias(), replacing those of [A] *)
Definition evAnb (f : R -> R -> R) (thr : nat) (pool : list prange) (A B : mtx R) : option (list (list (wr R))) :=
  par (fun r => vmap (fun p => do v <- bget (m_data A) p; do x <- bget (m_data B) p; Some (f v x)) (r_ofs r) (r_ofs r + r_cnt r))
    (by_thr pool thr (numel B) (numel B)).
(** 1716-1751 *)
Definition evSubMtxMulC_ip_nb (thr : nat) (pool : list prange) (A M : mtx R) (c : R) : option (list (list (wr R))) :=
  do _ <- guard (negb (req c 0)); evAnb (fun v x => (v - x) * c) thr pool A M.
(** 1799-1813 with 1780-1797 *)
Definition evMul_ip_Anb := evAnb (fun v x => v * x).
(** 1938-1952 *)
Definition evAdd_Anb_ip := evAnb (fun v x => v + x).

(** 1667-1712; the loops are those of evMulCAddC_ip, [evC].  evMulC_ip_nb is the call with [ib] *)
Definition evMulC_ip (thr : nat) (pool : list prange) (m : mtx R) (c : R) (ib : bool) : option (list (list (wr R))) :=
  do _ <- guard (negb (req c 0)); do _ <- guard (ib || negb (m_bias m)); evC thr pool (fun x => x * c) ib m.
