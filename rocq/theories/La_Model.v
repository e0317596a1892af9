(** Loss addendums (penalties added to the loss): nntl/loss_addendum/L1.h, L2.h, DeCov.h,
    _i_loss_addendum.h, the regularizers of weights nntl/grad_works/loss_addendums.h, the
    penalties of activations nntl/layer/_penalized_activations_base.h and the kernels of
    nntl/interface/math/mathn.h and smath.h they use.

    Simplifications: real arithmetic; every block of temporary memory is a list of its own
    ([_istor_alloc] gives disjoint blocks, C37) with whatever content it had; an iteration
    of an elementwise or columnwise loop touches its own element or column only, so reading
    the storage as it was before the call is exact.  syrk and symm of the BLAS are what
    their documentation says.  The calls of the inspector are left out. *)
From Coq Require Import Reals.
From Verif Require Import Base Workers_Model Kern_Model Kern_Spec Ew_Model Sum_Model Norm_Model Opt_Model.
Local Open Scope R_scope.

(** Thresholds_t *)
Record lthr := mkLT { t_add : nat; t_nzadd : nat; t_adds : nat; t_nzadds : nat; t_sign : nat;
  t_demean : nat; t_diag : nat; t_sq : nat; t_tri : nat; t_abs : nat }.

Section K.
Context (th : lthr) (pool : list prange).

(** single- or multithreaded: _st gets everything, _mt the ranges of run() *)
Definition by_thr (thr n cnt : nat) : list prange := if (n <? thr)%nat then whole cnt else run_ranges pool 0 cnt.

(** ** Elementwise kernels; [n]: A.numel() *)
(** mathn.h 1956-1981 *)
Definition evAddScaled_ip (n : nat) (A : list R) (c : R) (B : list R) :=
  ew (by_thr (t_add th) n n) (fun i a => do b <- bget B i; Some (a + c * b)) A.
(** 1986-2015 *)
Definition evNZAddScaled_ip (n : nat) (A : list R) (c : R) (B : list R) :=
  ew (by_thr (t_nzadd th) n n) (fun i a => do b <- bget B i; Some (if Req_EM_T a 0 then 0 else a + c * b)) A.
(** 2020-2045 *)
Definition evAddScaledSign_ip (n : nat) (A : list R) (c : R) (B : list R) :=
  ew (by_thr (t_adds th) n n) (fun i a => do b <- bget B i; Some (a + c * sgn b)) A.
(** 2047-2071 *)
Definition evNZAddScaledSign_ip (n : nat) (A : list R) (c : R) (B : list R) :=
  ew (by_thr (t_nzadds th) n n) (fun i a => do b <- bget B i; Some (if Req_EM_T a 0 then 0 else a + c * sgn b)) A.
(** 2076-2096 *)
Definition evSign (n : nat) (A B : list R) :=
  ew (by_thr (t_sign th) n n) (fun i _ => do b <- bget B i; Some (sgn b)) A.
(** memcpy(A, B, n elements): smatrix.h 491-509 clone_to_no_bias, 475-487 clone_to,
    525-538 copy_to *)
Definition copy (n : nat) (A B : list R) := do w <- memcpy_tr B 0 0 n; Some [w].

(** ** Columnwise kernels over a matrix of [rows] rows and [cols] columns *)
(** _imcwDeMean_st, smath.h 1868-1888 *)
Definition imcwDeMean_st (ns : bool) (rows : nat) (d : list R) (er : prange) : option (list (wr R)) :=
  do (_, w) <- wfor (r_ofs er) (r_cnt er) (fun c (_ : unit) =>
    do s <- vec_sum ns d (rows * c) rows;
    do mean <- rdiv s (INR rows);
    do (_, w) <- wfor 0 rows (fun i (_ : unit) => do x <- bget d (i + rows * c); Some (tt, [((i + rows * c)%nat, x - mean)])) tt;
    Some (tt, w)) tt;
  Some w.
(** mcwDeMean 1849-1866; _processMtx_cw 820-836 *)
Definition mcwDeMean (ns : bool) (rows cols : nat) (d : list R) :=
  par (imcwDeMean_st ns rows d) (by_thr (t_demean th) (rows * cols) cols).

(** _imcwMulDiag_ip_st 1989-2012; pB runs along the diagonal of [B], n x n *)
Definition imcwMulDiag_st (rows : nat) (B : list R) (n : nat) (d : list R) (er : prange) : option (list (wr R)) :=
  do (_, w) <- wfor (r_ofs er) (r_cnt er) (fun c pB =>
    do v <- bget B pB;
    do (_, w) <- wfor 0 rows (fun j (_ : unit) => do x <- bget d (j + rows * c); Some (tt, [((j + rows * c)%nat, x * v)])) tt;
    Some ((pB + (n + 1))%nat, w)) (n * r_ofs er + r_ofs er)%nat;
  Some w.
(** mcwMulDiag_ip 1970-1988 *)
Definition mcwMulDiag_ip (rows cols : nat) (d : list R) (B : list R) (n : nat) :=
  par (imcwMulDiag_st rows B n d) (by_thr (t_diag th) (rows * cols) cols).

(** ** BLAS.  syrk (transposed, beta = 0) writes one triangle of the n x n matrix C with
    alpha * A' * A and leaves the other; [A] is k x n *)
Definition in_tri (lower : bool) (i j : nat) : bool := if lower then (j <=? i)%nat else (i <=? j)%nat.
Definition syrk_tn (lower : bool) (n k : nat) (alpha : R) (A C : list R) : option (list R) :=
  do _ <- guard ((k * n <=? length A)%nat && (n * n <=? length C)%nat);
  Some (map (fun a => let i := (a mod n)%nat in let j := (a / n)%nat in
    if in_tri lower i j then alpha * fold_right Rplus 0 (map (fun r => nth (r + k * i) A 0 * nth (r + k * j) A 0) (seq 0 k))
    else nth a C 0) (seq 0 (n * n)) ++ skipn (n * n) C).
(** symm with the symmetric n x n matrix [A] on the right, of which one triangle is read:
    C := alpha * B * A + beta * C; [B], [C] are m x n *)
Definition symm_elem (lower : bool) (n : nat) (A : list R) (i j : nat) : R :=
  if in_tri lower i j then nth (i + n * j) A 0 else nth (j + n * i) A 0.
Definition symm_r (lower : bool) (m n : nat) (alpha : R) (A B : list R) (beta : R) (C : list R) : option (list R) :=
  do _ <- guard ((n * n <=? length A)%nat && (m * n <=? length B)%nat && (m * n <=? length C)%nat);
  Some (map (fun a => let i := (a mod m)%nat in let j := (a / m)%nat in
    alpha * fold_right Rplus 0 (map (fun k => nth (i + m * k) B 0 * symm_elem lower n A k j) (seq 0 n)) + beta * nth a C 0)
    (seq 0 (m * n)) ++ skipn (m * n) C).

(** ** DeCov.  [Vals] without bias column: [rows] x [cols]; [tD], [tC]: the temporary
    blocks.  Read: [post] holds of the result *)
(** mColumnsCov 2664-2680 after DeMeaned = clone of Vals, mcwDeMean: 5066-5085, 5132-5147 *)
Definition demeaned_cov (lower ns : bool) (rows cols : nat) (V tD tC : list R) (post : list R -> list R -> Prop) : Prop :=
  computes (copy (rows * cols) tD V) tD (fun dm =>
    computes (mcwDeMean ns rows cols dm) dm (fun dm =>
      exists cv, syrk_tn lower cols rows (1 / INR rows) dm tC = Some cv /\ post dm cv)).
(** loss_deCov 5058-5100 *)
Definition loss_deCov (lower ns : bool) (rows cols : nat) (V tD tC : list R) (post : R -> Prop) : Prop :=
  demeaned_cov lower ns rows cols V tD tC (fun _ cv =>
    exists s r, ewSumSquaresTriang pool (t_tri th) ns lower (mkM cols cols false false cv) = Some s /\
      rdiv s (INR (cols - 1)) = Some r /\ post r).
(** dLoss_deCov 5102-5118, dLoss_deCov_ip 5120-5180, deCov_scale = 1, into [dL] *)
Definition dLoss_deCov (lower ns : bool) (rows cols : nat) (V dL tD tC : list R) (post : list R -> Prop) : Prop :=
  computes (copy (rows * cols) dL V) dL (fun dL =>
    demeaned_cov lower ns rows cols dL tD tC (fun dm cv =>
      computes (copy (rows * cols) dL dm) dL (fun dL =>
        computes (mcwMulDiag_ip rows cols dL cv cols) dL (fun dL =>
          exists cmnScale dL', rdiv (2 * 1) (INR (rows * cols - rows)) = Some cmnScale /\
            symm_r lower rows cols cmnScale cv dm (- cmnScale) dL = Some dL' /\ post dL')))).

(** ** The addendums *)
Inductive kind := KL1 | KL2 | KDeCov (lower ns : bool).
(** scaled_addendum, scaled_addendum_with_mtx4fprop, _i_loss_addendum.h 130-195: m_scale,
    bCalcOnFprop, bAppendToNZGrad, storage of m_Mtx *)
Record adn := mkA { a_kind : kind; a_scale : R; a_fp : bool; a_nz : bool; a_mtx : list R }.
Definition enabled (a : adn) : bool := if Req_EM_T 0 (a_scale a) then false else true.

(** temporary memory of one call: DeMeaned, CovMtx, dL *)
Record tmem := mkT { tm_D : list R; tm_C : list R; tm_L : list R }.

(** lossAdd: L1.h 48-51, L2.h 48-51, DeCov.h 74-78 *)
Definition lossAdd (a : adn) (rows cols : nat) (V : list R) (t : tmem) (post : R -> Prop) : Prop :=
  match a_kind a with
  | KL1 => exists s, vSumAbs pool (t_abs th) (mkM rows cols false false V) = Some s /\ post (a_scale a * s)
  | KL2 => exists s, ewSumSquares_mtx pool (t_sq th) false (mkM rows cols false false V) = Some s /\ post (a_scale a * / 2 * s)
  | KDeCov lower ns => loss_deCov lower ns rows cols V (tm_D t) (tm_C t) (fun s => post (a_scale a * s))
  end.

(** on_fprop: L1.h 54-59, L2.h 53-58, DeCov.h 80-86; m_Mtx.deform_like(Vals) *)
Definition on_fprop (a : adn) (rows cols : nat) (V : list R) (t : tmem) (post : adn -> Prop) : Prop :=
  (rows * cols <= length (a_mtx a))%nat /\
  let fin M := post (mkA (a_kind a) (a_scale a) (a_fp a) (a_nz a) M) in
  match a_kind a with
  | KL1 => computes (evSign (rows * cols) (a_mtx a) V) (a_mtx a) fin
  | KL2 => computes (copy (rows * cols) (a_mtx a) V) (a_mtx a) fin
  | KDeCov lower ns => dLoss_deCov lower ns rows cols V (a_mtx a) (tm_D t) (tm_C t) fin
  end.

(** _appendGradient, _i_loss_addendum.h 161-170; _appendGradientSign, L1.h 77-84 *)
Definition appendGradient (a : adn) (n : nat) (D G : list R) :=
  if a_nz a then evNZAddScaled_ip n D (a_scale a) G else evAddScaled_ip n D (a_scale a) G.
Definition appendGradientSign (a : adn) (n : nat) (D G : list R) :=
  if a_nz a then evNZAddScaledSign_ip n D (a_scale a) G else evAddScaledSign_ip n D (a_scale a) G.

(** dLossAdd: L1.h 61-77, L2.h 60-74, DeCov.h 88-118 *)
Definition dLossAdd (a : adn) (rows cols : nat) (V D : list R) (t : tmem) (post : list R -> Prop) : Prop :=
  let n := (rows * cols)%nat in
  if a_fp a then computes (appendGradient a n D (a_mtx a)) D post
  else match a_kind a with
  | KL1 => computes (appendGradientSign a n D V) D post
  | KL2 => computes (appendGradient a n D V) D post
  | KDeCov lower ns => dLoss_deCov lower ns rows cols V (tm_L t) (tm_D t) (tm_C t) (fun dL =>
      computes (appendGradient a n D dL) D post)
  end.

(** ** Weights: grad_works/loss_addendums.h.  [W] and dL/dW are [rows] x [cols], the last
    column holds the bias weights; addendum and addendumIgnoresBias *)
Definition visible (ib : bool) (cols : nat) : nat := if ib then (cols - 1)%nat else cols.
(** lossAddendum 187-206 *)
Fixpoint gw_lossAddendum (las : list (adn * bool)) (rows cols : nat) (W : list R) (t : tmem) (ret : R) (post : R -> Prop) : Prop :=
  match las with
  | [] => post ret
  | (a, ib) :: las =>
      if enabled a then lossAdd a rows (visible ib cols) W t (fun v => gw_lossAddendum las rows cols W t (ret + v) post)
      else gw_lossAddendum las rows cols W t ret post
  end.
(** _applyLossAddendums 209-226 *)
Fixpoint gw_apply (las : list (adn * bool)) (rows cols : nat) (W D : list R) (t : tmem) (post : list R -> Prop) : Prop :=
  match las with
  | [] => post D
  | (a, ib) :: las =>
      if enabled a then dLossAdd a rows (visible ib cols) W D t (fun D => gw_apply las rows cols W D t post)
      else gw_apply las rows cols W D t post
  end.

(** ** Activations: layer/_penalized_activations_base.h.  [A]: the activations, whose bias
    column is hidden: [rows] x [cols] without it *)
(** _pab_lossAddendum 148-169 *)
Fixpoint pab_lossAddendum (las : list adn) (rows cols : nat) (A : list R) (t : tmem) (ret : R) (post : R -> Prop) : Prop :=
  match las with
  | [] => post ret
  | a :: las =>
      if enabled a then lossAdd a rows cols A t (fun v => pab_lossAddendum las rows cols A t (ret + v) post)
      else pab_lossAddendum las rows cols A t ret post
  end.
(** _pab_fprop 210-213, call_on_fprop 174-191, 193-202 *)
Fixpoint pab_fprop (las : list adn) (rows cols : nat) (A : list R) (t : tmem) (post : list adn -> Prop) : Prop :=
  match las with
  | [] => post []
  | a :: las =>
      if (a_fp a && enabled a)%bool
      then on_fprop a rows cols A t (fun a => pab_fprop las rows cols A t (fun las => post (a :: las)))
      else pab_fprop las rows cols A t (fun las => post (a :: las))
  end.
(** _pab_update_dLdA 217-231 *)
Fixpoint pab_update_dLdA (las : list adn) (rows cols : nat) (A D : list R) (t : tmem) (post : list R -> Prop) : Prop :=
  match las with
  | [] => post D
  | a :: las =>
      if enabled a then dLossAdd a rows cols A D t (fun D => pab_update_dLdA las rows cols A D t post)
      else pab_update_dLdA las rows cols A D t post
  end.
End K.
