(** Gradient application: nntl/grad_works/grad_works.h, nntl/grad_works/ILR.h and the
    elementwise kernels of nntl/interface/math/mathn.h they call.  Real arithmetic.

    All matrices involved (weights, dL/dW, the two matrices of the optimizer, velocity,
    individual gains, previous dL/dW, temporary blocks) have one size and lie in
    separate storages, and every kernel reads and writes all of them at one index at a
    time: the storages are modelled as one array of records.  The loss addendums
    (grad_works.h:407) are applied before; [t_grad] gives dL/dW after them.  The
    inspector callbacks are not modelled. *)
From Coq Require Import Reals.
From Verif Require Import Base Workers_Model Kern_Model Kern_Spec Priv_Model Norm_Model.
Local Open Scope R_scope.

(** what is kept for one weight *)
Record cell := mkC {
  cW : R; (* weights *)
  cD : R; (* dL/dW *)
  cA : R; (* m_optMtxA *)
  cB : R; (* m_optMtxB *)
  cV : R; (* m_Vw *)
  cG : R; (* m_ILRGain *)
  cP : R; (* m_prevdLdW *)
  cT : R; (* temporary block of apply_ILR *)
  cX : R  (* temporary block of random numbers for the dropout of updates *) }.
Definition upW c v := mkC v (cD c) (cA c) (cB c) (cV c) (cG c) (cP c) (cT c) (cX c).
Definition upD c v := mkC (cW c) v (cA c) (cB c) (cV c) (cG c) (cP c) (cT c) (cX c).
Definition upA c v := mkC (cW c) (cD c) v (cB c) (cV c) (cG c) (cP c) (cT c) (cX c).
Definition upB c v := mkC (cW c) (cD c) (cA c) v (cV c) (cG c) (cP c) (cT c) (cX c).
Definition upV c v := mkC (cW c) (cD c) (cA c) (cB c) v (cG c) (cP c) (cT c) (cX c).
Definition upG c v := mkC (cW c) (cD c) (cA c) (cB c) (cV c) v (cP c) (cT c) (cX c).
Definition upP c v := mkC (cW c) (cD c) (cA c) (cB c) (cV c) (cG c) v (cT c) (cX c).
Definition upT c v := mkC (cW c) (cD c) (cA c) (cB c) (cV c) (cG c) (cP c) v (cX c).
Definition upX c v := mkC (cW c) (cD c) (cA c) (cB c) (cV c) (cG c) (cP c) (cT c) v.

Definition cf := cell -> option cell.

(** ** Bodies of the loops *)
Definition bR (b : bool) : R := if b then 1 else 0.
Definition gtb (a b : R) : bool := if Rlt_dec b a then true else false.
(** math::sign, _base.h:97 *)
Definition sgn (x : R) : R := bR (gtb x 0) - bR (gtb 0 x).

(** vMulC_ip_st 1637-1643, applied to dL/dW or to the velocity *)
Definition f_mulC_D k : cf := fun c => Some (upD c (cD c * k)).
Definition f_mulC_V k : cf := fun c => Some (upV c (cV c * k)).
(** evSquare 2258-2286, evAbs 2323-2346 *)
Definition f_square : cf := fun c => Some (upA c (cD c * cD c)).
Definition f_abs : cf := fun c => Some (upA c (Rabs (cD c))).
(** RMSProp_Hinton_st/_mt 4614-4620, 4634-4638 *)
Definition f_hinton lr d eps : cf := fun c =>
  let w := cD c in
  let rms := d * cA c + w * w * (1 - d) in
  do s <- rsqrt rms; do q <- rdiv w (s + eps); Some (upD (upA c rms) (lr * q)).
(** RMSProp_Graves_st/_mt 4667-4676, 4692-4700 *)
Definition f_graves lr d eps : cf := fun c =>
  let w := cD c in
  let wdec := w * (1 - d) in
  let rF := d * cA c + w * wdec in
  let rG := d * cB c + wdec in
  do s <- rsqrt (rF - rG * rG + eps); do q <- rdiv w s; Some (upD (upB (upA c rF) rG) (lr * q)).
(** _iRProp_st 4715-4721; the value read is taken to be the one at the position
    written: the store, the increment and the read are unsequenced in C++14 *)
Definition f_rprop lr : cf := fun c => Some (upD c (lr * sgn (cD c))).
(** ModProp_st/_mt 4753-4760, 4776-4782 *)
Definition f_modprop lr d eps : cf := fun c =>
  let w := cD c in
  let ema := cA c * d + Rabs w * (1 - d) in
  do q <- rdiv w (ema + eps); Some (upD (upA c ema) (lr * q)).
(** _iAdam_st 4814-4843; [b1t], [b2t] are the already advanced powers *)
Definition f_adam b1t b2t lr b1 b2 eps : cf := fun c =>
  do sb <- rsqrt (1 - b2t); do alphat <- rdiv (lr * sb) (1 - b1t);
  let g := cD c in
  let m := cA c * b1 + g * (1 - b1) in
  let v := cB c * b2 + (g * g) * (1 - b2) in
  do sv <- rsqrt v; do ndw <- rdiv (alphat * m) (sv + eps);
  Some (upD (upB (upA c m) v) ndw).
(** _iAdaMax_st 4905-4919 *)
Definition f_adamax b1t lr b1 b2 eps : cf := fun c =>
  do alphat <- rdiv lr (1 - b1t);
  let g := cD c in
  let m := cA c * b1 + g * (1 - b1) in
  let u := Rmax (Rabs g) (b2 * cB c) in
  do ndw <- rdiv (alphat * m) (u + eps);
  Some (upD (upB (upA c m) u) ndw).
(** _iRNadam_st 4979-5007 *)
Definition f_rnadam mut etat lr mu eta gamma eps : cf := fun c =>
  do mu_t <- rdiv (mu - mut) (1 - mut); do eta_t <- rdiv (eta - etat) (1 - etat);
  let isNadam := if Req_EM_T gamma 0 then true else false in
  do c_mt <- (if isNadam then do q <- rdiv (1 - mut) (1 - mu * mut); Some (mu * q) else Some (1 - gamma));
  let c_g := if isNadam then 1 - mu_t else gamma in
  let g := cD c in
  let n := cB c * eta_t + (g * g) * (1 - eta_t) in
  do sn <- rsqrt n;
  let m := cA c * mu_t + g * (1 - mu_t) in
  do q <- rdiv (c_mt * m + c_g * g) (sn + eps);
  Some (upD (upB (upA c m) n) (lr * q)).
(** apply_momentum 1541-1566 *)
Definition f_mom mu : cf := fun c => Some (upV c (mu * cV c + cD c)).
(** evAdd_ip(m_Vw, dLdW) 1921-1950; evSub_ip 2154-2182 of dL/dW, of the velocity *)
Definition f_add_VD : cf := fun c => Some (upV c (cV c + cD c)).
Definition f_sub_WD : cf := fun c => Some (upW c (cW c - cD c)).
Definition f_sub_WV : cf := fun c => Some (upW c (cW c - cV c)).
(** evMulC_ip_Sub_ip 2217-2246 *)
Definition f_mulsub mu : cf := fun c => let v := cV c * mu in Some (upW (upV c v) (cW c - v)).
(** _iapply_dropout_mask_st 1264-1278 on dL/dW *)
Definition f_mask_D p : cf := fun c => Some (upD c (cD c * bR (gtb p (cX c)))).
(** apply_ILR: bUp, bDown, 1404-1409 = 1434-1437 = 1470-1473 = 1516-1519 *)
Record ilr := mkI { i_decr : R; i_incr : R; i_lo : R; i_hi : R }.
Definition ilr_mul (k : ilr) (cond g : R) : R :=
  let up := (gtb cond 0 && gtb (i_hi k) g)%bool in
  let dn := (gtb 0 cond && gtb g (i_lo k))%bool in
  bR (negb (up || dn)) * 1 + bR up * i_incr k + bR dn * i_decr k.
(** [prev]: m_Vw or m_prevdLdW *)
Definition prev (vel : bool) c := if vel then cV c else cP c.
(** apply_ILR_st_naive, _mt_naive 1371-1443 *)
Definition f_ilr k vel : cf := fun c =>
  let cond := prev vel c * cD c in
  let g := cG c * ilr_mul k cond (cG c) in
  Some (upD (upG c g) (cD c * g)).
(** the three loops of apply_ILR_st_vec, _mt_vec 1444-1529 *)
Definition f_ilr1 vel : cf := fun c => Some (upT c (cD c * prev vel c)).
Definition f_ilr2 k : cf := fun c => Some (upG c (cG c * ilr_mul k (cT c) (cG c))).
Definition f_ilr3 : cf := fun c => Some (upD c (cD c * cG c)).

(** ** Calls *)
(** a loop over a range; several loops over it one after the other *)
Definition each (f : cf) (p : prange) : list cell -> option (list cell * list (wr cell)) :=
  mfor (r_ofs p) (r_cnt p) (fun i m => do c <- bget m i; do c' <- f c; mset i c' m).
Definition passes (fs : list cf) (p : prange) : list cell -> option (list cell * list (wr cell)) :=
  fold_right (fun f k => mseq (each f p) k) mskip fs.

Inductive kid := KMulC | KSquare | KAbs | KHinton | KGraves | KRProp | KModProp | KAdam | KAdaMax | KRNadam
  | KMom | KAdd | KSub | KMulSub | KMask.

(** Thresholds_t, the pool of threads, and the temporary block of mCheck_normalize_rows
    as _istor_alloc returned it *)
Record env := mkE {
  e_pool : list prange; e_thr : kid -> nat;
  e_ilr_mt : nat; e_ilr_st_vec : nat; e_ilr_mt_vec : nat; e_ilr_mt_vec2 : nat;
  e_norm : nthr; e_tmp : list R }.

(** state of a grad_works object together with the weights *)
Record st := mkSt { s_cells : list cell; s_b1t : R; s_b2t : R; s_first : bool; s_gamma : R }.
Definition with_cells s d := mkSt d (s_b1t s) (s_b2t s) (s_first s) (s_gamma s).
Definition with_bt s a b := mkSt (s_cells s) a b (s_first s) (s_gamma s).
Definition with_first s f := mkSt (s_cells s) (s_b1t s) (s_b2t s) f (s_gamma s).
Definition with_gamma s g := mkSt (s_cells s) (s_b1t s) (s_b2t s) (s_first s) g.
Definition cmap (f : cell -> cell) s := with_cells s (map f (s_cells s)).

(** X(): X_st below the threshold, else X_mt.  Read: [post] holds afterwards *)
Definition parts_of (pool : list prange) (thr n : nat) : list prange :=
  if (n <? thr)%nat then whole n else run_ranges pool 0 n.
Definition pcall (parts : list prange) (fs : list cf) (s : st) (post : st -> Prop) : Prop :=
  computes (ppar (passes fs) parts (s_cells s)) (s_cells s) (fun d => post (with_cells s d)).
Definition kcall (e : env) (k : kid) (fs : list cf) (s : st) (post : st -> Prop) : Prop :=
  pcall (parts_of (e_pool e) (e_thr e k) (length (s_cells s))) fs s post.

(** Adam 4790-4797, AdaMax 4880-4887, RNadam 4944-4950: the _st variant advances the
    powers in the range function (bInsideMT = false), the _mt variant before run() *)
Definition enter (inside : bool) (b bt : R) : R := if inside then bt else bt * b.
Definition kcall_bt (e : env) (k : kid) (b1 b2 : R) (f : R -> R -> cf) (s : st) (post : st -> Prop) : Prop :=
  let n := length (s_cells s) in
  if (n <? e_thr e k)%nat
  then let s := with_bt s (enter false b1 (s_b1t s)) (enter false b2 (s_b2t s)) in
       pcall (whole n) [f (s_b1t s) (s_b2t s)] s post
  else let s := with_bt s (s_b1t s * b1) (s_b2t s * b2) in
       pcall (run_ranges (e_pool e) 0 n) [f (enter true b1 (s_b1t s)) (enter true b2 (s_b2t s))] s post.

(** apply_ILR 1358-1370 *)
Definition apply_ILR (e : env) (k : ilr) (vel : bool) (s : st) (post : st -> Prop) : Prop :=
  let n := length (s_cells s) in
  let v := [f_ilr1 vel; f_ilr2 k; f_ilr3] in
  if (n <? e_ilr_mt e)%nat
  then if (n <=? e_ilr_st_vec e)%nat then pcall (whole n) v s post else pcall (whole n) [f_ilr k vel] s post
  else if (n <=? e_ilr_mt_vec e)%nat || (e_ilr_mt_vec2 e <=? n)%nat
  then pcall (run_ranges (e_pool e) 0 n) v s post
  else pcall (run_ranges (e_pool e) 0 n) [f_ilr k vel] s post.

(** ** grad_works *)
Inductive gtype := ClassicalConstant | RMSProp_Hinton | RMSProp_Graves | RProp | ModProp | Adam | AdaMax | Nadam | Radam.

(** settings; the matrix is o_rows x o_cols *)
Record cfg := mkCfg {
  o_type : gtype; o_b1 : R; o_b2 : R; o_eps : R;
  o_mom : bool; o_nest : bool;
  o_lrd : R; o_lrd_nest : bool;             (* m_LRDropoutPercActive; f_apply_LRDropout_to_nesterov_momentum *)
  o_maxn : option (R * bool);               (* max_norm2, bNormIncludesBias *)
  o_ilr : option (ilr * bool);              (* ILR and f_ApplyILRToMomentum *)
  o_rows : nat; o_cols : nat }.

(** one training step: learning rate, momentum, whether learning is blocked, random
    numbers for the dropout of updates, and dL/dW as a function of the weights the
    forward pass has used *)
Record tstep := mkT {
  t_lr : R; t_mu : R; t_blocked : bool; t_mask1 : list R; t_mask2 : list R; t_grad : list R -> list R }.

Definition zip (up : cell -> R -> cell) (s : st) (v : list R) : st :=
  with_cells s (map (fun p => up (fst p) (snd p)) (combine (s_cells s) v)).
Definition weights s := map cW (s_cells s).

(** the optimizers, 447-533 *)
Definition opt_stage (e : env) (o : cfg) (lr : R) (first : bool) (s : st) (post : st -> Prop) : Prop :=
  let b1 := o_b1 o in let b2 := o_b2 o in let eps := o_eps o in
  match o_type o with
  | ClassicalConstant => kcall e KMulC [f_mulC_D lr] s post
  | RMSProp_Hinton =>
      if first then kcall e KSquare [f_square] s (fun s => kcall e KMulC [f_mulC_D lr] s post)
      else kcall e KHinton [f_hinton lr b1 eps] s post
  | RMSProp_Graves =>
      if first then kcall e KSquare [f_square] s (fun s =>
        kcall e KMulC [f_mulC_D lr] (cmap (fun c => upB c (cD c)) s) post)
      else kcall e KGraves [f_graves lr b1 eps] s post
  | RProp => kcall e KRProp [f_rprop lr] s post
  | ModProp =>
      if first then kcall e KAbs [f_abs] s (fun s => kcall e KMulC [f_mulC_D lr] s post)
      else kcall e KModProp [f_modprop lr b1 eps] s post
  | Adam =>
      let s := if first then with_bt (cmap (fun c => upB (upA c 0) 0) s) 1 1 else s in
      kcall_bt e KAdam b1 b2 (fun b1t b2t => f_adam b1t b2t lr b1 b2 eps) s post
  | AdaMax =>
      let s := if first then with_bt (cmap (fun c => upB (upA c 0) 0) s) 1 (s_b2t s) else s in
      kcall_bt e KAdaMax b1 1 (fun b1t _ => f_adamax b1t lr b1 b2 eps) s post
  | Nadam | Radam =>
      let s := if first then with_bt (cmap (fun c => upB (upA c 0) 0) s) 1 1 else s in
      let s := if first then match o_type o with Nadam => with_gamma s 0 | _ => s end else s in
      kcall_bt e KRNadam b1 b2 (fun b1t b2t => f_rnadam b1t b2t lr b1 b2 (s_gamma s) eps) s post
  end.

(** ILR_apply, ILR.h 152-165 *)
Definition ilr_stage (e : env) (o : cfg) (first : bool) (s : st) (post : st -> Prop) : Prop :=
  match o_ilr o with
  | None => post s
  | Some (k, toMom) =>
      let vel := (o_mom o && toMom)%bool in
      let fin s := if vel then post s else post (cmap (fun c => upP c (cD c)) s) in
      if first then fin s else apply_ILR e k vel s fin
  end.

(** bLRDropout() *)
Definition lrdrop (o : cfg) : bool := gtb 1 (o_lrd o).

(** mCheck_normalize_rows(weights) *)
Definition norm_stage (e : env) (o : cfg) (s : st) (post : st -> Prop) : Prop :=
  match o_maxn o with
  | None => post s
  | Some (mx, incl) =>
      mCheck_normalize_rows (e_norm e) (e_pool e) (mkM (o_rows o) (o_cols o) false false (weights s)) mx incl (e_tmp e)
        (fun d => post (zip upW s d))
  end.

(** 549-571 *)
Definition sub_stage (e : env) (o : cfg) (mask : list R) (s : st) (post : st -> Prop) : Prop :=
  if lrdrop o
  then kcall e KMask [f_mask_D (o_lrd o)] (zip upX s mask) (fun s => kcall e KSub [f_sub_WD] s post)
  else kcall e KSub [f_sub_WD] s post.

(** momentum and the change of the weights, 519-571 *)
Definition mom_stage (e : env) (o : cfg) (mu : R) (mask : list R) (s : st) (post : st -> Prop) : Prop :=
  if o_mom o
  then if o_nest o
    then kcall e KAdd [f_add_VD] s (fun s => sub_stage e o mask s post)
    else kcall e KMom [f_mom mu] s (fun s =>
      if lrdrop o then sub_stage e o mask (cmap (fun c => upD c (cV c)) s) post
      else kcall e KSub [f_sub_WV] s post)
  else sub_stage e o mask s post.

(** apply_grad 391-582; dL/dW is in the field cD *)
Definition apply_grad (e : env) (o : cfg) (t : tstep) (s : st) (post : st -> Prop) : Prop :=
  if t_blocked t then post s
  else
    let first := s_first s in
    opt_stage e o (t_lr t) first (with_first s false) (fun s =>
    ilr_stage e o first s (fun s =>
    mom_stage e o (t_mu t) (t_mask2 t) s (fun s =>
    norm_stage e o s post))).

(** pre_training_fprop 338-388; the copy of the velocity to a temporary block, which
    is masked and subtracted, reuses the field of dL/dW (not in use then) *)
Definition pre_training_fprop (e : env) (o : cfg) (t : tstep) (s : st) (post : st -> Prop) : Prop :=
  if (negb (t_blocked t) && (o_mom o && o_nest o))%bool
  then
    let fin s := norm_stage e o s post in
    if (lrdrop o && o_lrd_nest o)%bool
    then kcall e KMulC [f_mulC_V (t_mu t)] s (fun s =>
         kcall e KMask [f_mask_D (o_lrd o)] (zip upX (cmap (fun c => upD c (cV c)) s) (t_mask1 t)) (fun s =>
         kcall e KSub [f_sub_WD] s fin))
    else kcall e KMulSub [f_mulsub (t_mu t)] s fin
  else post s.

(** a training step of a layer with these weights, and a sequence of them *)
Definition step (e : env) (o : cfg) (t : tstep) (s : st) (post : st -> Prop) : Prop :=
  pre_training_fprop e o t s (fun s => apply_grad e o t (zip upD s (t_grad t (weights s))) post).
Fixpoint train (e : env) (o : cfg) (ts : list tstep) (s : st) (post : st -> Prop) : Prop :=
  match ts with
  | [] => post s
  | t :: ts => step e o t s (fun s => train e o ts s post)
  end.

(** gw_init 295-330 with ILR_init: velocity zeroed, gains one, first run; the matrices of
    the optimizer and the previous gradient hold garbage, the powers are what they were *)
Definition gw_init (w : list R) (garbage : cell) (b1t b2t gamma : R) : st :=
  mkSt (map (fun x => upW (upV (upG garbage 1) 0) x) w) b1t b2t true gamma.
