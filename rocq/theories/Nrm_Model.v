(** Normalisation of the x data of an in-memory training data object:
    nntl/utils/mtx2Normal.h, nntl/train_data/_td_norm.h, _td_base.h 136-263,
    inmem_train_data.h 80-97, mathn.h 1560-1626, 1635-1712, 1815-1874.

    The object is the one of TData_Model with real numbers in x.  Samples must be in rows
    (asserted in the code, [None] here).  Statistics and data have one type, the real
    numbers; [None] in place of a statistic is a NaN, which is what the code computes from
    no samples, and from one sample for the adjusted deviation.  Real numbers are always
    finite.  Verbose output is left out.  The loop that feeds the accumulators of the
    columns runs on several threads, one thread per column (C01); it is modelled as a loop
    over the columns. *)
From Coq Require Import Reals Bool.
From Verif Require Import Base Workers_Model Kern_Model Ew_Model Smx_Model TData_Model.
Local Open Scope nat_scope.

(** mtx2Normal.h 52-74 Settings, _td_norm.h 45-53; [n_adj]: the parameter of
    _FNorm_stats_var_mean (mtx2Normal.h 275) *)
Record nset := mkNS { n_scale : R; n_central : R; n_stol : R; n_ctol : R; n_tries : nat;
  n_dos : bool; n_doc : bool; n_break : bool; n_bs : Z; n_bc : nat; n_cw : bool; n_adj : bool }.
(** 71-73 *)
Definition should_normalize (p : nset) : bool := (n_doc p || n_dos p) && (0 <? n_tries p).

(** 77-86 ScaleCentralData *)
Record scd := mkSC { sc : R; ofs : R; bsc : bool; bofs : bool }.
Definition scd0 : scd := mkSC 1 0 false false.
(** 122-131 *)
Definition upd_scale (v : R) (s : scd) : scd := mkSC (sc s * v)%R (ofs s * v)%R true (bofs s).
Definition upd_ofs (v : R) (s : scd) : scd := mkSC (sc s) (ofs s + v)%R (bsc s) true.

(** the accumulator: count, sum, sum of squares (boost: mean = sum / count, lazy_variance
    = second moment - mean^2) *)
Record acc := mkAc { a_n : nat; a_s : R; a_q : R }.
Definition acc0 : acc := mkAc 0 0 0.
Definition acc_add (a : acc) (v : R) : acc := mkAc (a_n a + 1) (a_s a + v)%R (a_q a + v * v)%R.
(** 566-573 applyAccumulator *)
Definition acc_all (a : acc) (l : list R) : acc := fold_left acc_add l a.
(** 269-272 get_central *)
Definition get_central (a : acc) : option R := if a_n a =? 0 then None else Some (a_s a / INR (a_n a))%R.
(** 277-294 get_scale *)
Definition get_scale (adj : bool) (a : acc) : option R :=
  if a_n a <=? Nat.b2n adj then None else
  let n := INR (a_n a) in
  let var := (a_q a / n - (a_s a / n) * (a_s a / n))%R in
  Some (sqrt (if adj then n / (n - 1) * var else var)).

Definition is_zero (r : R) : bool := if Req_EM_T r 0 then true else false.
Definition near (tol target : R) (v : option R) : bool :=
  match v with Some r => if Rlt_dec (Rabs (r - target)) tol then true else false | None => false end.
Definition special (v : option R) : bool := match v with Some r => is_zero r | None => false end.
Definition good (v : option R) : bool := match v with Some _ => true | None => false end.

(** 386-393, 507-514 *)
Definition do_scale (p : nset) (a : acc) : bool :=
  let s := get_scale (n_adj p) a in negb (near (n_stol p) (n_scale p) s) && good s && n_dos p && negb (special s).
Definition do_central (p : nset) (a : acc) : bool :=
  let c := get_central a in negb (near (n_ctol p) (n_central p) c) && good c && n_doc p.
Definition bad_stats (p : nset) (a : acc) : bool := negb (good (get_central a)) || negb (good (get_scale (n_adj p) a)).
(** _td_norm.h 149-161, 241-253 *)
Definition factor (p : nset) (a : acc) : R :=
  match get_scale (n_adj p) a with Some s => if do_scale p a then (n_scale p / s)%R else 1%R | None => 1%R end.
Definition shift (p : nset) (a : acc) : R :=
  match get_central a with Some c => ((n_central p - c) * factor p a)%R | None => 0%R end.
Definition upd_stat (p : nset) (a : acc) (s : scd) : scd :=
  let s := if do_scale p a then upd_scale (factor p a) s else s in
  if do_central p a then upd_ofs (shift p a) s else s.
(** of a single pass; 151-160.  Without centring the code passes the measured mean as the
    offset, with its flag off; here it does not matter, because offsets without flag are not
    used by this object (see [Tf_Model] for one where it does). *)
Definition pass_stat (p : nset) (a : acc) : scd := mkSC (factor p a) (shift p a) (do_scale p a) (do_central p a).

(** mtx2Normal.h 191-201, 232-249: what is stored for [v]; [None]: nothing to do *)
Definition fix_fun (s : scd) : option (R -> R) :=
  if bsc s then Some (if bofs s then fun v => (sc s * v + ofs s)%R else fun v => (sc s * v)%R)
  else if bofs s then Some (fun v => (v + ofs s)%R) else None.

Section N.
Context {B : Type} (oneB : B).
Notation sets := (sets R B). Notation tds := (tds R B). Notation imath := (imath R B).

Definition commit (im : imath) (m : smx R) (l : list R) (trs : list (list (wr R))) : option (smx R) :=
  do l' <- apply_writes l (im_schedA im trs); Some (with_mem m (Some l')).

(** 188-202 whole; mathn.h 1560-1626 evMulCAddC_ip_nb and the like *)
Definition fix_whole (im : imath) (m : smx R) (s : scd) : option (smx R) :=
  do _ <- guard (negb (s_bir m));
  match fix_fun s with
  | None => Some m
  | Some f =>
      do l <- s_data m;
      do trs <- ew (im_parts im (s_numel_nb m)) (fun _ v => Some (f v)) l;
      commit im m l trs
  end.

(** 205-253 batchwise, batchwise_st *)
Definition fix_range (m : smx R) (st : list scd) (l : list R) (r : prange) : option (list (wr R)) :=
  do (_, w) <- ptr_loop (r_ofs r) (r_ofs r + r_cnt r) 1 (fun c (_ : unit) =>
    do s <- bget st c;
    match fix_fun s with
    | None => Some (tt, [])
    | Some f => do w <- iew (fun _ v => Some (f v)) l (mkR (s_rows m * c) (s_rows m) 0); Some (tt, w)
    end) tt;
  Some w.
Definition fix_cw (im : imath) (m : smx R) (st : list scd) : option (smx R) :=
  do _ <- guard (negb (s_bir m));
  do l <- s_data m;
  do trs <- par (fix_range m st l) (im_parts im (sample_size m));
  commit im m l trs.

(** inmem_train_data.h 86-97: X_mutable(dsId) *)
Definition with_X (S : sets) (id : nat) (m : smx R) : sets :=
  if id =? 0 then mkSets m (x1 S) (y0 S) (y1 S) else mkSets (x0 S) m (y0 S) (y1 S).
Definition fix_trainX_whole (im : imath) (S : sets) (id : nat) (s : scd) : option sets :=
  do x <- X S id; do x' <- fix_whole im x s; Some (with_X S id x').
Definition fix_trainX_cw (im : imath) (S : sets) (id : nat) (st : list scd) : option sets :=
  do x <- X S id; do x' <- fix_cw im x st; Some (with_X S id x').

(** mtx2Normal.h 375-380, 470-488: [f] is shown the batches from the k-th on;
    _td_norm.h 104-108 *)
Fixpoint gather {D} (f : smx R -> D -> option D) (im : nat -> imath) (S : sets) (t : tds) (k n : nat) (d : D) : option (D * tds) :=
  match n with
  | 0 => Some (d, t)
  | Datatypes.S n => do t <- next_subset 1%R (im k) S t k; do b <- batchX S t; do d <- f b d; gather f im S t (k + 1) n d
  end.
(** _td_norm.h 95-99 prepareToWalk; [ibs]: cd.input_batch_size() *)
Definition prepare (p : nset) (S : sets) (t : tds) (ibs : nat) : option (nat * tds) :=
  do (n, t) <- walk_over_set 1%R S t train_set_id ibs (n_bs p) 2;
  Some (Nat.min n (if n_bc p =? 0 then n else n_bc p), t).

(** the first [n] elements from offset [i] on *)
Definition read (l : list R) (i n : nat) : option (list R) := do _ <- guard (i + n <=? length l); Some (firstn n (skipn i l)).
Definition feed (b : smx R) (a : acc) : option acc :=
  do _ <- guard (negb (s_bir b)); do l <- s_data b; do v <- read l 0 (s_numel_nb b); Some (acc_all a v).
Fixpoint feed_cols (b : smx R) (l : list R) (c : nat) (a : list acc) : option (list acc) :=
  match a with
  | [] => Some []
  | x :: a => do v <- read l (s_rows b * c) (s_rows b); do a' <- feed_cols b l (c + 1) a; Some (acc_all x v :: a')
  end.
Definition feed_cw (b : smx R) (a : list acc) : option (list acc) :=
  do _ <- guard (negb (s_bir b)); do l <- s_data b; feed_cols b l 0 a.

Context (p : nset) (imw : nat -> nat -> imath) (imf : nat -> imath) (ibs : nat).

(** mtx2Normal.h 359-418; [n]: tries left, [i]: tryIdx *)
Fixpoint norm_whole (n i : nat) (S : sets) (t : tds) (st : scd) : option (bool * sets * tds * scd) :=
  match n with
  | 0 => Some (false, S, t, st)
  | Datatypes.S n =>
      do (cnt, t) <- prepare p S t ibs;
      do (a, t) <- gather feed (imw i) S t 0 cnt acc0;
      if bad_stats p a && n_break p then Some (false, S, t, st) else
      let ds := do_scale p a in
      let dc := do_central p a in
      do S <- (if ds || dc then fix_trainX_whole (imf i) S train_set_id (pass_stat p a) else Some S);
      let st := upd_stat p a st in
      if (negb ds || near (n_stol p) (n_scale p) (get_scale (n_adj p) a)) &&
         (negb dc || near (n_ctol p) (n_central p) (get_central a))
      then Some (true, S, t, st)
      else norm_whole n (i + 1) S t st
  end.

(** 497-547: the columns; state: m_Stats, m_iterStats, bColumnOk; result: these, whether
    all columns are treated as good, whether statistics were invalid *)
Fixpoint norm_cols (a : list acc) (st it : list scd) (ok : list bool) : list scd * list scd * list bool * bool * bool :=
  match a, st, it, ok with
  | x :: a, s :: st, j :: it, o :: ok =>
      if o then
        let '(st', it', ok', all, bad) := norm_cols a st it ok in (s :: st', j :: it', o :: ok', all, bad)
      else if bad_stats p x && n_break p then (s :: st, j :: it, o :: ok, false, true)
      else
        let o' := (negb (do_scale p x) || near (n_stol p) (n_scale p) (get_scale (n_adj p) x)) &&
                  (negb (do_central p x) || near (n_ctol p) (n_central p) (get_central x)) in
        let '(st', it', ok', all, bad) := norm_cols a st it ok in
        (upd_stat p x s :: st', upd_stat p x j :: it', o' :: ok', o' && all, bad)
  | _, _, _, _ => (st, it, ok, true, false)
  end.
(** 447-563 *)
Fixpoint norm_cw (n i : nat) (S : sets) (t : tds) (st : list scd) (ok : list bool) : option (bool * sets * tds * list scd) :=
  match n with
  | 0 => Some (false, S, t, st)
  | Datatypes.S n =>
      do (cnt, t) <- prepare p S t ibs;
      do (a, t) <- gather feed_cw (imw i) S t 0 cnt (repeat acc0 (xWidth S));
      let '(st, it, ok, all, bad) := norm_cols a st (repeat scd0 (xWidth S)) ok in
      do S <- fix_trainX_cw (imf i) S train_set_id it; (* cw_end *)
      if bad then Some (false, S, t, st) else
      if all then Some (true, S, t, st) else norm_cw n (i + 1) S t st ok
  end.

(** _td_base.h 200-223, 183-189; _td_norm.h 297-319 *)
Definition is_init (S : sets) (t : tds) : bool :=
  match is_initialized4inference S t (Z.to_nat (n_bs p)) with Some _ => true | None => false end.
Definition normalize_data_whole (imd : imath) (S : sets) (t : tds) : option (bool * sets * tds) :=
  if negb (should_normalize p) then Some (true, S, t) else
  if negb (is_init S t) then Some (false, S, t) else
  do (r, S, t, st) <- norm_whole (n_tries p) 0 S t scd0;
  if negb r then Some (false, S, t) else
  if negb (bsc st) && negb (bofs st) then Some (false, S, t) else
  do S <- fix_trainX_whole imd S test_set_id st;
  Some (true, S, t).
(** _td_base.h 225-263, 190-198; _td_norm.h 323-341 *)
Definition normalize_data_cw (imd : imath) (S : sets) (t : tds) : option (bool * sets * tds) :=
  if negb (should_normalize p) then Some (true, S, t) else
  if negb (is_init S t) then Some (false, S, t) else
  do (r, S, t, st) <- norm_cw (n_tries p) 0 S t (repeat scd0 (xWidth S)) (repeat false (xWidth S));
  if negb r then Some (false, S, t) else
  if forallb (fun s => negb (bsc s) && negb (bofs s)) st then Some (false, S, t) else
  do S <- fix_trainX_cw imd S test_set_id st;
  Some (true, S, t).

(** _td_base.h 148-177; [mx], [my]: the allocations of init4inference, [mok]: what
    iMath.init() returns *)
Definition normalize_data (mx : mem_env R) (my : mem_env B) (mok : bool) (imd : imath) (S : sets) (t : tds) : option (bool * sets * tds) :=
  if negb (should_normalize p) then Some (true, S, t) else
  let init := negb (is_init S t) in
  do (e, t) <- (if init then do (e, _, t) <- init4inference 1%R oneB mx my S t (Z.to_nat (n_bs p)); Some (e, t) else Some (Success, t));
  if init && negb (match e with Success => mok | _ => false end) then Some (false, S, t) else
  do (r, S, t) <- (if n_cw p then normalize_data_cw imd S t else normalize_data_whole imd S t);
  Some (r, S, if init then deinit4all t else t).
End N.
