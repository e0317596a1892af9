(** Numeric gradient check: nntl/nnet.h:738-1212, nntl/utils/gradcheck.h,
    nntl/interface/inspectors/gradcheck.h, nntl/utils/layer_idx_keeper.h,
    nntl/utils/dataHolder.h and the calls the layers make to the inspector.

    real_t: reals, infinities and not-a-number, no rounding, no signed zero.  What the
    layers compute from their weights (loss, gradients, updates, random numbers) is an
    arbitrary function of the history of calls.  Assertions are ignored unless their
    violation leads to a wrong memory access ([None]).  Left out: gated packs, layers
    that stop the back-propagation, console output, overflow of int32 counters,
    failures to allocate the batch of dataHolder. *)
From Coq Require Import Reals.
From Verif Require Import Base TData_Model.
Local Open Scope nat_scope.

(** ** real_t *)
Inductive xf := XNaN | XInf (neg : bool) | XR (r : R).
Definition x_neg (a : xf) : xf := match a with XNaN => XNaN | XInf s => XInf (negb s) | XR r => XR (- r) end.
Definition x_abs (a : xf) : xf := match a with XNaN => XNaN | XInf _ => XInf false | XR r => XR (Rabs r) end.
Definition x_add (a b : xf) : xf :=
  match a, b with
  | XNaN, _ | _, XNaN => XNaN
  | XInf s, XInf t => if Bool.eqb s t then XInf s else XNaN
  | XInf s, _ | _, XInf s => XInf s
  | XR a, XR b => XR (a + b)
  end.
Definition x_sub (a b : xf) : xf := x_add a (x_neg b).
Definition x_sgn (r : R) : bool := if Rlt_dec r 0 then true else false.
Definition x_mul (a b : xf) : xf :=
  match a, b with
  | XNaN, _ | _, XNaN => XNaN
  | XInf s, XInf t => XInf (xorb s t)
  | XInf s, XR r | XR r, XInf s => if Req_EM_T r 0 then XNaN else XInf (xorb s (x_sgn r))
  | XR a, XR b => XR (a * b)
  end.
Definition x_div (a b : xf) : xf :=
  match a, b with
  | XNaN, _ | _, XNaN => XNaN
  | XInf _, XInf _ => XNaN
  | XInf s, XR r => XInf (xorb s (x_sgn r))
  | XR _, XInf _ => XR 0
  | XR a, XR b => if Req_EM_T b 0 then (if Req_EM_T a 0 then XNaN else XInf (x_sgn a)) else XR (a / b)
  end.
Definition x_lt (a b : xf) : bool :=
  match a, b with
  | XNaN, _ | _, XNaN => false
  | XInf s, XInf t => s && negb t
  | XInf s, XR _ => s
  | XR _, XInf t => negb t
  | XR a, XR b => if Rlt_dec a b then true else false
  end.
(** std::max *)
Definition x_max (a b : xf) : xf := if x_lt a b then b else a.
Definition x_is0 (a : xf) : bool := match a with XR r => if Req_EM_T r 0 then true else false | _ => false end.
Definition x_nat (n : nat) : xf := XR (INR n).
Definition x_isnan (a : xf) : bool := match a with XNaN => true | _ => false end.

(** ** utils/gradcheck.h *)
(** 62-113; set() replaces a count of 0 by 1 and percents above 100 by 100 *)
Inductive count_mode := TotalMin (ptc : nat) | PercentOrMin (ptc perc : nat).
Definition countToCheck (m : count_mode) (maxParams : nat) : nat :=
  match m with
  | TotalMin p => Nat.min maxParams (if 0 <? p then p else 1)
  | PercentOrMin p pc =>
      Nat.max (maxParams * (if 100 <? pc then 100 else pc) / 100) (Nat.min maxParams (if 0 <? p then p else 1))
  end.
(** 138-158 *)
Record eval_setts := mkEv { ev_warn : xf; ev_fail : xf; ev_zeros : nat }.
(** 161-214 *)
Record setts := mkSt { st_group : count_mode; st_sub : count_mode; st_A : eval_setts; st_W : eval_setts;
  st_ignore1 : bool; st_ignore : list nat; st_may : list nat; st_step : xf; st_seed : bool; st_online : nat }.

Inductive group := GA | GW.
Inductive phase := PAnalytical | PPlus | PMinus.
Definition grp_eqb (a b : group) : bool := match a, b with GA, GA | GW, GW => true | _, _ => false end.
Definition numeric (p : phase) : bool := match p with PAnalytical => false | _ => true end.

(** ** Layers: index; fully connected (neurons, incoming neurons, bUpdateWeights),
    identity (neurons), packs (neurons, number of tiles) *)
Inductive glayer :=
| GFC (idx n inc : nat) (upd : bool)
| GId (idx n : nat)
| GPack (idx n k : nat) (ls : glist)
with glist := GNil | GCons (l : glayer) (ls : glist).
(** neurons of the input layer; hidden layers, lowest first; output layer *)
Record gnet := mkNet { g_in : nat; g_hid : glist; g_oidx : nat; g_on : nat; g_oinc : nat; g_oupd : bool }.
Definition gidx (l : glayer) : nat := match l with GFC i _ _ _ => i | GId i _ => i | GPack i _ _ _ => i end.

Section G.
Context {G : Type}.   (* state of the optimizers *)

Inductive event :=
| VDeinit | VInit (fp tb : nat) | VBatchSize (training : bool) (bs : nat)
| VShuffle | VSeed
| VBatch (rows : list nat)                    (* samples of the current batch *)
| VStart (p : phase)                          (* gc_set_phase *)
| VMul (idx m : nat) (w : list xf)            (* product of a layer: batch size, weights in effect *)
| VAct (idx : nat) (col : nat) (plus : bool)  (* first row's activation [col] changed by the step *)
| VBack (idx : nat)                           (* bprop of a layer begins *)
| VCheck (idx : nat) (g : group) (r c : nat) (an num : xf).
Notation hist := (list event).   (* newest first *)

Record genv := mkGE {
  ge_init : hist -> bool;                         (* layers, math, rng initialise *)
  ge_math : hist -> bool;                         (* iMath().init() *)
  ge_weights : hist -> list (list xf) -> list (list xf);   (* weights of uninitialised layers *)
  ge_opt0 : hist -> G;                            (* gw_deinit, gw_init *)
  ge_nest : hist -> nat -> list (list xf) * G -> list (list xf) * G;   (* pre_training_fprop *)
  ge_apply : hist -> nat -> list (list xf) * G -> list (list xf) * G;  (* apply_grad *)
  ge_loss : hist -> xf;                           (* calc_loss + calcLossAddendum *)
  ge_dLdW : hist -> nat -> nat -> nat -> xf; ge_dLdA : hist -> nat -> nat -> nat -> xf;
  ge_rv : hist -> nat -> nat }.

(** nnet with its layers' weights (one buffer per layer index, column-major);
    [n_made]: every m_bWeightsInitialized *)
Record net := mkN { n_W : list (list xf); n_opt : G; n_made : bool; n_fp : nat; n_tb : nat; n_cur : nat;
  n_train : bool; n_reinit : bool; n_full : bool; n_block : bool }.
(** members of inspectors/gradcheck.h:66-86 *)
Record insp := mkI { i_stack : list nat; i_check : nat; i_grp : group; i_phase : phase; i_row : nat; i_col : nat;
  i_an : xf; i_bs : nat; i_ptr : option (nat * nat); i_orig : xf; i_may : bool }.
Record st := mkS { s_n : net; s_i : insp; s_h : hist }.

Definition log (v : event) (s : st) : st := mkS (s_n s) (s_i s) (v :: s_h s).
Definition with_n (n : net) (s : st) : st := mkS n (s_i s) (s_h s).
Definition with_i (i : insp) (s : st) : st := mkS (s_n s) i (s_h s).
Definition set_wo (w : list (list xf) * G) (n : net) : net :=
  mkN (fst w) (snd w) (n_made n) (n_fp n) (n_tb n) (n_cur n) (n_train n) (n_reinit n) (n_full n) (n_block n).
Definition set_W (w : list (list xf)) (n : net) : net := set_wo (w, n_opt n) n.

Context (E : genv) (N : gnet) (T : setts).

(** ** inspectors/gradcheck.h *)
(** layer_idx_keeper.h:60-71 *)
Definition push (idx : nat) (s : st) : st :=
  let i := s_i s in
  if 0 <? i_check i then
    with_i (mkI (idx :: i_stack i) (i_check i) (i_grp i) (i_phase i) (i_row i) (i_col i) (i_an i) (i_bs i) (i_ptr i) (i_orig i) (i_may i)) s
  else s.
Definition pop (s : st) : option st :=
  let i := s_i s in
  if 0 <? i_check i then
    match i_stack i with
    | [] => None
    | _ :: r => Some (with_i (mkI r (i_check i) (i_grp i) (i_phase i) (i_row i) (i_col i) (i_an i) (i_bs i) (i_ptr i) (i_orig i) (i_may i)) s)
    end
  else Some s.
(** m_layerIdxToCheck && m_layerIdxToCheck == m_curLayer && group *)
Definition act_on (g : group) (i : insp) : bool :=
  (0 <? i_check i) && (match i_stack i with t :: _ => i_check i =? t | [] => false end) && grp_eqb g (i_grp i).
(** layer_idx_keeper.h:97-99 *)
Definition upper_different (i : insp) : bool :=
  match i_stack i with a :: b :: _ => negb (a =? b) | _ => true end.
Definition step_of (p : phase) : xf := match p with PPlus => st_step T | _ => x_neg (st_step T) end.
(** 139-153; [n] x [inc + 1] weights of layer [idx], [m] rows *)
Definition makePreActivations (idx n inc m : nat) (s : st) : option st :=
  let i := s_i s in
  if act_on GW i && numeric (i_phase i) then
    do _ <- guard ((i_row i <? n) && (i_col i <? inc + 1));
    let p := i_row i + n * i_col i in
    do w <- bget (n_W (s_n s)) idx;
    do v <- bget w p;
    do w' <- bset w p (x_add v (step_of (i_phase i)));
    Some (mkS (set_W (upd (n_W (s_n s)) idx w') (s_n s))
      (mkI (i_stack i) (i_check i) (i_grp i) (i_phase i) (i_row i) (i_col i) (i_an i) m (Some (idx, p)) v (i_may i)) (s_h s))
  else Some s.
(** 157-169 *)
Definition preactivations (s : st) : option st :=
  let i := s_i s in
  if act_on GW i && numeric (i_phase i) then
    match i_ptr i with
    | Some (idx, p) =>
        do w <- bget (n_W (s_n s)) idx;
        do w' <- bset w p (i_orig i);
        Some (mkS (set_W (upd (n_W (s_n s)) idx w') (s_n s))
          (mkI (i_stack i) (i_check i) (i_grp i) (i_phase i) (i_row i) (i_col i) (i_an i) (i_bs i) None (i_orig i) (i_may i)) (s_h s))
    | None => Some s
    end
  else Some s.
(** 171-183; an [m] x [n] matrix *)
Definition activations (idx n m : nat) (s : st) : option st :=
  let i := s_i s in
  if act_on GA i && numeric (i_phase i) && upper_different i then
    do _ <- guard ((i_row i <? m) && (i_col i <? n));
    Some (log (VAct idx (i_col i) (match i_phase i with PPlus => true | _ => false end))
      (with_i (mkI (i_stack i) (i_check i) (i_grp i) (i_phase i) (i_row i) (i_col i) (i_an i) m (i_ptr i) (i_orig i) (i_may i)) s))
  else Some s.
(** 204-239 *)
Definition final_dLdA (idx n m : nat) (s : st) : option st :=
  let i := s_i s in
  if act_on GA i && negb (numeric (i_phase i)) && upper_different i then
    do _ <- guard ((i_row i <? m) && (i_col i <? n));
    Some (with_i (mkI (i_stack i) (i_check i) (i_grp i) (i_phase i) (i_row i) (i_col i) (ge_dLdA E (s_h s) idx (i_row i) (i_col i)) m
      (i_ptr i) (i_orig i) (i_may i)) s)
  else Some s.
Definition the_dLdW (idx n inc m : nat) (s : st) : option st :=
  let i := s_i s in
  if act_on GW i && negb (numeric (i_phase i)) then
    do _ <- guard ((i_row i <? n) && (i_col i <? inc + 1));
    Some (with_i (mkI (i_stack i) (i_check i) (i_grp i) (i_phase i) (i_row i) (i_col i) (ge_dLdW E (s_h s) idx (i_row i) (i_col i)) m
      (i_ptr i) (i_orig i) (i_may i)) s)
  else Some s.
(** 91-130 *)
Definition gc_reset (i : insp) : insp := mkI (i_stack i) 0 (i_grp i) (i_phase i) (i_row i) (i_col i) (i_an i) (i_bs i) None (i_orig i) (i_may i).
Definition gc_init (i : insp) : insp :=
  mkI (i_stack i) (i_check i) (i_grp i) (i_phase i) (i_row i) (i_col i) (i_an i) (i_bs i) None (i_orig i) (i_may i).
Definition gc_prep (idx : nat) (g : group) (r c : nat) (may : bool) (i : insp) : insp :=
  mkI (i_stack i) idx g (i_phase i) r c (i_an i) (i_bs i) (i_ptr i) (i_orig i) may.
Definition gc_phase (p : phase) (i : insp) : insp :=
  mkI (i_stack i) (i_check i) (i_grp i) p (i_row i) (i_col i) XNaN 0 (i_ptr i) (i_orig i) (i_may i).
Definition get_analytical (i : insp) : xf := if i_may i && x_isnan (i_an i) then XR 0 else i_an i.
Definition get_bs (i : insp) : nat := if i_may i && (i_bs i =? 0) then 1 else i_bs i.

(** ** The layers *)
(** grad_works.h:338-340 *)
Definition pre_training_fprop (idx : nat) (s : st) : st :=
  if n_block (s_n s) then s else with_n (set_wo (ge_nest E (s_h s) idx (n_W (s_n s), n_opt (s_n s))) (s_n s)) s.
(** grad_works.h:391-412 *)
Definition apply_grad (idx : nat) (s : st) : st :=
  if n_block (s_n s) then s else with_n (set_wo (ge_apply E (s_h s) idx (n_W (s_n s), n_opt (s_n s))) (s_n s)) s.
(** fully_connected.h:239-284; the batch is [m] rows *)
Definition fc_fprop (idx n inc m : nat) (s : st) : option st :=
  let s := push idx s in
  let s := if n_train (s_n s) then pre_training_fprop idx s else s in
  do s <- makePreActivations idx n inc m s;
  do w <- bget (n_W (s_n s)) idx;
  let s := log (VMul idx m w) s in
  do s <- preactivations s;
  do s <- activations idx n m s;
  pop s.
(** identity.h:63-84; pack_vertical.h:250-263; pack_horizontal.h:70-89; pack_tile.h:336-354 *)
Fixpoint fprop_l (m : nat) (l : glayer) (s : st) : option st :=
  match l with
  | GFC idx n inc _ => fc_fprop idx n inc m s
  | GId idx n => do s <- activations idx n m (push idx s); pop s
  | GPack idx n k ls =>
      do s <- fprop_ls (k * m) ls (push idx s);
      do s <- activations idx n m s;
      pop s
  end
with fprop_ls (m : nat) (ls : glist) (s : st) : option st :=
  match ls with GNil => Some s | GCons l ls => do s <- fprop_l m l s; fprop_ls m ls s end.
(** layers.h:305-315, input.h:119-129 *)
Definition fprop (m : nat) (s : st) : option st :=
  do s <- activations 0 (g_in N) m (push 0 s);
  do s <- pop s;
  do s <- fprop_ls m (g_hid N) s;
  fc_fprop (g_oidx N) (g_on N) (g_oinc N) m s.

(** fully_connected.h:402-520, [hidden]; output.h:179-253, otherwise *)
Definition fc_bprop (hidden : bool) (idx n inc : nat) (upd : bool) (m : nat) (s : st) : option st :=
  let s := log (VBack idx) (push idx s) in
  do s <- (if hidden then final_dLdA idx n m s else Some s);
  do s <- (if upd then do s <- the_dLdW idx n inc m s; Some (apply_grad idx s) else Some s);
  pop s.
Fixpoint bprop_l (m : nat) (l : glayer) (s : st) : option st :=
  match l with
  | GFC idx n inc upd => fc_bprop true idx n inc upd m s
  | GId idx n => do s <- final_dLdA idx n m (log (VBack idx) (push idx s)); pop s
  | GPack idx n k ls =>
      do s <- final_dLdA idx n m (log (VBack idx) (push idx s));
      do s <- bprop_ls (k * m) ls s;
      pop s
  end
(** the topmost (last) layer first *)
with bprop_ls (m : nat) (ls : glist) (s : st) : option st :=
  match ls with GNil => Some s | GCons l ls => do s <- bprop_ls m ls s; bprop_l m l s end.
(** layers.h:318-351 *)
Definition bprop (m : nat) (s : st) : option st :=
  do s <- fc_bprop false (g_oidx N) (g_on N) (g_oinc N) (g_oupd N) m s;
  bprop_ls m (g_hid N) s.

(** ** GradCheckFunctor *)
Inductive mode := MBatch | MOnline.
(** [f_own]: size of the batch matrices of dataHolder (0: none), [f_cur]: current batch
    size, [f_next]: offset of m_next *)
Record fst_ := mkF { f_s : st; f_fail : nat; f_rows : nat; f_own : nat; f_idx : list nat; f_next : nat; f_cur : nat }.
Definition with_s (s : st) (f : fst_) : fst_ := mkF s (f_fail f) (f_rows f) (f_own f) (f_idx f) (f_next f) (f_cur f).
Definition with_fail (x : nat) (f : fst_) : fst_ := mkF (f_s f) x (f_rows f) (f_own f) (f_idx f) (f_next f) (f_cur f).
Definition on_i (g : insp -> insp) (f : fst_) : fst_ := with_s (with_i (g (s_i (f_s f))) (f_s f)) f.
Definition flog (v : event) (f : fst_) : fst_ := with_s (log v (f_s f)) f.
Definition run (g : st -> option st) (f : fst_) : option fst_ := do s <- g (f_s f); Some (with_s s f).

(** dataHolder.h:124-144 *)
Definition prepareToBatchSize (bs : nat) (f : fst_) : option fst_ :=
  if f_rows f <=? bs then Some (mkF (f_s f) (f_fail f) (f_rows f) (f_own f) (f_idx f) (f_next f) (f_rows f))
  else do _ <- guard ((0 <? bs) && (bs <=? f_own f));
       Some (mkF (f_s f) (f_fail f) (f_rows f) (f_own f) (f_idx f) (f_next f) bs).
(** dataHolder.h:90-115 *)
Definition data_init (maxBatch rows : nat) (s : st) : option fst_ :=
  do f <- prepareToBatchSize (if maxBatch =? 0 then rows else maxBatch) (mkF s 0 rows maxBatch (seq 0 rows) rows 0);
  Some f.
(** dataHolder.h:154-169; the rows are loaded into the batch *)
Definition nextBatch (f : fst_) : option fst_ :=
  if f_cur f =? f_rows f then Some (flog (VBatch (seq 0 (f_rows f))) f)
  else
    do f <- (if f_rows f - f_cur f <=? f_next f then
               do idx <- random_shuffle (ge_rv E (s_h (f_s f))) (f_idx f);
               Some (mkF (log VShuffle (f_s f)) (f_fail f) (f_rows f) (f_own f) idx 0 (f_cur f))
             else Some f);
    let rows := firstn (f_cur f) (skipn (f_next f) (f_idx f)) in
    do _ <- guard (length rows =? f_cur f);
    Some (mkF (log (VBatch rows) (f_s f)) (f_fail f) (f_rows f) (f_own f) (f_idx f) (f_next f + f_cur f) (f_cur f)).

Definition seed (s : st) : st := if st_seed T then log VSeed s else s.
(** nnet.h:1128-1153 *)
Definition calcLossF (f : fst_) : option (xf * fst_) :=
  do f <- run (fprop (f_cur f)) (with_s (seed (f_s f)) f);
  Some (ge_loss E (s_h (f_s f)), f).
Definition in_list (l : list nat) (x : nat) : bool := existsb (Nat.eqb x) l.

(** 1058-1108 _checkErr: fail?, new zerodL *)
Definition ev_of (g : group) : eval_setts := match g with GA => st_A T | GW => st_W T end.
Definition rel_err (an num : xf) : xf := x_div (x_abs (x_sub an num)) (x_max (x_abs an) (x_abs num)).
Definition checkErr (idx : nat) (g : group) (an num : xf) (maxZero zero : nat) : bool * nat :=
  if x_is0 an && x_is0 num then
    (negb (grp_eqb g GW && (idx =? 1) && st_ignore1 T) && (maxZero <? zero + 1), zero + 1)
  else
    let e := rel_err an num in
    (x_lt (ev_warn (ev_of g)) e && negb (x_lt e (ev_fail (ev_of g))), zero).

Definition phase_start (p : phase) (f : fst_) : fst_ := flog (VStart p) (on_i (gc_phase p) f).
(** 926-959 (dL/dA), 973-1004 (dL/dW): one value; [z]: zerodL *)
Definition check_one (g : group) (idx r c maxZero : nat) (fz : fst_ * nat) : option (fst_ * nat) :=
  let '(f, z) := fz in
  do f <- nextBatch f;
  let f := on_i (gc_prep idx g r c (in_list (st_may T) idx)) f in
  do (lossMinus, f) <- calcLossF (phase_start PMinus f);
  let curBs := get_bs (s_i (f_s f)) in
  do (lossPlus, f) <- calcLossF (phase_start PPlus f);
  let step2 := x_mul (st_step T) (x_nat 2) in
  let num := match g with
    | GA => x_mul (x_div (x_nat 1) step2) (x_sub lossPlus lossMinus)
    | GW => x_div (x_sub lossPlus lossMinus) (x_mul step2 (x_nat curBs))
    end in
  let f := phase_start PAnalytical f in
  do f <- run (fprop (f_cur f)) (with_s (seed (f_s f)) f);
  do f <- run (bprop (f_cur f)) (with_s (seed (f_s f)) f);
  let an := get_analytical (s_i (f_s f)) in
  let '(bad, z) := checkErr idx g an num maxZero z in
  let f := flog (VCheck idx g r c an num) f in
  Some (if bad then with_fail idx f else f, z).
Definition unless_failed {A} (b : fst_ * A -> option (fst_ * A)) (fz : fst_ * A) : option (fst_ * A) :=
  if f_fail (fst fz) =? 0 then b fz else Some fz.
Definition shuffled (l : list nat) (f : fst_) : option (list nat * fst_) :=
  do l <- random_shuffle (ge_rv E (s_h (f_s f))) l; Some (l, flog VShuffle f).

(** 896-966 *)
Definition checkdLdA (idx n : nat) (f : fst_) : option fst_ :=
  let cnt := countToCheck (st_group T) n in
  do (grp, f) <- shuffled (seq 0 n) f;
  let maxZero := cnt * ev_zeros (st_A T) / 100 in
  do (f, _) <- for_loop 0 cnt (fun i => unless_failed (fun fz => do c <- bget grp i; check_one GA idx 0 c maxZero fz)) (f, 0);
  Some f.
(** 1006-1056 *)
Definition checkdLdW (idx n inc : nat) (f : fst_) : option fst_ :=
  let cnt := countToCheck (st_group T) n in
  let cntInc := countToCheck (st_sub T) inc in
  do (grp, f) <- shuffled (seq 0 n) f;
  let maxZero := cnt * (cntInc + 1) * ev_zeros (st_W T) / 100 in
  do (f, (z, _)) <- for_loop 0 cnt (fun i => unless_failed (fun fzs =>
      let '(f, (z, sub)) := fzs in
      do r <- bget grp i;
      do (sub, f) <- shuffled sub f;
      do (f, z) <- for_loop 0 cntInc (fun j => unless_failed (fun fz => do c <- bget sub j; check_one GW idx r c maxZero fz)) (f, z);
      Some (f, (z, sub)))) (f, (0, seq 0 inc));
  if f_fail f =? 0 then
    do (grp, f) <- shuffled grp f;
    do (f, _) <- for_loop 0 cnt (fun i => unless_failed (fun fz => do r <- bget grp i; check_one GW idx r inc maxZero fz)) (f, z);
    Some f
  else Some f.

(** 811-847 operator(): inner layers first, the topmost one first *)
Definition check_self (md : mode) (idx n : nat) (learn : option nat) (f : fst_) : option fst_ :=
  if negb (f_fail f =? 0) || in_list (st_ignore T) idx then Some f
  else match md with
  | MBatch => match learn with Some inc => checkdLdW idx n inc f | None => Some f end
  | MOnline => if idx =? g_oidx N then Some f else checkdLdA idx n f
  end.
Fixpoint check_l (md : mode) (l : glayer) (f : fst_) : option fst_ :=
  if f_fail f =? 0 then
    match l with
    | GFC idx n inc _ => check_self md idx n (Some inc) f
    | GId idx n => check_self md idx n None f
    | GPack idx n _ ls => do f <- check_ls md ls f; check_self md idx n None f
    end
  else Some f
with check_ls (md : mode) (ls : glist) (f : fst_) : option fst_ :=
  match ls with GNil => Some f | GCons l ls => do f <- check_ls md ls f; check_l md l f end.

(** common_nn_data.h:154-165 with nnet.h:877-883; the layers have room for n_tb
    (training) or n_fp samples *)
Definition set_mode (training : bool) (bs : nat) (s : st) : option st :=
  let n := s_n s in
  do _ <- guard (bs <=? if training then n_tb n else n_fp n);
  Some (if Bool.eqb training (n_train n) && (bs =? n_cur n) then s
        else log (VBatchSize training bs) (with_n (mkN (n_W n) (n_opt n) (n_made n) (n_fp n) (n_tb n) bs training (n_reinit n) (n_full n) (n_block n)) s)).
(** 863-875 *)
Definition launchCheck (md : mode) (bs : nat) (f : fst_) : option fst_ :=
  let f := on_i gc_reset (with_fail 0 f) in
  do f <- prepareToBatchSize bs f;
  do f <- run (set_mode true bs) f;
  do f <- check_l md (GFC (g_oidx N) (g_on N) (g_oinc N) (g_oupd N)) f;
  check_ls md (g_hid N) f.
(** 784-807 *)
Definition performCheck (batchSize rows : nat) (s : st) : option (bool * st) :=
  let biggest := Nat.max batchSize (st_online T) in
  do f <- data_init (if biggest =? rows then 0 else biggest) rows s;
  do f <- launchCheck MOnline (st_online T) f;
  if f_fail f =? 0 then
    do f <- launchCheck MBatch batchSize f;
    Some (f_fail f =? 0, f_s f)
  else Some (false, f_s f).

(** ** nnet.h:303-345, 375-413, 503-514 *)
Definition deinit (s : st) : st :=
  let n := s_n s in
  log VDeinit (with_n (mkN (n_W n) (ge_opt0 E (s_h s)) (n_made n) 0 0 0 (n_train n) false (n_full n) (n_block n)) s).
Definition init (fp tb : nat) (s : st) : bool * st :=
  let n := s_n s in
  if negb (n_reinit n) && ((0 <? n_fp n) && (fp <=? n_fp n) && (tb <=? n_tb n)) then (ge_math E (s_h s), s)
  else
    let s := deinit s in
    let n := s_n s in
    let W := if n_made n then n_W n else ge_weights E (s_h s) (n_W n) in
    let ok := ge_init E (s_h s) in
    let s := with_n (mkN W (ge_opt0 E (s_h s)) (n_made n || ok) fp tb 0 false (n_reinit n) (n_full n) (n_block n)) s in
    if ok then (true, log (VInit fp tb) s) else (false, deinit s).

Definition set_flags (full block : bool) (n : net) : net :=
  mkN (n_W n) (n_opt n) (n_made n) (n_fp n) (n_tb n) (n_cur n) (n_train n) (n_reinit n) full block.
(** 1165-1212, with the constructor and destructor 760-781; data: [rows] x [xw],
    [yrows] x [yw] *)
Definition gradcheck (rows xw yrows yw batchSize : nat) (s : st) : option (bool * st) :=
  if batchSize =? 0 then Some (false, s) else
  let biggest := Nat.max batchSize (st_online T) in
  if negb ((xw =? g_in N) && (biggest <=? rows)) || negb ((yw =? g_on N) && (biggest <=? yrows)) || negb (rows =? yrows)
  then Some (false, s) else
  let '(ok, s) := init biggest biggest s in
  if negb ok then Some (false, s) else
  let n := s_n s in
  let '(origTrain, origFull, origBs) := (n_train n, n_full n, n_cur n) in
  let s := with_n (set_flags true true n) (with_i (gc_init (s_i s)) s) in
  do (r, s) <- performCheck batchSize rows s;
  let s := with_n (set_flags origFull (n_block (s_n s)) (s_n s)) (with_i (gc_init (s_i s)) s) in
  do s <- set_mode origTrain origBs s;
  Some (r, with_n (set_flags (n_full (s_n s)) false (s_n s)) s).
End G.
Arguments genv : clear implicits. Arguments net : clear implicits. Arguments st : clear implicits. Arguments fst_ : clear implicits.
