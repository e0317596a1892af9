(** nnet::train: nntl/nnet.h, nntl/nnet_train_opts.h, nntl/common_nn_data.h,
    nntl/layers.h (loss addendum).

    The training data is the object of TData_Model.v.  The network is represented by
    the history of the calls it and the observer received; whatever is computed from
    its state (loss values, outcome of allocations, answers of callbacks) is an
    arbitrary function of that history.  Loss values are reals or not-a-number
    ([None]); rounding and infinities are not modelled.  The observer does not touch
    the training data.  Timers, thread priorities and console output are left out. *)
From Coq Require Import Reals.
From Verif Require Import Base Workers_Model Kern_Model MKern_Model Smx_Model TData_Model.
Local Open Scope nat_scope.

(** real_t with not-a-number *)
Definition fl := option R.
Definition fl_add (a b : fl) : fl := do x <- a; do y <- b; Some (x + y)%R.
Definition fl_div (a : fl) (n : nat) : fl := do x <- a; if n =? 0 then None else Some (x / INR n)%R.
(** a >= b *)
Definition fl_ge (a b : fl) : bool :=
  match a, b with Some x, Some y => if Rge_dec x y then true else false | _, _ => false end.
Definition fl_is0 (a : fl) : bool := match a with Some x => if Req_EM_T x 0 then true else false | None => false end.

(** nntl/_nnet_errs.h; [ETd]: codes of the training data object, [EInit]: layers, math
    object or random number generator failed to initialise, [ECallback]: code returned
    by the initialisation callback *)
Inductive ecode := ESuccess | EInvalidTD | EInvalidInputLayer | EInvalidOutputLayer | ETd (e : err) | EInit | ECallback
                 | EObserver | EDiverged.

Section T.
Context {A B : Type} (oneA : A) (oneB : B).
Notation sets := (sets A B). Notation tds := (tds A B). Notation imath := (imath A B).

(** What happens to the network, the training data and the observer *)
Inductive event :=
| VInspector (on : bool)                          (* iInspect().turn_on *)
| VNetInit (fp tb : nat)                          (* layers, math and memory ready *)
| VNetDeinit
| VTdInit (fp tb : nat)
| VTdDeinit
| VObsInit (ok : bool)
| VObsDeinit
| VStart (tb fp : nat)                            (* observer().on_training_start *)
| VBatchSize (bs : nat)                           (* layers.on_batch_size_change *)
| VEpoch (e n : nat)                              (* epoch e with n batches *)
| VFprop (training : bool) (bs : nat) (x : smx A)  (* mode and batch size in effect *)
| VBprop (training : bool) (bs : nat) (y : smx B)
| VWalk (id n : nat)                              (* report_results_begin *)
| VResult (id : nat) (bi : nat) (y : smx B)       (* report_results *)
| VLoss (id : nat) (v : fl)                       (* report_results_end *)
| VReport (e : Z) (train test : fl)               (* on_training_fragment_end *)
| VTime (e : nat)                                 (* time report only *)
| VEpochCb (e : nat) (go : bool)
| VEnd.                                           (* on_training_end *)

(** nnet_train_opts.h:103-147 *)
Record opts := mkO { o_epochs : nat; o_fp : nat; o_tb : nat; o_cond : nat -> bool; o_last : Z; o_thr : fl;
  o_full : bool; o_imm : bool; o_time : bool; o_reinitTd : bool; o_insp : bool }.

(** What the rest of the world does; [h]: the history so far, newest event first *)
Record env := mkE {
  e_in : nat; e_out : nat;                        (* neurons of input and output layer *)
  e_memx : list event -> mem_env A; e_memy : list event -> mem_env B; e_memi : list event -> bool;
  e_init : list event -> bool;                    (* init_layers, iMath, iRng succeed *)
  e_math : list event -> bool;                    (* iMath().init() *)
  e_im : list event -> imath; e_rv : list event -> nat -> nat;
  e_addW : bool; e_addA : bool;                   (* bLossAddendumDependsOn... *)
  e_add : list event -> fl;                       (* sum of the layers' lossAddendum() *)
  e_loss : list event -> smx B -> fl;             (* output layer's calc_loss(data_y) *)
  e_oninit : list event -> bool; e_obs : list event -> bool; e_epochcb : list event -> nat -> bool }.

(** members of nnet and common_nn_data: m_max_fprop_batch_size, m_training_batch_size,
    m_cur_batch_size, m_bInTraining, m_bRequireReinit, inspector active,
    m_lossAddendum, m_bCalcFullLossValue *)
Record nn := mkNN { c_fp : nat; c_tb : nat; c_cur : nat; c_train : bool; n_reinit : bool; n_insp : bool;
  n_add : fl; n_full : bool; n_td : tds; n_h : list event }.

Definition log (v : event) (s : nn) : nn :=
  mkNN (c_fp s) (c_tb s) (c_cur s) (c_train s) (n_reinit s) (n_insp s) (n_add s) (n_full s) (n_td s) (v :: n_h s).
Definition with_cd fp tb cur tr (s : nn) : nn :=
  mkNN fp tb cur tr (n_reinit s) (n_insp s) (n_add s) (n_full s) (n_td s) (n_h s).
Definition with_td t (s : nn) : nn :=
  mkNN (c_fp s) (c_tb s) (c_cur s) (c_train s) (n_reinit s) (n_insp s) (n_add s) (n_full s) t (n_h s).
Definition with_add a (s : nn) : nn :=
  mkNN (c_fp s) (c_tb s) (c_cur s) (c_train s) (n_reinit s) (n_insp s) a (n_full s) (n_td s) (n_h s).
Definition with_full f (s : nn) : nn :=
  mkNN (c_fp s) (c_tb s) (c_cur s) (c_train s) (n_reinit s) (n_insp s) (n_add s) f (n_td s) (n_h s).
Definition turn_on (b : bool) (s : nn) : nn :=
  log (VInspector b) (mkNN (c_fp s) (c_tb s) (c_cur s) (c_train s) (n_reinit s) b (n_add s) (n_full s) (n_td s) (n_h s)).

Context (S : sets) (E : env) (O : opts).

(** common_nn_data.h:154-165 with nnet.h:482-484; the layers have no room for bigger
    batches than they were initialised for *)
Definition set_mode (training : bool) (bs : nat) (s : nn) : option nn :=
  do _ <- guard ((0 <? bs) && (if training then bs <=? c_tb s else bs <=? c_fp s));
  Some (if Bool.eqb training (c_train s) && (bs =? c_cur s) then s
        else log (VBatchSize bs) (with_cd (c_fp s) (c_tb s) bs training s)).
(** nnet.h:477-485 *)
Definition set_mode_and_batch_size (bs : nat) (s : nn) : option nn :=
  set_mode (bs =? 0) (if bs =? 0 then c_tb s else bs) s.

(** 503-514; common_nn_data.h:115-120 *)
Definition deinit (s : nn) : nn :=
  log VNetDeinit (mkNN 0 0 0 (c_train s) false (n_insp s) (n_add s) (n_full s) (n_td s) (n_h s)).
(** 375-413; common_nn_data.h:121-130 *)
Definition full_init (fp tb : nat) (s : nn) : ecode * nn :=
  let s := with_cd fp tb 0 false s in
  if e_init E (n_h s) then (ESuccess, log (VNetInit fp tb) s) else (EInit, deinit s).
(** 303-307, 327-329; common_nn_data.h:208-211 *)
Definition is_init (fp tb : nat) (s : nn) : bool :=
  negb (n_reinit s) && ((0 <? c_fp s) && (fp <=? c_fp s) && (tb <=? c_tb s)).

(** 351-373; also returns maxFPropSize and maxBatchSize *)
Definition init4train_nn (s : nn) : option (ecode * nat * nat * nn) :=
  let ini := is_initialized4train S (n_td s) (o_fp O) (o_tb O) in
  do (ec, fp, tb, s) <- match (if o_reinitTd O then None else ini) with
    | Some (fp, tb, _) => Some (Success, fp, tb, s)
    | None =>
        (* is_initialized4train(), if it was called, may have replaced maxFPropSize *)
        let fp := if o_reinitTd O then o_fp O else
                  match is_initialized4inference S (n_td s) (o_fp O) with Some v => v | None => o_fp O end in
        do (ec, fp, tb, t) <- init4train oneA oneB (e_memx E (n_h s)) (e_memy E (n_h s)) (e_memi E (n_h s)) S (n_td s) fp (o_tb O);
        Some (ec, fp, tb, (match ec with Success => log (VTdInit fp tb) | _ => fun s => s end) (with_td t s))
    end;
  match ec with
  | Success =>
      if is_init fp tb s then Some (if e_math E (n_h s) then ESuccess else EInit, fp, tb, s)
      else let '(ec, s) := full_init fp tb (deinit s) in Some (ec, fp, tb, s)
  | e => Some (ETd e, fp, tb, s)
  end.

(** layers.h:283-297 *)
Definition calc_addendum (s : nn) : fl * nn :=
  if fl_is0 (n_add s) then (e_add E (n_h s), with_add (e_add E (n_h s)) s) else (n_add s, s).

(** nnet.h:285-292 with 253-257, 313-325 *)
Definition eval_batch (id bi : nat) (ls : fl * nn) : option (fl * nn) :=
  let '(lossVal, s) := ls in
  do t <- next_subset oneA (e_im E (n_h s)) S (n_td s) bi;
  let s := with_td t s in
  do x <- batchX S t; do y <- batchY S t;
  do s <- set_mode_and_batch_size (batch_size x) s;
  let s := log (VFprop (c_train s) (c_cur s) x) s in
  let lossVal := fl_add lossVal (fl_div (e_loss E (n_h s) y) (batch_size y)) in
  Some (lossVal, log (VResult id bi y) s).
(** 264-301 calcLossAndReport *)
Definition calcLossAndReport (id : nat) (s : nn) : option (fl * nn) :=
  let s := if e_addA E then with_add (Some 0%R) s else s in
  do (n, t) <- walk_over_set oneA S (n_td s) id (c_cur s) (-1)%Z 0;
  let s := log (VWalk id n) (with_td t s) in
  do (lossVal, s) <- for_loop 0 n (eval_batch id) (Some 0%R, s);
  let '(lossVal, s) := if n_full s then let '(a, s) := calc_addendum s in (fl_add lossVal a, s) else (lossVal, s) in
  Some (lossVal, log (VLoss id lossVal) s).
(** 237-251 *)
Definition report_progress (e : Z) (s : nn) : option (fl * nn) :=
  let s := with_add (Some 0%R) s in
  do (trainLoss, s) <- calcLossAndReport train_set_id s;
  do (testLoss, s) <- calcLossAndReport test_set_id s;
  Some (trainLoss, log (VReport e trainLoss testLoss) s).

(** 602-622 *)
Definition train_batch (bi : nat) (s : nn) : option nn :=
  do t <- on_next_batch (e_im E (n_h s)) S (n_td s) bi;
  let s := with_td t s in
  do x <- batchX S t; do y <- batchY S t;
  let s := log (VFprop (c_train s) (c_cur s) x) s in
  Some (log (VBprop (c_train s) (c_cur s) y) s).

(** 597-660: [n] epochs remain, the next one is [e] *)
Fixpoint epochs (n e : nat) (s : nn) : option (ecode * nn) :=
  match n with
  | 0 => Some (ESuccess, s)
  | Datatypes.S n =>
      do (nb, t) <- on_next_epoch oneA S (n_td s) (e_rv E (n_h s)) (c_cur s) 0;
      let s := log (VEpoch e nb) (with_td t s) in
      do s <- for_loop 0 nb train_batch s;
      let chk := (Z.of_nat e <? o_last O)%Z in
      do (dvg, s) <- (if o_cond O e || chk then
          if o_time O && negb chk then Some (false, log (VTime e) s)
          else do (loss, s) <- report_progress (Z.of_nat e) s; Some (chk && fl_ge loss (o_thr O), s)
        else Some (false, s));
      if (dvg : bool) then Some (EDiverged, s) else
      let go := e_epochcb E (n_h s) e in
      let s := log (VEpochCb e go) s in
      if go then do s <- set_mode_and_batch_size 0 s; epochs n (e + 1) s else Some (ESuccess, s)
  end.

(** 551-675, between the construction and the destruction of nnet_deinit *)
Definition train_body (s : nn) : option (ecode * nn) :=
  do (ec, fp, tb, s) <- init4train_nn (with_full (o_full O) s);
  match ec with
  | ESuccess =>
      let s := if n_full s then with_full (e_addW E || e_addA E) s else s in
      if negb (e_oninit E (n_h s)) then Some (ECallback, s) else
      let ok := e_obs E (n_h s) in
      let s := log (VObsInit ok) s in
      if negb ok then Some (EObserver, s) else
      let s := log (VStart tb fp) s in
      do (_, s) <- report_progress (-1)%Z s;
      do s <- set_mode_and_batch_size 0 s;
      do (ec, s) <- epochs (o_epochs O) 0 s;
      let s := match ec with ESuccess => if o_time O then s else log VEnd s | _ => s end in
      (* 573-575 *)
      Some (ec, log VObsDeinit s)
  | e => Some (e, s)
  end.

(** 523-676 *)
Definition train (s : nn) : option (ecode * nn) :=
  if sets_empty S then Some (EInvalidTD, s) else
  if negb (xWidth S =? e_in E) then Some (EInvalidInputLayer, s) else
  if negb (yWidth S =? e_out E) then Some (EInvalidOutputLayer, s) else
  let orig := n_insp s in
  let s := if o_insp O then turn_on true s else s in
  do (ec, s) <- train_body s;
  let s := if o_imm O then deinit (log VTdDeinit (with_td (deinit4all (n_td s)) s)) else s in
  Some (ec, if o_insp O then turn_on orig s else s).
End T.
(** nnet.h:159, 503: what a client may do between two sessions *)
Definition require_reinit {A B} (s : @nn A B) : @nn A B :=
  mkNN (c_fp s) (c_tb s) (c_cur s) (c_train s) true (n_insp s) (n_add s) (n_full s) (n_td s) (n_h s).
Definition td_deinit {A B} (s : @nn A B) : @nn A B := log VTdDeinit (with_td (deinit4all (n_td s)) s).
Arguments event : clear implicits. Arguments env : clear implicits. Arguments nn : clear implicits.
