(** What train() promises. *)
From Coq Require Import Reals Permutation.
From Verif Require Import Base Smx_Model TData_Model TData_Spec Train_Model.
Local Open Scope nat_scope.

(** The size in effect when [req] is asked for and [n] samples exist; 0: all. *)
Definition wanted (req n : nat) : nat := if (req =? 0) || (n <? req) then n else req.

Section S.
Context {A B : Type} (oneA : A) (oneB : B).
Notation event := (event A B). Notation env := (env A B). Notation nn := (nn A B).
Context (S : sets A B).

(** Samples of the bigger set *)
Definition most := Nat.max (cnt S 0) (cnt S 1).
(** The sizes a session asks for *)
Definition asks (O : opts) (fp tb : nat) : Prop := wanted (o_fp O) most = fp /\ wanted (o_tb O) (cnt S 0) = tb.
(** The thread pool splits ranges and interleaves writes as such pools do; the random
    number generator stays within the asked range. *)
Definition env_ok (E : env) : Prop := forall h, im_ok (e_im E h) /\ rng_ok (e_rv E h).

(** Networks and training data objects that were created, then trained, deinitialised
    or marked for reinitialisation any number of times, every session asking for the
    same two sizes. *)
Inductive life (fp tb : nat) : nn -> Prop :=
| life_new s : t_fp (n_td s) = 0 -> c_fp s = 0 -> c_cur s = 0 -> n_h s = [] -> life fp tb s
| life_train s E O ec s' : life fp tb s -> env_ok E -> asks O fp tb ->
    train oneA oneB S E O s = Some (ec, s') -> life fp tb s'
| life_deinit s : life fp tb s -> life fp tb (deinit s)
| life_td s : life fp tb s -> life fp tb (td_deinit s)
| life_reinit s : life fp tb s -> life fp tb (require_reinit s).

(** ** What a session consists of, in terms of the numbers of the samples *)
Inductive act :=
| AObsInit (ok : bool) | AStart (tb fp : nat)
| ALearnF (ids : list nat) | ALearnB (ids : list nat)        (* fprop and bprop of a training batch *)
| AWalk (id n : nat) | AEval (id : nat) (ids : list nat)     (* fprop of a batch of an evaluation *)
| AResult (id bi : nat) (ids : list nat) | ALoss (id : nat)
| AReport (e : Z) | ATime (e : nat) | AEpoch (e n : nat) | ACb (e : nat) (go : bool) | AEnd | AObsDeinit.

(** [v] does what [a] says: in training mode for learning and in inference mode for
    evaluation, with the batch size of the data. *)
Definition shows (v : event) (a : act) : Prop :=
  match v, a with
  | VObsInit k, AObsInit k' => k = k'
  | VStart t f, AStart t' f' => t = t' /\ f = f'
  | VFprop true bs x, ALearnF ids => holds oneA x (x0 S) ids /\ bs = length ids
  | VBprop true bs y, ALearnB ids => holds oneB y (y0 S) ids /\ bs = length ids
  | VWalk i n, AWalk i' n' => i = i' /\ n = n'
  | VFprop false bs x, AEval id ids => holds oneA x (set_x S id) ids /\ bs = length ids
  | VResult i b y, AResult i' b' ids => i = i' /\ b = b' /\ holds oneB y (set_y S i) ids
  | VLoss i _, ALoss i' => i = i'
  | VReport e _ _, AReport e' => e = e'
  | VTime e, ATime e' => e = e'
  | VEpoch e n, AEpoch e' n' => e = e' /\ n = n'
  | VEpochCb e g, ACb e' g' => e = e' /\ g = g'
  | VEnd, AEnd | VObsDeinit, AObsDeinit => True
  | _, _ => False
  end.
(** Events that are part of the plan of a session *)
Definition planned (v : event) : bool :=
  match v with
  | VInspector _ | VNetInit _ _ | VNetDeinit | VTdInit _ _ | VTdDeinit | VBatchSize _ => false
  | _ => true
  end.

Context (O : opts) (fp tb : nat).

(** Evaluation of a data set in consecutive batches of at most [fp] samples *)
Definition eval_plan (id : nat) : list act :=
  let b := Nat.min fp (cnt S id) in let n := subsets (cnt S id) b in
  AWalk id n ::
  flat_map (fun k => let ids := slice (seq 0 (cnt S id)) b k in [AEval id ids; AResult id k ids]) (seq 0 n) ++
  [ALoss id].
Definition report_plan (e : Z) : list act := eval_plan 0 ++ eval_plan 1 ++ [AReport e].
Definition checked (e : nat) : bool := (Z.of_nat e <? o_last O)%Z.
(** One epoch: all the full batches of [tb] samples of the order [perm], then a report
    if one is due *)
Definition epoch_plan (e : nat) (perm : list nat) : list act :=
  AEpoch e (cnt S 0 / tb) ::
  flat_map (fun k => [ALearnF (slice perm tb k); ALearnB (slice perm tb k)]) (seq 0 (cnt S 0 / tb)) ++
  (if checked e || (o_cond O e && negb (o_time O)) then report_plan (Z.of_nat e)
   else if o_cond O e then [ATime e] else []).

Inductive fin := Finished | Stopped | Diverged.
Fixpoint epochs_plan (e : nat) (perms : list (list nat)) (f : fin) : list act :=
  match perms with
  | [] => []
  | [p] => epoch_plan e p ++ match f with Finished => [ACb e true] | Stopped => [ACb e false] | Diverged => [] end
  | p :: ps => epoch_plan e p ++ [ACb e true] ++ epochs_plan (e + 1) ps f
  end.
(** A session that trains: one order of the samples per epoch begun *)
Definition session_plan (perms : list (list nat)) (f : fin) : list act :=
  [AObsInit true; AStart tb fp] ++ report_plan (-1) ++ epochs_plan 0 perms f ++
  match f with Diverged => [] | _ => if o_time O then [] else [AEnd] end ++ [AObsDeinit].

Definition perms_ok (perms : list (list nat)) (f : fin) : Prop :=
  Forall (fun p => Permutation p (seq 0 (cnt S 0))) perms /\
  match f with
  | Finished => length perms = o_epochs O
  | Stopped | Diverged => 0 < length perms <= o_epochs O
  end.
Definition code (f : fin) : ecode := match f with Diverged => EDiverged | _ => ESuccess end.
(** [new], oldest event first, is what the session did *)
Definition session (ec : ecode) (new : list event) : Prop :=
  let vis := filter planned new in
  match ec with
  | ESuccess | EDiverged =>
      exists perms f, ec = code f /\ perms_ok perms f /\ Forall2 shows vis (session_plan perms f)
  | EObserver => Forall2 shows vis [AObsInit false]
  | _ => vis = []
  end.

(** The layers know the batch size in effect: the last size they were told of since
    they were initialised ([h]: newest first). *)
Fixpoint told (h : list event) : option nat :=
  match h with
  | [] => None
  | VBatchSize n :: _ => Some n
  | VNetInit _ _ :: _ | VNetDeinit :: _ => None
  | _ :: h' => told h'
  end.
Definition informed (h : list event) : Prop :=
  forall h1 h2 v, h = h1 ++ v :: h2 ->
    match v with VFprop _ bs _ | VBprop _ bs _ => told h2 = Some bs | _ => True end.

(** ** Losses *)
(** What may change the weights *)
Definition learning (v : event) : bool :=
  match v with VFprop true _ _ | VBprop _ _ _ | VNetInit _ _ | VNetDeinit => true | _ => false end.
Definition sum_over (f : nat -> R) (l : list nat) : R := fold_right (fun i a => (f i + a)%R) 0%R l.
(** [L h id i]: the loss of sample [i] of set [id] for the weights after the history [h].
    Throughout [hist] only what may change the weights changes it, and the loss of a
    batch is the sum of the losses of its samples. *)
Definition loss_of (E : env) (L : list event -> nat -> nat -> R) (hist : list event) : Prop :=
  forall h1 v h2, hist = h1 ++ v :: h2 ->
    (learning v = false -> forall id i, L (v :: h2) id i = L h2 id i) /\
    (forall bs x y id ids, v = VFprop false bs x -> id < 2 ->
      holds oneA x (set_x S id) ids -> holds oneB y (set_y S id) ids ->
      e_loss E (v :: h2) y = Some (sum_over (L h2 id) ids)).
Definition mean_over (f : nat -> R) (l : list nat) : R := (sum_over f l / INR (length l))%R.
(** sum of the means of consecutive batches of [b] of [n] samples *)
Definition batched (f : nat -> R) (n b : nat) : R :=
  sum_over (fun k => mean_over f (slice (seq 0 n) b k)) (seq 0 (subsets n b)).

(** ** Resources *)
Definition net_up (h : list event) : bool :=
  (fix f h := match h with [] => false | VNetInit _ _ :: _ => true | VNetDeinit :: _ => false | _ :: h' => f h' end) h.
Definition is_obs_deinit (v : event) : bool := match v with VObsDeinit => true | _ => false end.
Definition is_obs_init (v : event) : bool := match v with VObsInit true => true | _ => false end.
Definition is_td_deinit (v : event) : bool := match v with VTdDeinit => true | _ => false end.
Definition count (f : event -> bool) (l : list event) : nat := length (filter f l).
End S.
