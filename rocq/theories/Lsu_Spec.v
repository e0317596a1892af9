(** What the data-driven initialisation is to achieve. *)
From Coq Require Import Reals.
From Verif Require Import Base Act_Model Act_Spec Smx_Model Smx_Spec TData_Model TData_Spec Net_Model Net_Spec Nrm_Model Nrm_Spec Fit_Model Fit_Spec Lsu_Model.
Local Open Scope nat_scope.

(** ** Layers *)
(** the fully connected layers: name, activation, incoming neurons, neurons, weights; from
    the input on, the output layer last *)
Record unit_ := mkU { u_q : lname; u_act : act; u_inc : nat; u_n : nat; u_W : list R }.
Fixpoint units (l : layer) : list unit_ :=
  match l with
  | LFC id a inc n W _ _ => [mkU (Some id) a inc n W]
  | LI _ _ => []
  | LPV s => sunits s
  | LPH _ h _ _ => hunits h
  | LPT _ l _ _ => units l
  end
with sunits (s : stack) : list unit_ := match s with SOne l => units l | SCons l b => sunits b ++ units l end
with hunits (h : hpack) : list unit_ := match h with HNil => [] | HCons _ _ l h => units l ++ hunits h end.
Definition nunits (x : net) : list unit_ :=
  match n_hid x with None => [] | Some s => sunits s end ++ [mkU None (outp_act (n_out x)) (n_inc x) (n_n x) (n_W x)].

(** ** What a layer sees of a sample *)
(** all the vectors the hidden layer [id] gets when the network is given [v]; more than one
    when it is tiled *)
Fixpoint inputs (id : nat) (l : layer) (v : list R) : list (list R) :=
  match l with
  | LFC id' _ _ _ _ _ _ => if id' =? id then [v] else []
  | LI _ _ => []
  | LPV s => sinputs id s v
  | LPH _ h _ _ => hinputs id h v
  | LPT k l _ _ => flat_map (fun t => inputs id l (Net_Model.slice (t * incoming l) (incoming l) v)) (seq 0 k)
  end
with sinputs (id : nat) (s : stack) (v : list R) : list (list R) :=
  match s with SOne l => inputs id l v | SCons l b => sinputs id b v ++ inputs id l (sout b v) end
with hinputs (id : nat) (h : hpack) (v : list R) : list (list R) :=
  match h with HNil => [] | HCons ofs cnt l h => inputs id l (Net_Model.slice ofs cnt v) ++ hinputs id h v end.
Definition net_inputs (q : lname) (x : net) (v : list R) : list (list R) :=
  match q with
  | None => [hidden x v]
  | Some id => match n_hid x with None => [] | Some s => sinputs id s v end
  end.

(** values of neuron [c] for a sample: before the activation, or after *)
Definition values (pre : bool) (x : net) (u : unit_) (v : list R) (c : nat) : list R :=
  map (fun w => let z := zed (u_n u) (u_inc u) (u_W u) w c in if pre then z else act_f (u_act u) z) (net_inputs (u_q u) x v).

Section S.
Context (S : sets R R).
(** the groups of values to be normalised, over the first [L] training samples: the values
    of every neuron, or all values of the layer *)
Definition lgroups (ls : lset) (x : net) (u : unit_) (L : nat) : list (list R) :=
  if n_cw (l_n ls) then map (fun c => flat_map (fun i => values (l_pre ls) x u (sample (x0 S) i) c) (seq 0 L)) (seq 0 (u_n u))
  else [flat_map (fun i => flat_map (values (l_pre ls) x u (sample (x0 S) i)) (seq 0 (u_n u))) (seq 0 L)].
(** samples looked at with these settings: batches of the size asked for, or of all
    samples (C12, C92) *)
Definition llooked (ls : lset) : nat := looked (l_n ls) (cnt S 0) (if l_bs ls =? 0 then cnt S 0 else l_bs ls).
(** sample mean and (unbiased) deviation are what was asked for *)
Definition lmet (ls : lset) (l : list R) : Prop :=
  (n_dos (l_n ls) = true -> dev true l = 0%R \/ (Rabs (dev true l - n_scale (l_n ls)) < n_stol (l_n ls))%R) /\
  (n_doc (l_n ls) = true -> (Rabs (mean l - n_central (l_n ls)) < n_ctol (l_n ls))%R).
Definition normalized (ls : lset) (x : net) (u : unit_) : Prop :=
  Forall (fun l => n_break (l_n ls) = true \/ 2 <= length l -> lmet ls l) (lgroups ls x u (llooked ls)).
End S.

(** the layer is to be processed *)
Definition lasked (ls : lset) : Prop := (n_dos (l_n ls) = true \/ n_doc (l_n ls) = true) /\ 0 < n_tries (l_n ls).

(** [q] is visited before [r] *)
Definition earlier (x : net) (q r : lname) : Prop := exists l1 l2, map u_q (nunits x) = l1 ++ r :: l2 /\ In q l1.

(** ** What comes from outside *)
Definition weights_fit (E : lenv) (x : net) : Prop := forall u rt, In u (nunits x) -> length (le_new E (u_q u) rt) = length (u_W u).
Definition env_ok (E : lenv) : Prop :=
  (forall q a b c, im_ok (le_im E q a b c)) /\ (forall q, le_mx E q <> None) /\ (forall q, le_my E q <> None) /\ (forall q, le_math E q = true).

(** ** What happens to the weights *)
(** every weight of neuron [c] is multiplied by [a c], its bias moved by [b c] in addition *)
Definition rescaled (a b : nat -> R) (n inc : nat) (W W' : list R) : Prop :=
  length W' = length W /\
  forall c k, c < n -> k <= inc -> nth (c + k * n) W' 0%R = (a c * nth (c + k * n) W 0 + (if k =? inc then b c else 0))%R.
(** settings that can be met without looking at the activation *)
Definition reachable (S : sets R R) (ls : lset) : Prop :=
  l_pre ls = true /\ positive (l_n ls) /\ enough_tries (l_n ls) /\ 0 < l_re ls /\ 2 <= llooked S ls.
