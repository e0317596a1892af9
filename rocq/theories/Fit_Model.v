(** A network of Net_Model.v driven by train() of Train_Model.v: nntl/nnet.h, layers.h,
    layer/fully_connected.h, output.h, _lph_base.h.

    Train_Model.v records what train() does to the network; here the record is carried
    out on the layers.  Simplifications: those of Net_Model.v; the data has its samples
    in rows of the matrices (nnet.h:70: the other layout is "not extensively tested");
    weight matrices have their size from the start; when the initialisation of the
    layers fails, no layer keeps the weights it was given. *)
From Coq Require Import Reals Bool.
From Verif Require Import Base Act_Model Act_Spec Smx_Model TData_Model Train_Model Net_Model Net_Spec.
Local Open Scope nat_scope.

Notation event := (Train_Model.event R R).

(** What grad_works does to a layer's weights: pre_training_fprop (grad_works.h:339-388),
    apply_grad (391-582); hidden layers, by identifier, and output layer *)
Record rule := mkRule { r_pre : nat -> list R -> list R; r_preo : list R -> list R;
  r_gw : gworks; r_gwo : list R -> list R -> list R * list R }.

(** ... after a history; the random weights layers are given; what fresh memory holds *)
Record hooks := mkHk { k_rule : list event -> rule;
  k_new : list event -> nat -> nat -> R; k_newo : list event -> nat -> R; k_mem : list event -> nat -> R }.

(** the layers, the activations of the input layer, m_bWeightsInitialized *)
Record wst := mkW { w_x : net; w_in : list R; w_has : bool }.

Definition reweight (f : nat -> list R -> list R) (g : list R -> list R) (x : net) : net :=
  mkN (option_map (swith_w f) (n_hid x)) (n_out x) (n_inc x) (n_n x) (g (n_W x)) (n_G x) (n_A x) (n_buf x).

(** _lph_base.h:344-360 initMem with the biggest training batch M; layer_deinit *)
Fixpoint mem_up (M : nat) (blk : nat -> list R) (l : layer) : layer :=
  match l with
  | LFC _ _ _ _ _ _ _ | LI _ _ => l
  | LPV s => LPV (smem_up M blk s)
  | LPH inc h _ _ => LPH inc (hmem_up M blk h) (blk (inner_cap M h)) (blk (inner_cap M h))
  | LPT k l inn A => LPT k (mem_up (k * M) blk l) inn A
  end
with smem_up (M : nat) (blk : nat -> list R) (s : stack) : stack :=
  match s with SOne l => SOne (mem_up M blk l) | SCons l b => SCons (mem_up M blk l) (smem_up M blk b) end
with hmem_up (M : nat) (blk : nat -> list R) (h : hpack) : hpack :=
  match h with HNil => HNil | HCons o c l h => HCons o c (mem_up M blk l) (hmem_up M blk h) end.
Fixpoint mem_down (l : layer) : layer :=
  match l with
  | LFC _ _ _ _ _ _ _ | LI _ _ => l
  | LPV s => LPV (smem_down s)
  | LPH inc h _ _ => LPH inc (hmem_down h) [] []
  | LPT k l inn A => LPT k (mem_down l) inn A
  end
with smem_down (s : stack) : stack :=
  match s with SOne l => SOne (mem_down l) | SCons l b => SCons (mem_down l) (smem_down b) end
with hmem_down (h : hpack) : hpack :=
  match h with HNil => HNil | HCons o c l h => HCons o c (mem_down l) (hmem_down h) end.

(** nnet.h:375-470, layers.h:230-270; fully_connected.h:185-211: weights a layer
    already has are kept *)
Definition net_up (H : hooks) (h : list event) (M : nat) (w : wst) : wst :=
  let blk n := map (k_mem H h) (seq 0 n) in
  let x := w_x w in
  let x := if w_has w then x
           else reweight (fun id W => map (k_new H h id) (seq 0 (length W))) (fun W => map (k_newo H h) (seq 0 (length W))) x in
  let bufs := match n_hid x with None => ([], []) | Some s => (blk (dLdA_size M s), blk (dLdA_size M s)) end in
  mkW (mkN (option_map (smem_up M blk) (n_hid x)) (n_out x) (n_inc x) (n_n x) (n_W x) (n_G x) (n_A x) bufs) (w_in w) true.
(** layers.h:262-267 *)
Definition net_down (w : wst) : wst :=
  let x := w_x w in
  mkW (mkN (option_map smem_down (n_hid x)) (n_out x) (n_inc x) (n_n x) (n_W x) (n_G x) (n_A x) ([], [])) (w_in w) (w_has w).

(** the elements of a matrix with its samples in rows *)
Definition elems (b : smx R) : option (list R) :=
  do _ <- guard (negb (s_bir b)); do l <- s_data b; Some (firstn (s_rows b * s_cols b) l).

(** what an event does to the layers; [h]: the history before it *)
Definition happen (H : hooks) (h : list event) (v : event) (w : wst) : option wst :=
  match v with
  | VNetInit _ tb => Some (net_up H h tb w)
  | VNetDeinit => Some (net_down w)
  | VFprop training bs b => (* layers.h:301-313; fully_connected.h:258-262, 398-401 *)
      do X <- elems b;
      let x := if training then reweight (r_pre (k_rule H h)) (r_preo (k_rule H h)) (w_x w) else w_x w in
      do x <- net_fprop bs X x; Some (mkW x X (w_has w))
  | VBprop _ bs y => (* layers.h:316-353 *)
      do Y <- elems y;
      do x <- net_bprop (r_gw (k_rule H h)) (r_gwo (k_rule H h)) bs (w_in w) Y (w_x w); Some (mkW x (w_in w) (w_has w))
  | _ => Some w
  end.
Fixpoint replay (H : hooks) (x : net) (h : list event) : option wst :=
  match h with
  | [] => Some (mkW x [] false)
  | v :: h => do w <- replay H x h; happen H h v w
  end.

(** the environment of train() in which input, output and loss (nnet.h:253-257,
    313-325) are those of this network *)
Definition net_loss (H : hooks) (x : net) (h : list event) (y : smx R) : fl :=
  do w <- replay H x h; do Y <- elems y;
  Some (loss_spec (outp_loss 0 (n_out (w_x w))) (length (n_A (w_x w))) (n_A (w_x w)) Y).
Definition with_net (H : hooks) (x : net) (E : env R R) : env R R :=
  mkE (match n_hid x with None => n_inc x | Some s => sincoming s end) (n_n x)
    (e_memx E) (e_memy E) (e_memi E) (e_init E) (e_math E) (e_im E) (e_rv E) (e_addW E) (e_addA E) (e_add E)
    (net_loss H x) (e_oninit E) (e_obs E) (e_epochcb E).
