(** Weights of a network in a file: nnet::write_weights(), nnet::read_weights()
    (nntl/nnet.h 162-229), through the archives of [Mf_Model].

    Both switch all options of the archive off but serialize_weights; what the serialize()
    functions of the layers do under these options only is modelled: the activations, the
    parameters and states of grad_works and dropout, and the inputs are not passed.

    Simplifications: opening succeeds or fails as a whole; names are short enough for the
    buffer (asserted by set_custom_name(), _layer_base.h 477); printing is left out;
    mark_invalid_var() sets an error code of its own (FailedToAssignDestinationVar), for which
    WrongVariableTypeHasBeenRead stands here. *)
From Coq Require Import String List DecimalString.
From Verif Require Import Base Smx_Model Mf_Model.
Import ListNotations.

(** Layers: custom (or default) name and index.  [LNone]: a layer that passes nothing (input,
    identity, gates, activations...); [LFC]: one with weights, for [nc] neurons and [inc] incoming
    ones, m_weights and m_bWeightsInitialized; [LPack]: vertical and horizontal packs;
    [LTile]: m_tiles_count and the layer tiled *)
Inductive lay :=
| LNone (c : string) (i : nat)
| LFC (c : string) (i : nat) (nc inc : nat) (w : smx Z) (ini : bool)
| LPack (c : string) (i : nat) (ls : lays)
| LTile (c : string) (i : nat) (k : Z) (l : lay)
with lays := lnil | lcons (l : lay) (ls : lays).

(** _layer_base.h 484-492: "%s_%d" *)
Definition dec (i : nat) : string := NilEmpty.string_of_uint (Nat.to_uint i).
Definition lname (c : string) (i : nat) : string := (c ++ "_" ++ dec i)%string.
Definition name (l : lay) : string :=
  match l with LNone c i | LFC c i _ _ _ _ | LPack c i _ | LTile c i _ _ => lname c i end.

Section K.
(** the class of real_t *)
Context (rk : cls).

(** What the layers pass when they are saved: fully_connected.h 71-75 and 326-333, output.h
    74-86, layers.h 131-135, pack_vertical.h 331-336, _lph_base.h 406-410, pack_tile.h 436-445;
    neurons_count_t is int32_t (common.h 50) *)
Fixpoint ser (l : lay) : items :=
  match l with
  | LNone _ _ => inil
  | LFC _ _ _ _ w _ => icons (INvp "m_weights"%string (VMat rk w)) inil
  | LPack _ _ ls => sers ls
  | LTile _ _ k l' => icons (INvp "m_tiles_count"%string (VScal (Int true 32) k)) (icons (INamed (name l') (ser l')) inil)
  end
with sers (ls : lays) : items :=
  match ls with lnil => inil | lcons l ls' => icons (INamed (name l) (ser l)) (sers ls') end.

(** nnet.h 204-229.  [can]: the file can be opened (and is emptied); the archive is closed by its
    destructor, matfile.h 288-290, after the result has been determined *)
Definition write_weights (ok : nat -> bool) (can : bool) (net : lays) : option (bool * option ar) :=
  if can then
    do s <- save_items ok (sers net) (opened false []);
    Some (is_ok (a_err s), Some (snd (close ok s)))
  else Some (false, None).

Context (fd fs fi : cls -> Z -> Z) (one : cls -> Z) (me : nat -> mem_env Z).

(** matfile.h 472-501, for any contents of the structure ([load_item] of [Mf_Model] is the same
    with items as contents) *)
Definition named {X} (n : string) (body : ar -> option (X * ar)) (x : X) (s : ar) : option (X * ar) :=
  if negb (is_ok (a_err s)) then Some (x, s) else
  if a_open s then
    match a_name s with
    | Some _ => Some (x, with_err s WrongState_NameAlreadySet)
    | None =>
        let '(pv, s) := load_var true (with_name s (Some n)) in
        let s := with_name s None in
        match pv with
        | None => Some (x, s)
        | Some (Str f) =>
            do (x', s') <- body (with_stk s (mkE f (negb (match a_stk s with [] => true | _ => false end)) :: a_stk s));
            Some (x', with_stk s' (tl (a_stk s')))
        | Some _ => Some (x, with_err s WrongVariableTypeHasBeenRead)
        end
    end
  else Some (x, with_err s NoFileOpened).

(** fully_connected.h 125-134 isWeightsSuitable *)
Definition suitable (nc inc : nat) (W : smx Z) : bool :=
  negb (empty W || s_bir W || s_bias W || negb (s_cols W =? inc + 1) || negb (s_rows W =? nc)).
(** 78-95 load; 137-144 set_weights: the matrix is moved *)
Definition load_fc (c : string) (i nc inc : nat) (w : smx Z) (ini : bool) (s : ar) : option (lay * ar) :=
  do (it, s) <- load_item fd fs fi one me (INvp "m_weights"%string (VMat rk init)) s;
  match it with
  | INvp _ (VMat _ M) =>
      if is_ok (a_err s) then
        if suitable nc inc M then Some (LFC c i nc inc M true, s)
        else Some (LFC c i nc inc w ini, with_err s WrongVariableTypeHasBeenRead)
      else Some (LFC c i nc inc w ini, s)
  | _ => None
  end.
Fixpoint load_lay (l : lay) (s : ar) : option (lay * ar) :=
  match l with
  | LNone c i => Some (l, s)
  | LFC c i nc inc w ini => load_fc c i nc inc w ini s
  | LPack c i ls => do (ls', s) <- load_lays ls s; Some (LPack c i ls', s)
  | LTile c i k l' =>
      do (it, s) <- load_item fd fs fi one me (INvp "m_tiles_count"%string (VScal (Int true 32) k)) s;
      match it with
      | INvp _ (VScal _ k') => do (l'', s) <- named (name l') (load_lay l') l' s; Some (LTile c i k' l'', s)
      | _ => None
      end
  end
with load_lays (ls : lays) (s : ar) : option (lays * ar) :=
  match ls with
  | lnil => Some (lnil, s)
  | lcons l ls' =>
      do (l', s) <- named (name l) (load_lay l) l s;
      do (ls'', s) <- load_lays ls' s;
      Some (lcons l' ls'', s)
  end.

(** nnet.h 176-203.  [file]: the variables of the file, if it exists and can be opened *)
Definition read_weights (file : option fields) (net : lays) : option (bool * lays) :=
  match file with
  | None => Some (false, net)
  | Some f => do (net', s) <- load_lays net (opened true f); Some (is_ok (a_err s), net')
  end.
End K.
