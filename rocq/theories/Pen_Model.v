(** Networks whose hidden layers have penalties of their activations:
    nntl/layer/extender.h (_LEx without dropout), nntl/layers.h.

    Every layer of layers.h is a layer of Net_Model with a list of penalties, empty if
    it is not wrapped by _LEx.  Simplifications as in Net_Model and La_Model; penalties
    inside of packs and the gated packs (which exclude the gating neurons) are not
    modelled.  Read: [post] holds of the result; [False] in place of undefined
    behaviour. *)
From Coq Require Import Reals Bool.
From Verif Require Import Base Act_Model Workers_Model Kern_Model Net_Model La_Model.
Local Open Scope nat_scope.

(** from the topmost hidden layer down *)
Definition pstack := list (layer * list adn).
Record pnet := mkPN { p_hid : pstack; p_out : outp; p_inc : nat; p_n : nat;
  p_W : list R; p_G : list R; p_A : list R; p_buf : list R * list R }.

(** activations below a layer; [X]: the input *)
Definition below (m : nat) (X : list R) (b : pstack) : list R :=
  match b with [] => X | (l, _) :: _ => biased m (acts l) end.

Section K.
Context (th : lthr) (pool : list prange) (t : tmem).

(** fprop: extender.h 276-281, 245-251 _fprop4PA in training mode; layers.h 304-314 *)
Fixpoint psfprop (m : nat) (X : list R) (s : pstack) (post : pstack -> Prop) : Prop :=
  match s with
  | [] => post []
  | (l, las) :: b => psfprop m X b (fun b' =>
      match fprop m (below m X b') l with
      | Some l' => pab_fprop th pool las m (neurons l') (acts l') t (fun las' => post ((l', las') :: b'))
      | None => False
      end)
  end.

(** bprop: extender.h 326-346, 300-303 _update_dLdA4PA; layers.h 317-354 *)
Fixpoint psbprop (gw : gworks) (m : nat) (X : list R) (arr : dbuf * dbuf) (idx : bool) (s : pstack)
  (post : pstack -> dbuf * dbuf -> Prop) : Prop :=
  match s with
  | [] => post [] arr
  | (l, las) :: b =>
      let cur := bsel idx arr in
      pab_update_dLdA th pool las m (neurons l) (acts l) (b_d cur) t (fun D =>
        match (do nxt <- match b with
                         | [] => deform 0 0 (bsel (negb idx) arr)
                         | (lb, _) :: _ => deform m (neurons lb) (bsel (negb idx) arr)
                         end;
               bprop gw m (below m X b) match b with [] => false | _ => true end (mkB (b_r cur) (b_c cur) D) nxt l) with
        | Some (l', d, e, alt) => psbprop gw m X (barr idx d e) (xorb idx alt) b (fun b' arr' => post ((l', las) :: b') arr')
        | None => False
        end)
  end.

(** the output layer has no penalties (extender.h 81) *)
Definition pnet_fprop (m : nat) (X : list R) (x : pnet) (post : pnet -> Prop) : Prop :=
  psfprop m X (p_hid x) (fun h =>
    let P := below m X h in
    match guard ((length P =? m * (p_inc x + 1)) && (length (p_W x) =? p_n x * (p_inc x + 1))) with
    | Some _ => post (mkPN h (p_out x) (p_inc x) (p_n x) (p_W x) (p_G x)
        (map (act_f (outp_act (p_out x))) (gemm false true m (p_n x) (p_inc x + 1) 1%R P m (p_W x) (p_n x))) (p_buf x))
    | None => False
    end).

Definition pnet_bprop (gw : gworks) (gwo : list R -> list R -> list R * list R) (m : nat) (X Y : list R) (x : pnet) (post : pnet -> Prop) : Prop :=
  let P := below m X (p_hid x) in
  match (do a0 <- match p_hid x with
                  | [] => deform 0 0 (mkB 0 0 (fst (p_buf x)))
                  | (l, _) :: _ => deform m (neurons l) (mkB 0 0 (fst (p_buf x)))
                  end;
         do _ <- guard ((length P =? m * (p_inc x + 1)) && (length (p_W x) =? p_n x * (p_inc x + 1)) &&
                        (length (p_A x) =? m * p_n x) && (length Y =? m * p_n x));
         let z := map (fun q => outp_dLdZ (p_out x) (fst q) (snd q)) (combine Y (p_A x)) in
         do a0 <- match p_hid x with
                  | [] => Some a0
                  | _ => do _ <- guard (shaped m (p_inc x) a0); put a0 (gemm false false m (p_inc x) (p_n x) 1%R z m (p_W x) (p_n x))
                  end;
         Some (z, a0)) with
  | Some (z, a0) =>
      let g := gemm true false (p_n x) (p_inc x + 1) m (1 / INR m)%R z m P m in
      psbprop gw m X (a0, mkB 0 0 (snd (p_buf x))) false (p_hid x) (fun h arr =>
        post (mkPN h (p_out x) (p_inc x) (p_n x) (fst (gwo (p_W x) g)) g z (b_d (fst arr), b_d (snd arr))))
  | None => False
  end.

(** calcLossAddendum with nothing cached, layers.h 283-297: the layers from the lowest
    up; extender.h 142-148 (no regularizers of weights) *)
Fixpoint calcLossAddendum (m : nat) (s : pstack) (post : R -> Prop) : Prop :=
  match s with
  | [] => post 0%R
  | (l, las) :: b => calcLossAddendum m b (fun r =>
      pab_lossAddendum th pool las m (neurons l) (acts l) t 0%R (fun v => post (r + v)%R))
  end.
End K.
