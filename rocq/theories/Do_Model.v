(** Networks whose hidden layers have dropout and penalties of their activations:
    nntl/layer/extender.h (_LEx), nntl/dropout/dropout.h, alpha_dropout.h, nntl/layers.h.

    Every layer of layers.h is a layer of Net_Model with a list of penalties and a
    dropout.  Simplifications as in Net_Model, La_Model and Drop_Model; penalties and
    dropout inside of packs and over gated packs are not modelled.  What the generator
    of random numbers delivers on the next forward propagation is a field of the
    dropout.  Read: [post] holds of the result; [False] in place of undefined
    behaviour. *)
From Coq Require Import Reals Bool.
From Verif Require Import Base Act_Model Workers_Model Kern_Model Net_Model La_Model Drop_Model.
Local Open Scope nat_scope.

(** m_dropoutPercentActive, what gen_matrix_norm will deliver, the storages of
    m_dropoutMask and m_origActivations; dropout.h 52-58 *)
Record dst := mkDS { d_kind : dkind; d_p : R; d_rnd : list R; d_mask : list R; d_orig : list R }.
(** [None]: NoDropout *)
Record hid := mkH { h_l : layer; h_las : list adn; h_do : option dst }.
(** from the topmost hidden layer down *)
Definition dstack := list hid.
Record dnet := mkDN { d_hid : dstack; d_out : outp; d_inc : nat; d_n : nat;
  d_W : list R; d_G : list R; d_A : list R; d_buf : list R * list R }.

(** a copy into the storage get_activations() refers to *)
Fixpoint set_acts (m : nat) (A : list R) (l : layer) : layer :=
  match l with
  | LFC id a inc n W G _ => LFC id a inc n W G A
  | LI n _ => LI n A
  | LPV s => LPV (match s with SOne l => SOne (set_acts m A l) | SCons l b => SCons (set_acts m A l) b end)
  | LPH inc h b1 b2 => LPH inc (hset_acts m A h) b1 b2
  | LPT k l inn _ => LPT k l inn A
  end
with hset_acts (m : nat) (A : list R) (h : hpack) : hpack :=
  match h with
  | HNil => HNil
  | HCons ofs cnt l h => HCons ofs cnt (set_acts m (firstn (m * neurons l) A) l) (hset_acts m (skipn (m * neurons l) A) h)
  end.

(** the separate storages as one array of records, see Drop_Model *)
Definition cells (n : nat) (A K O D : list R) : list xcell :=
  map (fun q => mkX (nth q A 0%R) (nth q K 0%R) (nth q O 0%R) (nth q D 0%R)) (seq 0 n).

Definition dbelow (m : nat) (X : list R) (b : dstack) : list R :=
  match b with [] => X | h :: _ => biased m (acts (h_l h)) end.

Section K.
Context (th : lthr) (thd thm : nat) (pool : list prange) (t : tmem).

(** extender.h 262-268 _fprop4Dropout; dropout.h 217-237, 166 bDropout; [tr]: training mode *)
Definition do_apply (tr : bool) (m : nat) (l : layer) (d : option dst) (post : layer -> option dst -> Prop) : Prop :=
  match d with
  | None => post l None
  | Some e =>
      if Rlt_dec (d_p e) 1 then
        if tr then
          let n := m * neurons l in
          n <= length (d_mask e) /\ n <= length (d_orig e) /\ length (acts l) = n /\
          dropout_apply (d_kind e) pool thd n (d_p e) (d_rnd e) (cells n (acts l) (d_mask e) (d_orig e) []) (fun c =>
            post (set_acts m (map x_act c) l)
              (Some (mkDS (d_kind e) (d_p e) (d_rnd e) (overwrite 0 (map x_mask c) (d_mask e)) (overwrite 0 (map x_orig c) (d_orig e)))))
        else post l d
      else post l d
  end.

(** extender.h 311-321 _update_dLdA4Dropout; dropout.h 144-158.  [D]: the storage of dL/dA *)
Definition do_restore (m : nat) (l : layer) (d : option dst) (D : list R) (post : layer -> list R -> Prop) : Prop :=
  match d with
  | None => post l D
  | Some e =>
      if Rlt_dec (d_p e) 1 then
        let n := m * neurons l in
        n <= length (d_mask e) /\ n <= length (d_orig e) /\ length (acts l) = n /\ n <= length D /\
        dropout_restore pool thm n (cells n (acts l) (d_mask e) (d_orig e) D) (fun c =>
          post (set_acts m (map x_act c) l) (overwrite 0 (map x_dl c) D))
      else post l D
  end.

(** fprop: extender.h 276-281, 245-251 _fprop4PA; layers.h 304-314 *)
Fixpoint dsfprop (tr : bool) (m : nat) (X : list R) (s : dstack) (post : dstack -> Prop) : Prop :=
  match s with
  | [] => post []
  | h :: b => dsfprop tr m X b (fun b' =>
      match fprop m (dbelow m X b') (h_l h) with
      | Some l1 =>
          let k := fun las' => do_apply tr m l1 (h_do h) (fun l2 d' => post (mkH l2 las' d' :: b')) in
          if tr then pab_fprop th pool (h_las h) m (neurons l1) (acts l1) t k else k (h_las h)
      | None => False
      end)
  end.

(** bprop: extender.h 326-346; layers.h 317-354 *)
Fixpoint dsbprop (gw : gworks) (m : nat) (X : list R) (arr : dbuf * dbuf) (idx : bool) (s : dstack)
  (post : dstack -> dbuf * dbuf -> Prop) : Prop :=
  match s with
  | [] => post [] arr
  | h :: b =>
      let cur := bsel idx arr in
      do_restore m (h_l h) (h_do h) (b_d cur) (fun l D0 =>
      pab_update_dLdA th pool (h_las h) m (neurons l) (acts l) D0 t (fun D =>
        match (do nxt <- match b with
                         | [] => deform 0 0 (bsel (negb idx) arr)
                         | hb :: _ => deform m (neurons (h_l hb)) (bsel (negb idx) arr)
                         end;
               bprop gw m (dbelow m X b) match b with [] => false | _ => true end (mkB (b_r cur) (b_c cur) D) nxt l) with
        | Some (l', d, e, alt) =>
            dsbprop gw m X (barr idx d e) (xorb idx alt) b (fun b' arr' => post (mkH l' (h_las h) (h_do h) :: b') arr')
        | None => False
        end))
  end.

(** the output layer has neither (extender.h 81) *)
Definition dnet_fprop (tr : bool) (m : nat) (X : list R) (x : dnet) (post : dnet -> Prop) : Prop :=
  dsfprop tr m X (d_hid x) (fun h =>
    let P := dbelow m X h in
    match guard ((length P =? m * (d_inc x + 1)) && (length (d_W x) =? d_n x * (d_inc x + 1))) with
    | Some _ => post (mkDN h (d_out x) (d_inc x) (d_n x) (d_W x) (d_G x)
        (map (act_f (outp_act (d_out x))) (gemm false true m (d_n x) (d_inc x + 1) 1%R P m (d_W x) (d_n x))) (d_buf x))
    | None => False
    end).

Definition dnet_bprop (gw : gworks) (gwo : list R -> list R -> list R * list R) (m : nat) (X Y : list R) (x : dnet) (post : dnet -> Prop) : Prop :=
  let P := dbelow m X (d_hid x) in
  match (do a0 <- match d_hid x with
                  | [] => deform 0 0 (mkB 0 0 (fst (d_buf x)))
                  | h :: _ => deform m (neurons (h_l h)) (mkB 0 0 (fst (d_buf x)))
                  end;
         do _ <- guard ((length P =? m * (d_inc x + 1)) && (length (d_W x) =? d_n x * (d_inc x + 1)) &&
                        (length (d_A x) =? m * d_n x) && (length Y =? m * d_n x));
         let z := map (fun q => outp_dLdZ (d_out x) (fst q) (snd q)) (combine Y (d_A x)) in
         do a0 <- match d_hid x with
                  | [] => Some a0
                  | _ => do _ <- guard (shaped m (d_inc x) a0); put a0 (gemm false false m (d_inc x) (d_n x) 1%R z m (d_W x) (d_n x))
                  end;
         Some (z, a0)) with
  | Some (z, a0) =>
      let g := gemm true false (d_n x) (d_inc x + 1) m (1 / INR m)%R z m P m in
      dsbprop gw m X (a0, mkB 0 0 (snd (d_buf x))) false (d_hid x) (fun h arr =>
        post (mkDN h (d_out x) (d_inc x) (d_n x) (fst (gwo (d_W x) g)) g z (b_d (fst arr), b_d (snd arr))))
  | None => False
  end.
End K.
