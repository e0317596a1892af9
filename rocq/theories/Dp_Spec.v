(** Which files a training leaves, and what is in them. *)
From Coq Require Import String List.
From Verif Require Import Base Smx_Model Util_Model Mf_Model Mf_Spec Dp_Model.
Import ListNotations.
Local Open Scope Z_scope.

(** The epochs asked for: those listed; the last one for those listed that do not exist; the
    last one if none is listed *)
Definition chosen (eps : list Z) (tot e : Z) : Prop :=
  List.In e eps \/ (e = tot - 1 /\ (eps = [] \/ exists x, List.In x eps /\ tot <= x)).

(** The batches asked for: batch [b] of the [nb] ones of epoch [e].  In the first epoch
    [EpochNumWFirstNLastBatch] looks at the first batches only. *)
Definition wanted (k : kind) (c : cond) (tot e b nb : Z) : Prop :=
  let last := chosen (c_epochs c) tot e /\ b = (if e =? tot - 1 then nb - 1 else 0) in
  let first := b < c_n c /\ (c_stride c | b) in
  match k with
  | EpochNum | CalcErrByEpochNum => chosen (c_epochs c) tot e /\ b = 0
  | EpochNumWLastBatch => last
  | EpochNumWFirstNLastBatch => if e =? 0 then first else last
  | CalcErrOnlyByEpochNum => False
  | FirstBatches => first
  end.
Definition wanted_err (k : kind) (c : cond) (tot e ds : Z) : Prop :=
  match k with
  | CalcErrByEpochNum | CalcErrOnlyByEpochNum => ds = 0 /\ chosen (c_epochs c) tot e
  | _ => False
  end.

(** What may be asked: no epoch before the first one; positive strides *)
Definition askable (k : kind) (c : cond) : Prop :=
  match k with
  | FirstBatches => c_n c <> 0 /\ 0 < c_stride c
  | _ => (forall e, List.In e (c_epochs c) -> 0 <= e) /\ 0 < c_stride c
  end.

(** The contents of a file.  [ok]: the layers that are dumped, [nm]: their names; [l]: the
    current layer, [own]: the fields of the structure being filled, [f]: the file.  A layer has
    a structure in the file, with the values it tells of; a layer that wraps itself has one only. *)
Section F.
Context (fwd : bool) (ok : Z -> bool) (nm : Z -> string).
Fixpoint told (c : call) (l : Z) (own f : fields) : fields * fields :=
  match c with
  | Note n v => (if ok l then store n (mx_val v) own else own, f)
  | Layer l' vin vout body =>
      if ok l' && negb (l' =? l) then
        let '(g, f) := tolds body l' (if fwd then [] else [("dLdA"%string, mx_val vin)]) f in
        (own, store (nm l') (Str (if fwd then store "A"%string (mx_val vout) g else g)) f)
      else tolds body l' own f
  end
with tolds (cs : calls) (l : Z) (own f : fields) : fields * fields :=
  match cs with
  | cnil => (own, f)
  | ccons c cs' => let '(own, f) := told c l own f in tolds cs' l own f
  end.
Definition pass_file (cs : calls) (f : fields) : fields := snd (tolds cs no_layer [] f).
End F.

(** Passes as layers make them: everything is told within a layer, layers are those of the
    network, matrices exist *)
Fixpoint call_ok (n : nat) (inl : bool) (c : call) : Prop :=
  match c with
  | Note _ v => inl = true /\ has_data v
  | Layer l vin vout body => 0 <= l < Z.of_nat n /\ has_data vin /\ has_data vout /\ calls_ok n true body
  end
with calls_ok (n : nat) (inl : bool) (l : calls) : Prop :=
  match l with cnil => True | ccons c l' => call_ok n inl c /\ calls_ok n inl l' end.
Definition report_ok n (r : report) : Prop := Forall (calls_ok n false) (fst r) /\ Forall (calls_ok n false) (snd r).
Definition epoch_ok n (x : epoch) : Prop :=
  Forall (fun b => calls_ok n false (fst b) /\ calls_ok n false (snd b)) (fst x) /\
  match snd x with Some r => report_ok n r | None => True end.

(** The files, in the order of their closing.  [W e b nb] and [WE e ds]: what is asked for. *)
Section T.
Context (ok : Z -> bool) (nm : Z -> string) (W : Z -> Z -> Z -> bool) (WE : Z -> Z -> bool).
Definition err_files (e ds : Z) (l : list calls) : list (fname * fields) :=
  if WE e ds then [(FErr (e + 1) ds, fold_left (fun f cs => pass_file true ok nm cs f) l [])] else [].
Definition report_files (e : Z) (r : report) := err_files e 0 (fst r) ++ err_files e 1 (snd r).
Fixpoint batch_files (e nb b : Z) (l : list batch) : list (fname * fields) :=
  match l with
  | [] => []
  | x :: l' =>
      (if W e b nb then [(FFwd (e + 1) b, pass_file true ok nm (fst x) []); (FBwd (e + 1) b, pass_file false ok nm (snd x) [])] else [])
      ++ batch_files e nb (b + 1) l'
  end.
Definition epoch_files (e : Z) (x : epoch) :=
  batch_files e (Z.of_nat (length (fst x))) 0 (fst x) ++ match snd x with Some r => report_files e r | None => [] end.
Fixpoint epochs_files (e : Z) (l : list epoch) :=
  match l with [] => [] | x :: l' => epoch_files e x ++ epochs_files (e + 1) l' end.
Definition train_files (r0 : report) (l : list epoch) := report_files before_start r0 ++ epochs_files 0 l.
End T.
