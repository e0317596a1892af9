(** What a client of a training data object relies on. *)
From Coq Require Import Permutation.
From Verif Require Import Base Workers_Model Kern_Model Kern_Spec Smx_Model Smx_Spec TData_Model.

(** Element [j] of sample [i] of a matrix, in either layout. *)
Definition scell {C} (m : smx C) (i j : nat) : option C := if s_bir m then cell m j i else cell m i j.

(** [b] consists of the samples of [src] with the numbers [ids], in that order; it
    has the layout of [src] and, when [src] emulates biases, biases that are ones. *)
Definition holds {C} (one : C) (b src : smx C) (ids : list nat) : Prop :=
  batch_size b = length ids /\ sample_size b = sample_size src /\
  s_bir b = s_bir src /\ s_bias b = s_bias src /\ well_alloc b /\ biases_one one b /\
  forall i k j, nth_error ids i = Some k -> j < sample_size src ->
    scell b i j = scell src k j /\ scell b i j <> None.

(** The [k]-th group of [n] entries. *)
Definition slice (l : list nat) (n k : nat) : list nat := firstn n (skipn (n * k) l).

Section S.
Context {A B : Type} (oneA : A) (oneB : B).
Notation sets := (sets A B). Notation tds := (tds A B). Notation imath := (imath A B).
Implicit Types (S : sets) (t : tds).

(** x emulates biases, y does not, as many samples in y as in x *)
Definition dataset (x : smx A) (y : smx B) : Prop :=
  well_alloc x /\ well_alloc y /\ s_bias x = true /\ biases_one oneA x /\ s_bias y = false /\
  0 < sample_size x /\ batch_size x = batch_size y.

(** Usable training data: same layouts and widths in both sets. *)
Definition coherent S : Prop :=
  dataset (x0 S) (y0 S) /\ dataset (x1 S) (y1 S) /\
  s_bir (x0 S) = s_bir (x1 S) /\ s_bir (y0 S) = s_bir (y1 S) /\
  sample_size (x0 S) = sample_size (x1 S) /\ sample_size (y0 S) = sample_size (y1 S) /\
  (Z.of_nat (batch_size (x0 S)) <= max_vec_len)%Z /\ (Z.of_nat (batch_size (x1 S)) <= max_vec_len)%Z.

Definition train_cnt S := batch_size (x0 S).
Definition set_x S id := if id =? 0 then x0 S else x1 S.
Definition set_y S id := if id =? 0 then y0 S else y1 S.
Definition cnt S id := batch_size (set_x S id).

Definition im_ok (im : imath) : Prop :=
  (forall n, 0 < n -> tiles (im_parts im n) n) /\
  (forall trs, interleaving trs (im_schedA im trs)) /\ (forall trs, interleaving trs (im_schedB im trs)).
Definition rng_ok (rv : nat -> nat) : Prop := forall k, 0 < k -> rv k < k.

(** ** Histories of calls *)
Inductive op :=
| Epoch (rv : nat -> nat) (ibs : nat) (bs : Z)        (* on_next_epoch *)
| Batch (im : imath) (bi : nat)                       (* on_next_batch, then batchX / batchY *)
| Walk (id ibs : nat) (bs : Z) (flag : nat)           (* walk_over_set *)
| Subset (im : imath) (bi : nat).                     (* next_subset, then batchX / batchY *)
(** What the client sees: a number of batches or the current batch matrices. *)
Inductive obs := ONum (n : nat) | OData (x : option (smx A)) (y : option (smx B)).

Definition step S t (o : op) : option (obs * tds) :=
  match o with
  | Epoch rv ibs bs => do (n, t') <- on_next_epoch oneA S t rv ibs bs; Some (ONum n, t')
  | Batch im bi => do t' <- on_next_batch im S t bi; Some (OData (batchX S t') (batchY S t'), t')
  | Walk id ibs bs flag => do (n, t') <- walk_over_set oneA S t id ibs bs flag; Some (ONum n, t')
  | Subset im bi => do t' <- next_subset oneA im S t bi; Some (OData (batchX S t') (batchY S t'), t')
  end.
Fixpoint run S t (os : list op) : option (list obs * tds) :=
  match os with
  | [] => Some ([], t)
  | o :: os' => do (b, t') <- step S t o; do (bs, t'') <- run S t' os'; Some (b :: bs, t'')
  end.

(** ** What it should see *)
(** the batch size in effect *)
Definition asked (dflt ibs : nat) (bs : Z) : nat :=
  if (bs <? 0)%Z then dflt else if (bs =? 0)%Z then ibs else Z.to_nat bs.
(** number of subsets a walk with batch size [b] over [n] samples has *)
Definition subsets (n b : nat) : nat := n / b + (if 1 <? n mod b then 1 else 0).

Inductive phase :=
| Idle
| Training (b : nat) (perm : list nat)       (* batch size and order of the samples *)
| Walking (id b flag next : nat).            (* data set, batch size, exclusions, next subset *)

(** What the documentation demands of the caller.  [fp], [tb]: the sizes init4train
    returned. *)
Definition allowed S t (fp tb : nat) (ph : phase) (o : op) : Prop :=
  match o, ph with
  | Epoch rv ibs bs, _ =>
      rng_ok rv /\ 0 < asked tb ibs bs <= tb /\ (tb = train_cnt S -> asked tb ibs bs = tb)
  | Batch im bi, Training b perm => im_ok im /\ bi < train_cnt S / b
  | Walk id ibs bs flag, _ =>
      id < 2 /\ 0 < asked fp ibs bs /\
      is_initialized4inference S t (asked fp ibs bs) = Some (asked fp ibs bs)
  | Subset im bi, Walking id b flag k => im_ok im /\ bi = k /\ k < subsets (cnt S id) b
  | _, _ => False
  end.

Definition spec_step S (fp tb : nat) (ph : phase) (o : op) (b : obs) (ph' : phase) : Prop :=
  match o, ph with
  | Epoch rv ibs bs, _ =>
      exists perm, Permutation perm (seq 0 (train_cnt S)) /\
      b = ONum (train_cnt S / asked tb ibs bs) /\ ph' = Training (asked tb ibs bs) perm
  | Batch im bi, Training n perm =>
      (exists bx by_, b = OData (Some bx) (Some by_) /\
         holds oneA bx (x0 S) (slice perm n bi) /\ holds oneB by_ (y0 S) (slice perm n bi)) /\ ph' = ph
  | Walk id ibs bs flag, _ =>
      let n := Nat.min (asked fp ibs bs) (cnt S id) in
      b = ONum (subsets (cnt S id) n) /\ ph' = Walking id n flag 0
  | Subset im bi, Walking id n flag k =>
      (exists ox oy, b = OData ox oy /\
         (if flag =? 1 then ox = None
          else exists bx, ox = Some bx /\ holds oneA bx (set_x S id) (slice (seq 0 (cnt S id)) n bi)) /\
         (if flag =? 2 then oy = None
          else exists by_, oy = Some by_ /\ holds oneB by_ (set_y S id) (slice (seq 0 (cnt S id)) n bi))) /\
      ph' = Walking id n flag (k + 1)
  | _, _ => False
  end.

(** A history in which the caller respects the documentation. *)
Inductive allowed_run S (fp tb : nat) : tds -> phase -> list op -> Prop :=
| ar_nil t ph : allowed_run S fp tb t ph []
| ar_cons t ph o os : allowed S t fp tb ph o ->
    (forall b t' ph', step S t o = Some (b, t') -> spec_step S fp tb ph o b ph' -> allowed_run S fp tb t' ph' os) ->
    allowed_run S fp tb t ph (o :: os).

Inductive spec_run S (fp tb : nat) : phase -> list op -> list obs -> phase -> Prop :=
| sr_nil ph : spec_run S fp tb ph [] [] ph
| sr_cons ph o os b bs ph1 ph2 : spec_step S fp tb ph o b ph1 -> spec_run S fp tb ph1 os bs ph2 ->
    spec_run S fp tb ph (o :: os) (b :: bs) ph2.
End S.
