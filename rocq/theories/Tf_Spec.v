(** What is expected of training data made at run time out of stored data. *)
From Coq Require Import Reals Permutation.
From Verif Require Import Base Act_Spec TData_Model TData_Spec Nrm_Model Nrm_Spec Tf_Model.
Local Open Scope nat_scope.

Section S.
Context {Y FS : Type}.
Notation tfun := (tfun Y FS). Notation td := (td FS).
(** a sample: the values of x, and y *)
Notation sample := (list R * Y)%type.

(** ** The transformation *)
(** [D]: samples, in any order; what is excluded (flag 1: x, 2: y) may be anything *)
Definition shows (flag : nat) (x : option (list (list R))) (y : option (list Y)) (D : list sample) : Prop :=
  if flag =? 1 then exists ys, y = Some ys /\ Permutation ys (map snd D)
  else if flag =? 2 then exists xs, x = Some xs /\ Permutation xs (map fst D)
  else exists xs ys, x = Some xs /\ y = Some ys /\ length xs = length ys /\ Permutation (combine xs ys) D.

(** The states of a transformation, as far as its user is concerned: prepared for batches of
    up to [n] base samples; in an epoch with batches of [b] base samples; in a walk over a
    set with batches of at most [b], with an exclusion. *)
Record protocol := mkPr { ready : nat -> FS -> Prop; training : nat -> FS -> Prop; walking : nat -> nat -> nat -> FS -> Prop }.

(** The transformation respects the documented interface: the base sample [i] of the set [id]
    ([st_cnt st id] base samples) is turned into the samples [derive id i], [f_sibs] many, in every
    batch the base sample belongs to. *)
Record conforms (F : tfun) (st : stor) (derive : nat -> nat -> list sample) (Q : protocol) : Prop := mkCf {
  cf_sibs : 0 < f_sibs F;
  cf_stor : st_empty st = false -> forall id, id < 2 -> 0 < st_cnt st id;
  cf_count : forall id, id < 2 -> f_count F id = st_cnt st id;
  cf_derive : forall id i, id < 2 -> i < st_cnt st id -> length (derive id i) = f_sibs F /\ Forall (fun s => length (fst s) = f_xw F) (derive id i);
  cf_init : forall M s s', 0 < M -> f_init F M s = (true, s') -> ready Q M s';
  cf_epoch : forall M e b s, ready Q M s -> 0 < b <= M -> ready Q M (f_epoch F e b s) /\ training Q b (f_epoch F e b s);
  cf_batch : forall M k ids b s, ready Q M s -> training Q b s -> length ids = b -> Forall (fun i => i < st_cnt st 0) ids ->
    exists s', f_batch F k ids b s = Some s' /\ ready Q M s' /\ training Q b s' /\ shows 0 (f_X F s') (f_Y F s') (flat_map (derive 0) ids);
  cf_walk : forall M id b flag s, ready Q M s -> id < 2 -> 0 < b <= M ->
    ready Q M (f_walk F id b flag s) /\ walking Q id b flag (f_walk F id b flag s);
  cf_next : forall M id b flag k c o s, ready Q M s -> walking Q id b flag s -> 0 < c <= b -> o + c <= st_cnt st id ->
    exists s', f_next F id k c o flag s = Some s' /\ ready Q M s' /\ walking Q id b flag s' /\
      shows flag (f_X F s') (f_Y F s') (flat_map (derive id) (seq o c));
  (* the caller may change the values of x in place *)
  cf_setX : forall x x' s, f_X F s = Some x -> length x' = length x ->
    f_X F (f_setX F x' s) = Some x' /\ f_Y F (f_setX F x' s) = f_Y F s /\
    (forall M, ready Q M s -> ready Q M (f_setX F x' s)) /\ (forall b, training Q b s -> training Q b (f_setX F x' s)) /\
    (forall id b flag, walking Q id b flag s -> walking Q id b flag (f_setX F x' s)) }.

(** ** Calls and what they show *)
Inductive top :=
| TEpoch (e : nat) (rv : nat -> nat) (ibs : nat) (bs : Z)  (* on_next_epoch *)
| TBatch (k : nat)                                         (* on_next_batch, then batchX / batchY *)
| TWalk (id ibs : nat) (bs : Z) (flag : nat)               (* walk_over_set *)
| TNext (k : nat).                                         (* next_subset, then batchX / batchY *)
Inductive tobs := TNum (n : nat) | TData (x : option (list (list R))) (y : option (list Y)).

Section F.
Context (F : tfun) (st : stor).
Definition tstep (t : td) (o : top) : option (tobs * td) :=
  match o with
  | TEpoch e rv ibs bs => do (n, t) <- on_next_epoch F t e rv ibs bs; Some (TNum n, t)
  | TBatch k => do t <- on_next_batch F t k; Some (TData (batchX F t) (batchY F t), t)
  | TWalk id ibs bs flag => do (n, t) <- walk_over_set F t id ibs bs flag; Some (TNum n, t)
  | TNext k => do t <- next_subset F st t k; Some (TData (batchX F t) (batchY F t), t)
  end.
Fixpoint trun (t : td) (os : list top) : option (list tobs * td) :=
  match os with
  | [] => Some ([], t)
  | o :: os => do (b, t) <- tstep t o; do (bs, t) <- trun t os; Some (b :: bs, t)
  end.

(** ** What they should show *)
Inductive tphase := PIdle | PTrain (b : nat) (perm : list nat) | PWalk (id b flag : nat).
Context (derive : nat -> nat -> list sample).
(** all values of a column go through the same affine map *)
Definition affine (a b : nat -> R) (row : list R) : list R := map (fun j => (a j * nth j row 0 + b j)%R) (seq 0 (length row)).
Definition seen_as (a b : nat -> R) (D : list sample) : list sample := map (fun s => (affine a b (fst s), snd s)) D.
(** number of batches of a walk over [n] base samples, [b] of them in a batch, [s] samples
    for each: one for the remainder, unless that is a single sample *)
Definition walks (s n b : nat) : nat := n / b + (if 1 <? s * (n mod b) then 1 else 0).

Definition tallowed (fp tb : nat) (ph : tphase) (o : top) : Prop :=
  match o, ph with
  | TEpoch e rv ibs bs, _ => rng_ok rv /\ 0 < asked tb ibs bs <= tb /\ asked tb ibs bs mod f_sibs F = 0
  | TBatch k, PTrain b _ => k < st_cnt st 0 / b
  | TWalk id ibs bs flag, _ => id < 2 /\ 0 < asked fp ibs bs <= fp /\ asked fp ibs bs mod f_sibs F = 0
  | TNext k, PWalk id b _ => k < walks (f_sibs F) (st_cnt st id) b
  | _, _ => False
  end.
Definition tspec (a b : nat -> R) (fp tb : nat) (ph : tphase) (o : top) (r : tobs) (ph' : tphase) : Prop :=
  match o, ph with
  | TEpoch e rv ibs bs, _ =>
      let c := asked tb ibs bs / f_sibs F in
      exists perm, Permutation perm (seq 0 (st_cnt st 0)) /\ r = TNum (st_cnt st 0 / c) /\ ph' = PTrain c perm
  | TBatch k, PTrain c perm =>
      (exists x y, r = TData x y /\ shows 0 x y (seen_as a b (flat_map (derive 0) (slice perm c k)))) /\ ph' = ph
  | TWalk id ibs bs flag, _ =>
      let c := Nat.min (asked fp ibs bs / f_sibs F) (st_cnt st id) in
      r = TNum (walks (f_sibs F) (st_cnt st id) c) /\ ph' = PWalk id c flag
  | TNext k, PWalk id c flag =>
      (exists x y, r = TData x y /\ shows flag x y (seen_as a b (flat_map (derive id) (slice (seq 0 (st_cnt st id)) c k)))) /\ ph' = ph
  | _, _ => False
  end.
(** a history of calls that respects the documentation, and shows what it should *)
Inductive trun_allowed (fp tb : nat) : tphase -> list top -> Prop :=
| ta_nil ph : trun_allowed fp tb ph []
| ta_cons ph o os : tallowed fp tb ph o ->
    (forall a b r ph', tspec a b fp tb ph o r ph' -> trun_allowed fp tb ph' os) -> trun_allowed fp tb ph (o :: os).
Inductive trun_spec (a b : nat -> R) (fp tb : nat) : tphase -> list top -> list tobs -> tphase -> Prop :=
| ts_nil ph : trun_spec a b fp tb ph [] [] ph
| ts_cons ph o os r rs ph1 ph2 : tspec a b fp tb ph o r ph1 -> trun_spec a b fp tb ph1 os rs ph2 ->
    trun_spec a b fp tb ph (o :: os) (r :: rs) ph2.
(** the object, initialised with the sizes [fp] and [tb] (0: for inference only), shows the
    samples after the maps given by [a] and [b] *)
Definition tserves (a b : nat -> R) (t : td) (fp tb : nat) : Prop :=
  forall os, trun_allowed fp tb PIdle os -> exists rs t' ph, trun t os = Some (rs, t') /\ trun_spec a b fp tb PIdle os rs ph.

(** ** What was shown *)
(** all samples of a series of batches *)
Definition tall (rs : list tobs) : list sample :=
  flat_map (fun o => match o with TData (Some x) (Some y) => combine x y | _ => [] end) rs.
(** now, and after any initialisation, the samples are shown after the maps *)
Definition tshown (a b : nat -> R) (t : td) (h : option (nat * nat)) : Prop :=
  (forall fp tb, h = Some (fp, tb) -> tserves a b t fp tb) /\
  (forall mem mf mt fp tb mini t', init4train F st mem t mf mt = (TfSuccess, Z.of_nat fp, Z.of_nat tb, mini, t') -> tserves a b t' fp tb) /\
  (forall mf fp t', init4inference F st t mf = (TfSuccess, Z.of_nat fp, t') -> tserves a b t' fp 0).

(** ** Initialisation *)
(** the size in effect: what was asked for, or everything *)
Definition granted (asked all : nat) : nat := if (asked =? 0) || (all <? asked) then all else asked.

(** ** Normalisation *)
(** the object is initialised already, or can be initialised for the time of the normalisation *)
Definition tprepared (p : nset) (mok : bool) (t : td) (h : option (nat * nat)) : Prop :=
  h <> None \/ (fst (fst (init4inference F st (reset_normalization t) (Z.of_nat (Z.to_nat (n_bs p))))) = TfSuccess /\ mok = true).
(** number of base samples looked at; [c] in a batch *)
Definition tlooked (p : nset) (s n c : nat) : nat :=
  let m := walks s n c in Nat.min (c * (if n_bc p =? 0 then m else Nat.min m (n_bc p))) n.
Definition tsize (h : option (nat * nat)) : nat :=
  match h with Some (fp, _) => fp | None => f_sibs F * Nat.max (st_cnt st 0) (st_cnt st 1) end.
(** the samples looked at *)
Definition tbase (p : nset) (ibs : nat) (h : option (nat * nat)) : list sample :=
  flat_map (derive 0) (seq 0 (tlooked p (f_sibs F) (st_cnt st 0) (Nat.min (asked (tsize h) ibs (n_bs p) / f_sibs F) (st_cnt st 0)))).
(** the values normalised together *)
Definition tgroups (p : nset) (D : list sample) : list (list R) :=
  if n_cw p then map (fun j => map (fun s => nth j (fst s) 0%R) D) (seq 0 (f_xw F)) else [flat_map fst D].
Definition tenough (p : nset) (D : list sample) : Prop := Forall (fun l => Nat.b2n (n_adj p) < length l) (tgroups p D).
(** one try for everything that may have to be done, and one to see that it is reached *)
Definition ttries (p : nset) : nat :=
  if n_dos p && n_doc p then (if n_cw p then 3 else if Req_EM_T (n_central p) 0 then 3 else 4) else 2.
(** All values together: the mean is right, the deviation is not, and correcting it moves the
    mean away; the mean itself is not negligible. *)
Definition tdrifts (p : nset) (V : list R) : Prop :=
  n_dos p = true /\ n_doc p = true /\ dev (n_adj p) V <> 0%R /\ ~ (Rabs (dev (n_adj p) V - n_scale p) < n_stol p)%R /\
  (Rabs (mean V - n_central p) < n_ctol p)%R /\ ~ (Rabs (n_scale p / dev (n_adj p) V * mean V - n_central p) < n_ctol p)%R /\
  ~ (Rabs (mean V) < n_ctol p)%R.

(** ** Histories of an object *)
Definition tfit (p : nset) (ibs : nat) (h : option (nat * nat)) : Prop :=
  (n_bs p <= Z.of_nat (match h with Some (fp, _) => fp | None => f_sibs F * Nat.max (st_cnt st 0) (st_cnt st 1) end))%Z /\
  (Z.to_nat (n_bs p) mod f_sibs F = 0) /\
  (n_bs p = 0%Z -> 0 < ibs <= match h with Some (fp, _) => fp | None => f_sibs F * Nat.max (st_cnt st 0) (st_cnt st 1) end /\ ibs mod f_sibs F = 0).
(** [thist t (Some (fp, tb))]: initialised, with these sizes; [None]: not initialised *)
Inductive thist : td -> option (nat * nat) -> Prop :=
| th_new ex f : thist (mkTd [] 0 0 0 None ex false NNone f) None
| th_train t h mem mf mt fp tb mini t' : thist t h -> init4train F st mem t mf mt = (TfSuccess, Z.of_nat fp, Z.of_nat tb, mini, t') ->
    thist t' (Some (fp, tb))
| th_inf t h mf fp t' : thist t h -> init4inference F st t mf = (TfSuccess, Z.of_nat fp, t') -> thist t' (Some (fp, 0))
| th_deinit t h : thist t h -> thist (deinit4all F t) None
| th_reset t h : thist t h -> thist (reset_normalization t) h
| th_run t fp tb os rs t' : thist t (Some (fp, tb)) -> trun_allowed fp tb PIdle os -> trun t os = Some (rs, t') -> thist t' (Some (fp, tb))
| th_norm t h p ibs r t' : thist t h -> tfit p ibs h -> normalize_data F st p ibs true t = Some (r, t') ->
    (h = None -> is_initialized4inference F st t' 0 = None) -> thist t' h.
End F.

End S.
Arguments protocol : clear implicits.
