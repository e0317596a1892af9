(** What the classification evaluators are expected to count. *)
From Verif Require Import Base Workers_Model Kern_Model Kern_Spec IdxMax_Spec Smx_Model Smx_Spec TData_Model TData_Spec Ev_Model.

(** how many i < n (pairs i < r, j < c) satisfy p *)
Definition count_if (p : nat -> bool) (n : nat) : nat := length (filter p (seq 0 n)).
Definition count_pairs (p : nat -> nat -> bool) (r c : nat) : nat :=
  length (filter (fun ij => p (fst ij) (snd ij)) (list_prod (seq 0 r) (seq 0 c))).

Section S.
Context {A B : Type} (oneA : A) (gt : B -> B -> bool).

(** Samples a walk over [N] samples in batches of [n] shows (C12) *)
Definition shown (N n : nat) : nat := if N mod n =? 1 then N - 1 else N.

(** column j holds a maximum of the w values f *)
Definition is_argmax (w : nat) (f : nat -> B) (j : nat) : Prop := j < w /\ forall i, i < w -> gt (f i) (f j) = false.

(** [f i j]: element j of sample i *)
Definition truth (m : smx B) (f : nat -> nat -> B) : Prop :=
  forall i j, i < batch_size m -> j < sample_size m -> cell m i j = Some (f i j).

(** activations of an output layer with w neurons for m samples: P 0, P 1, .. *)
Definition activations (a : smx B) (m w : nat) (P : nat -> nat -> B) : Prop :=
  s_rows a = m /\ s_cols a = w /\ s_bias a = false /\ well_alloc a /\
  forall i j, i < m -> j < w -> cell a i j = Some (P i j).

(** For each batch of a walk over set [id] in batches of [n], the network produces the
    rows of [P] that belong to the samples of the batch. *)
Definition predicts (net : nat -> smx A -> option (smx B)) (S : sets A B) (id n w : nat) (P : nat -> nat -> B) : Prop :=
  forall bi x m, m = Nat.min n (cnt S id - n * bi) -> 0 < m ->
    holds oneA x (set_x S id) (seq (n * bi) m) ->
    exists a, net bi x = Some a /\ activations a m w (fun i => P (n * bi + i)).

(** The math object works: threads write in some order, the pool is numbered as the
    constructor does, the temporary memory suffices for [maxBS] rows. *)
Definition mth_ok (k : mth B) : Prop :=
  (forall trs, interleaving trs (k_sched k trs)) /\ (forall trs, interleaving trs (k_schedP k trs)) /\ pool_ok (k_pool k).
Definition roomy (maxBS : nat) (k : mth B) : Prop := maxBS * (length (k_pool k) + 1) <= length (k_tmp k).

(** ** Use of an observer after its initialisation *)
Section U.
Context {Ev : Type} (prepare : Ev -> Ev) (total : smx B -> nat)
        (correct : mth B -> Ev -> nat -> smx B -> smx B -> option (nat * Ev)).
Context (oneB : B) (S : sets A B) (fp tb maxBS nsets : nat).

(** one batch of a supplementary data set *)
Definition extra_batch (b : mth B * smx B * smx B) (m : nat) (P Y : nat -> nat -> B) : Prop :=
  let '(k, acts, y) := b in
  mth_ok k /\ roomy maxBS k /\ 0 < m <= maxBS /\
  activations acts m (yWidth S) P /\ activations y m (yWidth S) Y.

(** The states of the data object and the evaluator that are reached from [t0], [e0] by
    any use of the data object that respects its documentation, by reporting the two
    main sets and by reporting supplementary sets. *)
Inductive used (t0 : tds A B) (e0 : Ev) : tds A B -> Ev -> Prop :=
| used_start : used t0 e0 t0 e0
| used_data t e os bs t' : used t0 e0 t e -> allowed_run oneA oneB S fp tb t Idle os ->
    run oneA S t os = Some (bs, t') -> used t0 e0 t' e
| used_report t o id ims ks net P ibs t' o' : used t0 e0 t (o_ev o) ->
    id < 2 -> (forall b, im_ok (ims b)) -> (forall b, mth_ok (ks b) /\ roomy maxBS (ks b)) ->
    predicts net S id (Nat.min fp (cnt S id)) (yWidth S) P ->
    report_walk prepare total correct oneA ims ks net ibs S t o id = Some (t', o') -> used t0 e0 t' (o_ev o')
| used_extra t o id batches o' : used t0 e0 t (o_ev o) -> 2 <= id -> 2 < nsets ->
    Forall (fun b => exists m P Y, extra_batch b m P Y) batches ->
    report_set prepare total correct o id batches = Some o' -> used t0 e0 t (o_ev o').
End U.

(** [r'] is [r] with entry [id] replaced *)
Definition only_entry {T} (id : nat) (v : T) (r r' : list T) : Prop :=
  length r' = length r /\ nth_error r' id = Some v /\ forall j, j <> id -> nth_error r' j = nth_error r j.

(** storage owned by the matrix, no biases *)
Definition plain {X} (s : smx X) : Prop := s_bias s = false /\ s_ext s = false /\ s_bir s = false.
End S.
