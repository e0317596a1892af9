(** What a JSON file describes and what a reader has to deliver, independent of the
    reader. *)
From Verif Require Import Base Smx_Model Smx_Spec TData_Model Js_Model.
From Coq Require Import String List.
Local Open Scope list_scope.

Section J.
Context {D : Type}.

(** The value [v] is a matrix of [r] rows and [c] columns with the elements [f row col]:
    an array of its columns, or, if there is only one column, the array of its elements. *)
Definition json_matrix (v : json D) (r c : nat) (f : nat -> nat -> num D) : Prop :=
  0 < r /\ 0 < c /\
  ((exists cols, v = JArr cols /\ length cols = c /\
     forall i, i < c -> exists col, nth_error cols i = Some (JArr col) /\ length col = r /\
       forall j, j < r -> nth_error col j = Some (JNum (f j i))) \/
   (c = 1 /\ exists l, v = JArr l /\ length l = r /\
     forall j, j < r -> nth_error l j = Some (JNum (f j 0)))).

(** The value of a member is that of its first occurrence. *)
Definition has_member (ms : list (string * json D)) (name : string) (v : json D) : Prop :=
  exists l1 l2, ms = l1 ++ (name, v) :: l2 /\ ~ In name (map fst l1).

(** The document describes a matrix under this name *)
Definition describes ms (name : string) r c f : Prop :=
  exists v, has_member ms name v /\ json_matrix v r c f.
Definition described ms name : Prop := exists r c f, describes ms name r c f.

(** Sizes can be represented, also with a bias *)
Definition repr (n : nat) : Prop := (Z.of_nat n + 1 <= max_vec_len)%Z.
Definition small (v : json D) : Prop :=
  forall l, v = JArr l -> repr (length l) /\ forall row l', l = JArr row :: l' -> repr (length row).
Definition small_members ms : Prop := forall name v, has_member ms name v -> small v.

Context {A : Type} (one : A) (extract : num D -> option A).

(** All the numbers can be elements of the matrix *)
Definition convertible (v : json D) : Prop :=
  forall l x, v = JArr l -> In x l ->
    (forall n, x = JNum n -> extract n <> None) /\
    (forall row n, x = JArr row -> In (JNum n) row -> extract n <> None).
Definition convertible_member ms (name : string) : Prop := forall v, has_member ms name v -> convertible v.

(** A destination that may be read into: it manages its memory, its storage (if there is any)
    is sufficient, and no allocation has failed.  To be given biases it has to be empty. *)
Definition usable (d : smx A) : Prop :=
  s_ext d = false /\ alloc_failed d = false /\ (empty d = false -> well_alloc d).
Definition no_elements (d : smx A) : Prop := s_data d = None /\ s_rows d = 0 /\ s_cols d = 0.
Definition may_read (d : smx A) (biased : bool) : Prop := usable d /\ (biased = true -> no_elements d).

(** [d'] is the described matrix, in the layout of [d], with a bias of ones iff [biased] *)
Definition holds (d d' : smx A) (biased : bool) (r c : nat) (f : nat -> nat -> num D) : Prop :=
  s_bias d' = biased /\ s_bir d' = s_bir d /\ s_ext d' = false /\
  s_rows d' = r + Nat.b2n (biased && s_bir d) /\ s_cols d' = c + Nat.b2n (biased && negb (s_bir d)) /\
  well_alloc d' /\ biases_one one d' /\
  forall j i, j < r -> i < c -> exists v, extract (f j i) = Some v /\ cell d' j i = Some v.
End J.

(** *** Train data *)
Definition order : list member := [TrainX; TrainY; TestX; TestY].
Definition name_of (m : member) : string :=
  match m with TrainX => "train_x" | TrainY => "train_y" | TestX => "test_x" | TestY => "test_y" end%string.
(** [m] is the first member, in this order, which is missing or not a matrix *)
Definition first_defective {D} (ms : list (string * json D)) (m : member) : Prop :=
  ~ described ms (name_of m) /\
  exists l1 l2, order = l1 ++ m :: l2 /\ forall m', In m' l1 -> described ms (name_of m').

(** The samples match: as many labels as samples, and test samples like train samples *)
Definition coherent {D} (ms : list (string * json D)) : Prop :=
  exists n k xw yw fx fy gx gy,
    describes ms "train_x" n xw fx /\ describes ms "train_y" n yw fy /\
    describes ms "test_x" k xw gx /\ describes ms "test_y" k yw gy.

Section T.
Context {D X Y : Type} (onex : X) (oney : Y) (exx : num D -> option X) (exy : num D -> option Y).
Definition holds_td ms (S : @sets X Y) : Prop :=
  exists n k xw yw fx fy gx gy,
    describes ms "train_x" n xw fx /\ describes ms "train_y" n yw fy /\
    describes ms "test_x" k xw gx /\ describes ms "test_y" k yw gy /\
    holds onex exx init (x0 S) true n xw fx /\ holds oney exy init (y0 S) false n yw fy /\
    holds onex exx init (x1 S) true k xw gx /\ holds oney exy init (y1 S) false k yw gy.
Definition convertible_td (ms : list (string * json D)) : Prop :=
  convertible_member exx ms "train_x" /\ convertible_member exy ms "train_y" /\
  convertible_member exx ms "test_x" /\ convertible_member exy ms "test_y".
End T.
