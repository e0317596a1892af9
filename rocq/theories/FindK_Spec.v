(** What the search for the k best values means. *)
From Coq Require Import Permutation.
From Verif Require Import Base FindK_Model.

Section F.
Context {V : Type} (lt eqv : V -> V -> bool) (bot : V).

Definition order_ok : Prop :=
  (forall a, lt a a = false) /\
  (forall a b c, lt a b = true -> lt b c = true -> lt a c = true) /\
  (forall a b, lt a b = false -> lt b a = false -> a = b) /\
  (forall a b, eqv a b = true <-> a = b).
(** an ordinary value, not the placeholder of an unused slot *)
Definition proper (v : V) : Prop := lt bot v = true.

(** worst to best, where only unused slots may repeat *)
Definition ascending_distinct (l : list V) : Prop :=
  forall i j a b, i < j -> nth_error l i = Some a -> nth_error l j = Some b -> lt a b = true \/ (a = bot /\ b = bot).
Definition ascending (l : list V) : Prop :=
  forall i j a b, i < j -> nth_error l i = Some a -> nth_error l j = Some b -> lt b a = false.

(** [c]: the k best distinct values of [src] with the rows of their first occurrences *)
Definition best_distinct (k : nat) (src : list V) (c : @column V) : Prop :=
  length (fst c) = k /\ length (snd c) = k /\ ascending_distinct (fst c) /\
  (forall j v, nth_error (fst c) j = Some v -> v = bot /\ nth_error (snd c) j = Some None \/
     exists i, nth_error (snd c) j = Some (Some i) /\ nth_error src i = Some v /\
       forall i', i' < i -> nth_error src i' <> Some v) /\
  (forall v, In v src -> In v (fst c) \/ forall w, In w (fst c) -> lt v w = true).

(** [c]: the k best values of [src], counted with multiplicity *)
Definition best (k : nat) (src : list V) (c : @column V) : Prop :=
  length (fst c) = k /\ length (snd c) = k /\ ascending (fst c) /\
  exists left_out, 
    Permutation (combine (fst c) (snd c) ++ left_out)
                (repeat (bot, None) k ++ combine src (map Some (seq 0 (length src)))) /\
    forall v i w, In (v, i) left_out -> In w (fst c) -> lt w v = false.

(** every entry names the batch and the row its value comes from *)
Definition located (batches : list (list V)) (e : @dse V) : Prop :=
  exists b i, nth_error batches (d_batch e) = Some b /\ d_idx e = Some i /\ nth_error b i = Some (d_val e).

(** enough values in the first batch, and no repetitions if the order tells them apart *)
Definition enough (ns : bool) (k : nat) (b0 : list V) (bs : list (list V)) : Prop :=
  if ns then k <= length b0 /\ NoDup (b0 ++ concat bs) /\ (forall v, In v (b0 ++ concat bs) -> proper v)
  else exists l, NoDup l /\ length l = k /\ forall v, In v l -> In v b0 /\ proper v.

End F.
