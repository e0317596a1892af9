(** [layer_settings]: settings kept per layer index.  nntl/utils/layers_settings.h.

    The nodes of the lists live in one heap, so that an iterator kept in a map can refer to
    a node of another object or to one that does not exist any more; objects are numbered.
    Not modelled: set_default() (78-83) has no return statement although its return type is
    not void; [set_default] is the effect of its three lines. *)
From Verif Require Import Base.

Section L.
Context {V : Type}.

(** m_keeper (the nodes in order) and m_map (layer index, iterator) *)
Record obj := mkO { o_keeper : list nat; o_map : list (nat * nat) }.
Record world := mkW { w_heap : nat -> option V; w_next : nat; w_objs : list (option obj) }.
Definition w_init : world := mkW (fun _ => None) 0 [].

Definition h_set (h : nat -> option V) (i : nat) (v : option V) : nat -> option V :=
  fun k => if k =? i then v else h k.
Definition w_obj w o : option obj := do x <- nth_error (w_objs w) o; x.
Definition w_put w o (x : option obj) : world := mkW (w_heap w) (w_next w) (upd (w_objs w) o x).
(** a new node *)
Definition w_new w (v : V) : nat * world :=
  (w_next w, mkW (h_set (w_heap w) (w_next w) (Some v)) (S (w_next w)) (w_objs w)).
Definition w_free w (i : nat) : world := mkW (h_set (w_heap w) i None) (w_next w) (w_objs w).

Fixpoint m_find (m : list (nat * nat)) (k : nat) : option nat :=
  match m with [] => None | (k', i) :: m' => if k' =? k then Some i else m_find m' k end.
Definition m_set (m : list (nat * nat)) (k i : nat) : list (nat * nat) :=
  (k, i) :: filter (fun e => negb (fst e =? k)) m.
Definition remove_node (l : list nat) (i : nat) : list nat := filter (fun k => negb (k =? i)) l.

(** layers_settings.h:66-72: a new object *)
Definition construct w (def : V) : nat * world :=
  let '(i, w) := w_new w def in
  (length (w_objs w), mkW (w_heap w) (w_next w) (w_objs w ++ [Some (mkO [i] [])])).

(** 74-76 *)
Definition get_default w o : option V :=
  do x <- w_obj w o; do i <- hd_error (o_keeper x); w_heap w i.
(** 85-90 *)
Definition get w o (idx : nat) : option V :=
  do x <- w_obj w o;
  match m_find (o_map x) idx with
  | None => get_default w o
  | Some i => w_heap w i
  end.
(** 78-82 *)
Definition set_default w o (def : V) : option world :=
  do x <- w_obj w o;
  let '(w, k) := match o_keeper x with [] => (w, []) | i :: k => (w_free w i, k) end in
  let '(i, w) := w_new w def in
  Some (w_put w o (Some (mkO (i :: k) (o_map x)))).

(** 92-96; [f] changes the setting it is given.  The settings visited, in order. *)
Fixpoint each (f : V -> V) (l : list nat) (h : nat -> option V) : option (list V * (nat -> option V)) :=
  match l with
  | [] => Some ([], h)
  | i :: l' => do v <- h i; do (vs, h') <- each f l' (h_set h i (Some (f v))); Some (v :: vs, h')
  end.
Definition for_each w o (f : V -> V) : option (list V * world) :=
  do x <- w_obj w o;
  do _ <- guard (negb (match o_keeper x with [] => true | _ => false end));
  do (vs, h) <- each f (o_keeper x) (w_heap w);
  Some (vs, mkW h (w_next w) (w_objs w)).

(** 98-108; erasing with an iterator of another list, or with one of an erased node, is
    undefined *)
Definition add w o (idx : nat) (s : V) : option world :=
  do x <- w_obj w o;
  do _ <- guard (negb (match o_keeper x with [] => true | _ => false end));
  do (w, k) <- match m_find (o_map x) idx with
               | None => Some (w, o_keeper x)
               | Some i => do _ <- guard (existsb (Nat.eqb i) (o_keeper x));
                           Some (w_free w i, remove_node (o_keeper x) i)
               end;
  let '(i, w) := w_new w s in
  Some (w_put w o (Some (mkO (k ++ [i]) (m_set (o_map x) idx i)))).

(** The implicit copy constructor: std::list copies its nodes, std::map copies the iterators *)
Fixpoint copy_nodes (l : list nat) w : option (list nat * world) :=
  match l with
  | [] => Some ([], w)
  | i :: l' => do v <- w_heap w i; let '(k, w) := w_new w v in do (ks, w) <- copy_nodes l' w; Some (k :: ks, w)
  end.
Definition copy w o : option (nat * world) :=
  do x <- w_obj w o;
  do (ks, w) <- copy_nodes (o_keeper x) w;
  Some (length (w_objs w), mkW (w_heap w) (w_next w) (w_objs w ++ [Some (mkO ks (o_map x))])).
(** 65 *)
Definition destroy w o : option world :=
  do x <- w_obj w o; Some (w_put (fold_left w_free (o_keeper x) w) o None).
End L.
Arguments world : clear implicits. Arguments w_init : clear implicits.
