(** What guards of priorities are for. *)
From Verif Require Import Base Pw_Model.

(** The same priorities *)
Definition same (s s' : os) : Prop :=
  os_class s' = os_class s /\ os_main s' = os_main s /\ os_wrk s' = os_wrk s.
(** All threads have the priority of the calling one *)
Definition uniform (s : os) : Prop := forall i p, nth_error (os_wrk s) i = Some p -> p = os_main s.
(** Something done meanwhile that may change any priority, but not the number of threads *)
Definition body := os -> os.
Definition keeps_threads (f : body) : Prop := forall s, length (os_wrk (f s)) = length (os_wrk s).

(** Guards for all threads, each within the previous one *)
Fixpoint nested (ok okr : nat -> bool) (gs : list (bool * mode)) (s : os) : os :=
  match gs with
  | [] => s
  | (gets, md) :: gs' =>
      let '(g, s1) := construct ok okr gets md true s in
      destruct_guard okr g (nested ok okr gs' s1)
  end.
