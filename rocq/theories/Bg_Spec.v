(** What C06, C07 and C58 mean, on the log of observable events. *)
From Coq Require Import Permutation.
From Verif Require Import Base Bg_Model.

(** Number of calls of the functor of API call [n] begun / ended on thread [i]. *)
Fixpoint begun (n i : nat) (l : list event) : nat :=
  match l with
  | [] => 0
  | EvExecBegin m j :: l' => (if (m =? n) && (j =? i) then 1 else 0) + begun n i l'
  | _ :: l' => begun n i l'
  end.
Fixpoint ended (n i : nat) (l : list event) : nat :=
  match l with
  | [] => 0
  | EvExecEnd m j :: l' => (if (m =? n) && (j =? i) then 1 else 0) + ended n i l'
  | _ :: l' => ended n i l'
  end.

(** API call [n] ran its functor exactly once on each of the [N] threads (and
    on no other thread). *)
Definition once_on_each (N n : nat) (l : list event) : Prop :=
  forall i, begun n i l = (if i <? N then 1 else 0) /\ ended n i l = (if i <? N then 1 else 0).

Definition never (n : nat) (l : list event) : Prop :=
  forall i, begun n i l = 0 /\ ended n i l = 0.

(** ** Task list *)
Definition is_change (o : op) : bool := match o with OExec => false | _ => true end.

(** Tasks registered and not deleted after a sequence of API calls, in
    registration order; [k] numbers the registrations. *)
Fixpoint registered_from (k : nat) (acc : list task) (os : list op) : list task :=
  match os with
  | [] => acc
  | OAdd p :: os' => registered_from (k + 1) (acc ++ [mkT k p]) os'
  | ODelete :: os' => registered_from k [] os'
  | OExec :: os' => registered_from k acc os'
  end.
Definition registered (os : list op) : list task := registered_from 0 [] os.

Definition by_priority (ts : list task) : Prop :=
  forall i j a b, i < j -> nth_error ts i = Some a -> nth_error ts j = Some b ->
    (t_prio b <= t_prio a)%Z.

Fixpoint changes (l : list event) : nat :=
  match l with [] => 0 | EvChange _ :: l' => S (changes l') | _ :: l' => changes l' end.

(** The task list in force after a log. *)
Fixpoint in_force_from (cur : list task) (l : list event) : list task :=
  match l with
  | [] => cur
  | EvChange ts :: l' => in_force_from ts l'
  | _ :: l' => in_force_from cur l'
  end.
Definition in_force (l : list event) : list task := in_force_from [] l.

(** Results of the task calls thread [i] made in [l]. *)
Fixpoint task_calls (i : nat) (l : list event) : list (nat * bool) :=
  match l with
  | [] => []
  | EvTask j id r :: l' => if j =? i then (id, r) :: task_calls i l' else task_calls i l'
  | _ :: l' => task_calls i l'
  end.

Definition starts_pass (i : nat) (e : event) : bool :=
  match e with EvPass j _ => j =? i | _ => false end.

(** Calls made while serving the list [ts]: each task is called until it returns
    false, only then the next one is called; the result is what is left. *)
Fixpoint serve (ts : list task) (calls : list (nat * bool)) : option (list task) :=
  match calls with
  | [] => Some ts
  | (id, r) :: calls' =>
      match ts with
      | t :: ts' => if t_id t =? id then serve (if r then ts else ts') calls' else None
      | [] => None
      end
  end.

Definition real_step (l : label) : bool := match l with LSpurMain => false | _ => true end.
Definition can_step (s : state) : Prop :=
  exists l s', real_step l = true /\ step s l = Some s'.
