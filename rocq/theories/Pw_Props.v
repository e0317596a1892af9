(** Property C121: priorities of threads. *)
From Verif Require Import Base BaseLemmas Pw_Model Pw_Spec Pw_Proofs.

Definition ex_mode : mode := mkMode 128 15.
Definition ex_s : os := mkOs 32 0 [0; 0; 0]%Z 0.
(** the first [n] calls succeed *)
Definition first_n (n : nat) : nat -> bool := fun k => k <? n.

(** ** C121: a guard of priorities leaves no trace.
    Refuted: the worker threads are given the priority the calling thread had, not their own;
    so even a guard that could not raise the priorities changes them, and a guard for all threads
    within one for the calling thread leaves the workers raised. *)
Theorem C121_restores_refuted :
  (exists s s', let '(g, s1) := construct always always true ex_mode true s in
     destruct_guard always g s1 = s' /\ os_wrk s = [-1; 0]%Z /\ os_wrk s' = [0; 0]%Z) /\
  (exists s ok, let '(g, s1) := construct ok always true ex_mode true s in
     g_restore g = false /\ os_wrk s = [-1; 0]%Z /\ os_wrk s1 = [0; 0]%Z) /\
  (exists s s', let '(g, s1) := construct always always true ex_mode false s in
     let '(g2, s2) := construct always always true ex_mode true s1 in
     destruct_guard always g (destruct_guard always g2 s2) = s' /\ uniform s /\ os_wrk s = [0]%Z /\ os_wrk s' = [15]%Z).
Proof.
  split; [exists (mkOs 32 0 [-1; 0]%Z 0); eexists; vm_compute; repeat split|].
  split; [exists (mkOs 32 0 [-1; 0]%Z 0), (first_n 3); vm_compute; repeat split|].
  exists (mkOs 32 0 [0]%Z 0). eexists. cbn. split; [reflexivity|]. split; [|split; reflexivity].
  intros [|i] p; cbn; [congruence|destruct i; discriminate].
Qed.
Print Assumptions C121_restores_refuted.

(** What is missing: workers that have another priority than the calling thread; calls that restore and fail. *)
Theorem C121_restores_partial : forall ok gets md all (f : body) s,
  (all = true -> uniform s) -> keeps_threads f ->
  let '(g, s1) := construct ok always gets md all s in
  if g_restore g then
    let s2 := destruct_guard always g (f s1) in
    os_class s2 = os_class s /\ os_main s2 = os_main s /\ (if all then os_wrk s2 = os_wrk s else os_wrk s2 = os_wrk (f s1))
  else same s s1 /\ destruct_guard always g (f s1) = f s1.
Proof. exact guard_restores. Qed.
Print Assumptions C121_restores_partial.

Example C121_restores_partial_ex :
  uniform ex_s /\ keeps_threads (fun s => mkOs 64 2 (map (fun p => (p - 1)%Z) (os_wrk s)) (os_calls s)) /\
  (let '(g, s1) := construct always always true ex_mode true ex_s in
   g_restore g = true /\ os_class s1 = 128%Z /\ os_wrk s1 = [15; 15; 15]%Z) /\
  (let '(g, s1) := construct (first_n 4) always true ex_mode true ex_s in g_restore g = false /\ same ex_s s1 /\ os_calls s1 = 9).
Proof.
  split.
  { intros i p Hi. apply nth_error_In in Hi. cbn in Hi. destruct Hi as [<-|[<-|[<-|[]]]]; reflexivity. }
  split; [intros s; cbn; apply map_length|]. split; vm_compute; auto.
Qed.

Theorem C121_nested : forall ok gs s, uniform s -> same s (nested ok always gs s).
Proof. exact nested_restore. Qed.
Print Assumptions C121_nested.

Example C121_nested_ex :
  uniform ex_s /\
  (let s' := nested (fun k => negb (k =? 9)) always [(true, ex_mode); (true, mkMode 256 15); (false, ex_mode); (true, mkMode 32 0)] ex_s in
   same ex_s s' /\ 9 < os_calls s').
Proof.
  split; [intros i p Hi; apply nth_error_In in Hi; cbn in Hi; destruct Hi as [<-|[<-|[<-|[]]]]; reflexivity|].
  vm_compute. split; [auto|lia].
Qed.

(** ** C122: within the scope of a guard whose system calls succeeded the class and all the
    priorities are those of its mode; one that failed leaves the class and the priority of the
    calling thread alone. *)
Theorem C122_raised : forall ok gets md all s,
  let '(g, s1) := construct ok always gets md all s in
  (g_restore g = false -> os_class s1 = os_class s /\ os_main s1 = os_main s) /\
  (g_restore g = true -> os_class s1 = md_class md /\ os_main s1 = md_prio md /\
     os_wrk s1 = if all then repeat (md_prio md) (length (os_wrk s)) else os_wrk s) /\
  ((forall k, ok k = true) -> gets = true -> g_restore g = true).
Proof. exact raised. Qed.
Print Assumptions C122_raised.

Example C122_raised_ex :
  (let '(g, s1) := construct always always true ex_mode false ex_s in
   g_restore g = true /\ os_main s1 = 15%Z /\ os_wrk s1 = [0; 0; 0]%Z) /\
  (let '(g, s1) := construct always always true ex_mode true (mkOs 32 0 [-1; 0; 3]%Z 0) in
   g_restore g = true /\ os_main s1 = 15%Z /\ os_wrk s1 = [15; 15; 15]%Z).
Proof. vm_compute. auto 10. Qed.

(** ChangeThreadsPriorities reports success exactly when every worker was given the priority
    [below] the calling thread's; otherwise the workers before the failing one have the calling
    thread's priority, and the others their own. *)
Theorem C122_change : forall ok below s,
  let '(b, s') := change_priorities ok always below s in
  os_class s' = os_class s /\ os_main s' = os_main s /\
  (b = true <-> forall k, k < length (os_wrk s) -> ok (os_calls s + k) = true) /\
  (b = true -> os_wrk s' = repeat (os_main s - below)%Z (length (os_wrk s))) /\
  (b = false -> exists k, k < length (os_wrk s) /\ ok (os_calls s + k) = false /\
     os_wrk s' = repeat (os_main s) k ++ skipn k (os_wrk s)).
Proof. exact change_gen. Qed.
Print Assumptions C122_change.

Example C122_change_ex :
  (let '(b, s') := change_priorities always always 2 ex_s in b = true /\ os_wrk s' = [-2; -2; -2]%Z) /\
  (let '(b, s') := change_priorities (first_n 2) always 2 (mkOs 32 0 [-1; 1; 2]%Z 0) in b = false /\ os_wrk s' = [0; 0; 2]%Z).
Proof. vm_compute. auto. Qed.
