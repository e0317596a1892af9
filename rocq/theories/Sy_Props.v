(** Properties C123-C126: the spin lock and the timed waits. *)
From Verif Require Import Base BaseLemmas Sy_Model Sy_Spec Sy_Proofs.

(** ** C123: at most one thread holds the lock, and no update made under it is lost. *)
Theorem C123_excludes : forall n sch,
  let s := srun sch (sinit n) in
  (forall i j p q, at_pc s i p -> at_pc s j q -> holds p -> holds q -> i = j) /\
  ((forall i p, at_pc s i p -> ~ holds p) -> s_x s = s_done s).
Proof. exact lock_excludes. Qed.
Print Assumptions C123_excludes.

(** Whoever waits for the lock can get it, whatever happened before: there is no deadlock. *)
Theorem C123_progress : forall n sch i p,
  let s := srun sch (sinit n) in
  at_pc s i p -> waits p ->
  exists sch', length sch' <= 5 /\ at_pc (srun sch' s) i Locked.
Proof. exact lock_progress. Qed.
Print Assumptions C123_progress.

Example C123_ex :
  let sch := [(0, false); (1, true); (2, false); (1, true); (0, false); (2, false); (1, false); (0, false); (1, false); (1, false); (2, false); (0, true)] in
  let s := srun sch (sinit 3) in
  s_flag s = true /\ s_x s = 1 /\ s_done s = 1 /\ s_pcs s = [Spin false; Idle; Locked].
Proof. vm_compute. auto. Qed.
Example C123_progress_ex :
  at_pc (srun [(0, false); (1, true); (1, true); (0, true)] (sinit 2)) 0 (Spin false) /\
  at_pc (srun [(1, false); (1, false); (1, false); (0, false)] (srun [(0, false); (1, true); (1, true); (0, true)] (sinit 2))) 0 Locked.
Proof. vm_compute. auto. Qed.

(** ** C124: whoever waits for the lock gets it, if every thread runs again and again.
    Refuted: a thread may find the lock taken each time it looks, while the others go on. *)
Theorem C124_starvation_refuted : exists n f i, fair n f /\ i < n /\ at_pc (sat f 1 (sinit n)) i (Spin false) /\
  (forall k p, at_pc (sat f k (sinit n)) i p -> ~ holds p) /\ (forall b, exists k, b <= s_done (sat f k (sinit n))).
Proof. exact lock_starves. Qed.
Print Assumptions C124_starvation_refuted.

(** ** C125: timed waits.
    Refuted: the status tells the opposite, and a wait with a predicate has no time limit. *)
Theorem C125_timed_refuted :
  (exists t0 rel t1, (0 < rel)%Z /\ (t0 <= t1)%Z /\ status_spec t0 rel t1 = no_timeout /\ wait_for t0 rel t1 = timeout) /\
  (exists t0 rel t1, (0 < rel)%Z /\ (t0 <= t1)%Z /\ status_spec t0 rel t1 = timeout /\ wait_for t0 rel t1 = no_timeout) /\
  (exists pr ev rel, (0 < rel)%Z /\ (forall k, ev (S k) = ev k + rel)%Z /\ forall fuel, wait_for_pred pr ev rel fuel = None).
Proof.
  split; [exists 0%Z, 10%Z, 3%Z; vm_compute; repeat split; congruence|].
  split; [exists 0%Z, 10%Z, 10%Z; vm_compute; repeat split; congruence|].
  exists (fun _ => false), (fun k => (Z.of_nat k * 10)%Z), 10%Z. split; [lia|]. split; [intros k; lia|].
  intros fuel. apply (wait_loop_spec (fun _ => false) (fun k => (Z.of_nat k * 10)%Z) 10%Z fuel 0 no_timeout). reflexivity.
Qed.
Print Assumptions C125_timed_refuted.

(** What is left: the status is always the opposite of the right one; a wait with a predicate
    returns (and then always true) as soon as an evaluation of the predicate gives true, and
    not otherwise. *)
Theorem C125_timed_partial :
  (forall t0 rel t1, wait_for t0 rel t1 = timeout <-> status_spec t0 rel t1 = no_timeout) /\
  (forall pr ev rel,
    (forall fuel b m, wait_for_pred pr ev rel fuel = Some (b, m) -> b = true /\ pr m = true /\ forall j, j < m -> pr j = false) /\
    ((exists fuel, wait_for_pred pr ev rel fuel <> None) <-> exists m, pr m = true)).
Proof. split; [exact status_inverted|exact wait_pred_spec]. Qed.
Print Assumptions C125_timed_partial.

Example C125_ex :
  wait_for_pred (fun k => k =? 3) (fun k => (Z.of_nat k * 10)%Z) 10%Z 10 = Some (true, 3) /\
  wait_for_pred (fun k => k =? 3) (fun k => (Z.of_nat k * 4)%Z) 10%Z 10 = Some (true, 3).
Proof. vm_compute. auto. Qed.

(** ** C126: a background thread that is waiting notices a task within twice its timeout after
    the registration, if the system wakes it at most [late] after the time it asked for,
    however often it is woken in between. *)
Theorem C126_latency : forall (reg : Z -> bool) (ev : nat -> Z) (rel late T : Z),
  (0 < rel)%Z -> (0 <= late)%Z -> (ev 0%nat <= T)%Z ->
  (forall k, (ev k <= ev (S k) <= ev k + rel + late)%Z) ->
  (forall B, exists k, (B < ev k)%Z) ->
  (forall t, (T <= t)%Z -> reg t = true) ->
  exists fuel m, wait_for_pred (worker_pred reg ev rel) ev rel fuel = Some (true, m) /\ (ev m <= T + 2 * rel + late)%Z.
Proof. exact worker_latency. Qed.
Print Assumptions C126_latency.

(** Registered right after the wait began, woken at odd times: noticed at 22 *)
Example C126_ex :
  let ev := fun k => (Z.of_nat k * 11)%Z in
  let reg := fun t => (1 <=? t)%Z in
  wait_for_pred (worker_pred reg ev 10) ev 10 10 = Some (true, 1) /\
  wait_for_pred (worker_pred (fun t => (12 <=? t)%Z) ev 10) ev 10 10 = Some (true, 2) /\
  (forall k, (ev k <= ev (S k) <= ev k + 10 + 1)%Z) /\ (forall B, exists k, (B < ev k)%Z).
Proof.
  cbn zeta. split; [vm_compute; reflexivity|]. split; [vm_compute; reflexivity|]. split; [intros k; lia|].
  intros B. exists (Z.to_nat (Z.abs B + 1)). lia.
Qed.
