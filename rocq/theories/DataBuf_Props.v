(** C08, C09: the circular buffer of random numbers. *)
From Verif Require Import Base BaseLemmas DataBuf_Model DataBuf_Spec DataBuf_Proofs.

(** C08.  With one producer the buffer behaves, for every history of calls that
    keeps to the protocol, exactly like a bounded FIFO queue: every acquire
    succeeds iff the queue is long enough, every value read is the next produced
    and not yet released one, and every claim is granted up to the free space. *)
Theorem C08_fifo : forall A (mem : list A) os outs,
  0 < length mem -> fifo_run (length mem) one_producer fifo_empty os = Some outs ->
  sys_run (mkSys (db_new mem) None) os = Some outs.
Proof. exact @fifo_one_producer. Qed.
Print Assumptions C08_fifo.

Example C08_example :
  fifo_run 3 one_producer fifo_empty
    [Claim 2; Fill [1; 2]; Claim 5; Acquire 2; Read 0; Fill [3]; Read 1; Release 2;
     Claim 2; Fill [4; 5]; Acquire 4; Acquire 3; Read 0; Read 1; Read 2; Release 3; Acquire 1] =
  Some [OClaim 2; OUnit; OClaim 1; OAcq true; OVal 1; OUnit; OVal 2; OUnit;
        OClaim 2; OUnit; OAcq false; OAcq true; OVal 3; OVal 4; OVal 5; OUnit; OAcq false].
Proof. reflexivity. Qed.

(** Filling never touches a cell of the range the consumer holds. *)
Theorem C08_no_overlap : forall A (mem : list A) os f,
  0 < length mem -> fifo_after (length mem) one_producer fifo_empty os = Some f ->
  exists s, sys_after (mkSys (db_new mem) None) os = Some s /\
    forall n r d, f_held f = Some n -> In (length d) (f_pend f) -> y_held s = Some r ->
    exists s', sys_step s (Fill d) = Some (s', OUnit) /\
    forall i, in_range r i -> nth_error (b_mem (y_buf s')) i = nth_error (b_mem (y_buf s)) i.
Proof.
  intros A mem os f Hm. apply fill_disjoint; [|assumption]. intros g. apply one_not_all. assumption.
Qed.
Print Assumptions C08_no_overlap.

Example C08_no_overlap_example : exists f,
  fifo_after 3 one_producer fifo_empty [Claim 2; Fill [1; 2]; Claim 5; Acquire 2] = Some f /\
  f_held f = Some 2 /\ f_pend f = [1].
Proof. eexists. split; [reflexivity|]. split; reflexivity. Qed.

(** C09.  With any number of producers the same holds as long as nobody asks for
    work while the buffer is empty and already claimed as a whole. *)
Theorem C09_fifo_partial : forall A (mem : list A) os outs,
  0 < length mem -> fifo_run (length mem) (not_all_claimed (length mem)) fifo_empty os = Some outs ->
  sys_run (mkSys (db_new mem) None) os = Some outs.
Proof. exact @fifo_many_producers. Qed.
Print Assumptions C09_fifo_partial.

Example C09_example :
  fifo_run 5 (not_all_claimed 5) fifo_empty
    [Claim 2; Claim 1; Fill [1]; Claim 5; Acquire 1; Fill [2; 3]; Read 0; Release 1; Fill [4; 5]; Acquire 4; Read 3] =
  Some [OClaim 2; OClaim 1; OUnit; OClaim 2; OAcq true; OUnit; OVal 1; OUnit; OUnit; OAcq true; OVal 5].
Proof. reflexivity. Qed.

(** Without that restriction it does not: a buffer of 2 cells grants two claims of
    2 cells each, and the second fill overwrites the range the consumer is reading. *)
Theorem C09_fifo_refuted : exists (mem : list nat) os outs bad,
  0 < length mem /\ fifo_run (length mem) any_producer fifo_empty os = Some outs /\
  sys_run (mkSys (db_new mem) None) os = Some bad /\ outs <> bad.
Proof.
  exists [0; 0], [Claim 1; Fill [7]; Acquire 1; Release 1; Claim 2; Claim 2],
    [OClaim 1; OUnit; OAcq true; OUnit; OClaim 2; OClaim 0],
    [OClaim 1; OUnit; OAcq true; OUnit; OClaim 2; OClaim 2].
  split; [simpl; lia|]. split; [reflexivity|]. split; [reflexivity|discriminate].
Qed.
Print Assumptions C09_fifo_refuted.

Theorem C09_overlap_refuted : exists (mem : list nat) os,
  sys_run (mkSys (db_new mem) None) os =
    Some [OClaim 1; OUnit; OAcq true; OUnit; OClaim 2; OClaim 2; OUnit; OAcq true; OVal 1; OUnit; OVal 3] /\
  exists pre, os = pre ++ [Fill [1; 2]; Acquire 2; Read 0; Fill [3; 4]; Read 0].
Proof.
  exists [0; 0], [Claim 1; Fill [7]; Acquire 1; Release 1; Claim 2; Claim 2; Fill [1; 2]; Acquire 2; Read 0; Fill [3; 4]; Read 0].
  split; [reflexivity|]. exists [Claim 1; Fill [7]; Acquire 1; Release 1; Claim 2; Claim 2]. reflexivity.
Qed.
Print Assumptions C09_overlap_refuted.
