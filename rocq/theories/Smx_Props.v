(** Properties of matrices: C26, C27, C60, C61, C62.
    [cell s r c] is get(r,c); [biases_one]: the bias column (row) consists of
    ones; [valid_run]: every call respects the documented preconditions;
    [unhide s hs]: the matrix with everything hidden shown again. *)
From Verif Require Import Base BaseLemmas Kern_Model Smx_Model Smx_Spec Smx_Proofs Smx_Proofs2 Smx_Proofs3.

Theorem C26_biases_stay_one : forall A (one zero nan : A) me r c bir s os,
  0 < r -> 0 < c -> create one me r c true bir = Some s -> valid_run one zero nan os (s, []) ->
  exists s' hs, run one zero nan os (s, []) = Some (s', hs) /\
    (empty s' = false -> s_bias (unhide s' hs) = true /\ biases_one one (unhide s' hs)).
Proof. exact @bias_invariant. Qed.
Print Assumptions C26_biases_stay_one.

(** a run of 9 operations on a 2 x 2 (+bias) matrix of numbers, 1 = one, 0 = zero *)
Definition ex_mem : mem_env nat := Some (fun i => 50 + i).
Definition ex_ops : list (op (A := nat)) :=
  [OZeros; OHide; OWrite 1 1 7; ORestore; ODeformBatch 1; OHideN 1; ONansNoBias; ORestore; ODResize ex_mem 1 2].
Example C26_example :
  exists s, create 1 ex_mem 2 2 true false = Some s /\ valid_run 1 0 9 ex_ops (s, []) /\
    s_data s = Some [50; 51; 52; 53; 1; 1] /\
    (do (s', hs) <- run 1 0 9 (firstn 4 ex_ops) (s, []); s_data s') = Some [0; 0; 0; 7; 1; 1] /\
    (do (s', hs) <- run 1 0 9 (firstn 5 ex_ops) (s, []); s_data s') = Some [0; 0; 1; 7; 1; 1].
Proof.
  eexists. split; [reflexivity|]. split; [|repeat split].
  Ltac go := vm_compute; repeat split; auto with arith; try discriminate; try lia.
  do 9 (apply vr_cons; [solve [go]|intros st' E; vm_compute in E; inversion E; subst; clear E]).
  constructor.
Qed.

(** A failed clone_to() leaves the destination without the bias flag, so that the
    run above must not contain one. *)
Theorem C26_failed_clone_drops_biases : forall A (one : A) (src d : smx A),
  well_alloc src -> s_ext d = false -> empty d = true -> s_rows d = 0 -> s_bias d = true ->
  exists d', clone_to one None src d = Some (false, d') /\ s_bias d' = false.
Proof.
  intros A one src d (W1 & W2 & l & D & N) Hx He Hr Hb. unfold clone_to. rewrite Hx.
  unfold resize. destruct (Nat.eqb_spec (s_rows src) 0); [lia|]. destruct (Nat.eqb_spec (s_cols src) 0); [lia|].
  cbn [orb]. unfold s_bias_row, s_bias_col. cbn [with_flag s_bias andb Nat.b2n]. rewrite !Nat.add_0_r.
  unfold impl_resize. destruct (Nat.eqb_spec (s_rows src) 0); [lia|]. destruct (Nat.eqb_spec (s_cols src) 0); [lia|].
  cbn [orb s_rows s_cols with_flag]. rewrite Hr. destruct (Nat.eqb_spec (s_rows src) 0); [lia|]. cbn [andb].
  unfold realloc. cbn [with_flag with_dims s_ext s_rows s_cols]. rewrite Hx. cbn [negb guard obind].
  destruct (Nat.ltb_spec 0 (s_rows src)); [|lia]. destruct (Nat.ltb_spec 0 (s_cols src)); [|lia].
  cbn [andb obind empty with_holey with_mem s_data option_map negb s_bias].
  eexists. split; reflexivity.
Qed.
Print Assumptions C26_failed_clone_drops_biases.

Example C26_failed_clone_example :
  let src := mkS 1 2 true false false false (Some [5; 1]) in
  let d := mkS 0 0 true false false false None in
  well_alloc src /\ s_bias d = true /\
  (do (b, d') <- clone_to 1 None src d; Some (b, s_bias d')) = Some (false, false).
Proof. split; [|split; reflexivity]. split; [simpl; lia|]. split; [simpl; lia|]. eexists; split; [reflexivity|apply Nat.leb_le; reflexivity]. Qed.

(** ** C27 *)
(** The destination does not emulate biases (or is external storage of the right
    size): the result is the source without its bias column. *)
Theorem C27_clone_to_no_bias_partial : forall A (one : A) me (s d : smx A),
  well_alloc s -> (s_bias s = true -> s_bir s = false) -> 0 < s_cols_nb s -> me <> None ->
  s_ext d = false -> s_bias d = false -> alloc_failed d = false -> (empty d = false -> well_alloc d) ->
  exists d', clone_to_no_bias one me s d = Some (true, d') /\ stripped s d'.
Proof. exact @clone_no_bias_owned. Qed.
Print Assumptions C27_clone_to_no_bias_partial.

Theorem C27_external_destination : forall A (one : A) me (s d : smx A),
  well_alloc s -> (s_bias s = true -> s_bir s = false) -> s_ext d = true -> well_alloc d ->
  exists b d', clone_to_no_bias one me s d = Some (b, d') /\
    (b = true <-> s_rows d = s_rows s /\ s_cols d = s_cols_nb s) /\
    (b = true -> stripped s d') /\ (b = false -> d' = d).
Proof. exact @clone_no_bias_external. Qed.
Print Assumptions C27_external_destination.

(** Missing case: the destination emulates biases.  It gets one column too many. *)
Theorem C27_biased_destination : forall A (one : A) me (s d : smx A),
  well_alloc s -> (s_bias s = true -> s_bir s = false) -> 0 < s_cols_nb s -> me <> None ->
  s_ext d = false -> s_bias d = true -> s_bir d = false -> alloc_failed d = false ->
  (empty d = false -> well_alloc d) ->
  exists d', clone_to_no_bias one me s d = Some (true, d') /\
    s_bias d' = false /\ s_rows d' = s_rows s /\ s_cols d' = s_cols_nb s + 1 /\
    (forall r c, r < s_rows s -> c < s_cols_nb s -> cell d' r c = cell s r c) /\
    (forall r, r < s_rows s -> cell d' r (s_cols_nb s) = Some one).
Proof. exact @clone_no_bias_biased. Qed.
Print Assumptions C27_biased_destination.

Definition ex_s := mkS 2 3 true false false false (Some [5; 6; 7; 8; 1; 1]).
Theorem C27_clone_to_no_bias_refuted :
  exists (s d : smx nat), well_alloc s /\ alloc_failed d = false /\
    exists d', clone_to_no_bias 1 ex_mem s d = Some (true, d') /\ ~ stripped s d' /\ s_cols d' = 3 /\ s_cols_nb s = 2.
Proof.
  exists ex_s, (mkS 0 0 true false false false None).
  split; [split; [simpl; lia|]; split; [simpl; lia|]; eexists; split; [reflexivity|apply Nat.leb_le; reflexivity]|].
  split; [reflexivity|]. eexists. split; [reflexivity|]. split; [|split; reflexivity].
  intros (_ & _ & H & _). vm_compute in H. discriminate.
Qed.
Print Assumptions C27_clone_to_no_bias_refuted.

Example C27_example :
  (do (b, d') <- clone_to_no_bias 1 ex_mem ex_s (init (A := nat)); do l <- s_data d'; Some (b, s_cols d', l))
    = Some (true, 2, [5; 6; 7; 8]) /\
  (do (b, d') <- clone_to_no_bias 1 None ex_s (use_external [0; 0; 0; 0] 2 2 true false false); do l <- s_data d'; Some (b, s_cols d', l))
    = Some (true, 2, [5; 6; 7; 8]) /\
  (do (b, d') <- clone_to_no_bias 1 ex_mem ex_s (mkS 0 0 true false false false None); do l <- s_data d'; Some (b, s_cols d', l))
    = Some (true, 3, [5; 6; 7; 8; 1; 1]).
Proof. repeat split; reflexivity. Qed.

(** ** C60: resize() reporting success *)
Theorem C60_resize_partial : forall A (one : A) me (s : smx A) r c,
  s_ext s = false -> 0 < r -> 0 < c -> alloc_failed s = false -> (empty s = false -> well_alloc s) ->
  exists b s', resize one me s r c = Some (b, s') /\
    s_rows s' = r + Nat.b2n (s_bias_row s) /\ s_cols s' = c + Nat.b2n (s_bias_col s) /\
    s_bias s' = s_bias s /\ s_bir s' = s_bir s /\ b = negb (empty s') /\
    (b = true -> well_alloc s' /\ biases_one one s') /\ (me <> None -> b = true).
Proof.
  intros A one me s r c H1 H2 H3 H4 H5.
  destruct (resize_good one me s r c H1 H2 H3 H4 H5) as (b & s' & E & R & C & B & I & X & Eb & W & G & M).
  exists b, s'. do 6 (split; [assumption|]). split; [|exact M].
  intros ->. assert (empty s' = false) as He by (destruct (empty s'); [discriminate|reflexivity]).
  destruct G as [G|[_ G]]; [congruence|]. split; [apply W; exact He|exact G].
Qed.
Print Assumptions C60_resize_partial.

(** After an allocation failure the same request is answered with success although
    there is no storage; if the matrix emulates biases, the null pointer is written
    through. *)
Theorem C60_resize_refuted :
  (exists (s s1 s2 : smx nat), resize 1 None s 2 3 = Some (false, s1) /\ resize 1 None s1 2 3 = Some (true, s2) /\
     s_data s2 = None) /\
  (exists (s s1 : smx nat), resize 1 None s 2 3 = Some (false, s1) /\ resize 1 ex_mem s1 2 3 = None).
Proof.
  split.
  - exists (init (A := nat)). eexists _, _. split; [reflexivity|]. split; reflexivity.
  - exists (mkS 0 0 true false false false None). eexists. split; reflexivity.
Qed.
Print Assumptions C60_resize_refuted.

Example C60_example :
  (do (b, s') <- resize 1 ex_mem ex_s 1 3; do l <- s_data s'; Some (b, s_rows s', s_cols s', l)) =
    Some (true, 1, 4, [50; 51; 52; 1]).
Proof. reflexivity. Qed.

(** ** C61: clone_to() *)
Theorem C61_clone_to : forall A (one : A) me (s d : smx A),
  well_alloc s -> alloc_failed d = false -> (empty d = false -> well_alloc d) ->
  (s_ext d = true -> empty d = false) ->
  exists b d', clone_to one me s d = Some (b, d') /\
    (b = true -> same_matrix s d' /\ well_alloc d') /\
    (b = true <-> if s_ext d then s_rows d = s_rows s /\ s_cols d = s_cols s else empty d' = false) /\
    (b = false -> s_ext d = true -> d' = d) /\
    (b = false -> s_ext d = false -> empty d' = true) /\
    (me <> None -> s_ext d = false -> b = true).
Proof. exact @clone_to_spec. Qed.
Print Assumptions C61_clone_to.

Example C61_example :
  (do (b, d') <- clone_to 1 ex_mem ex_s (mkS 1 1 false false false true (Some [4])); Some (b, d')) = Some (true, ex_s).
Proof. reflexivity. Qed.

(** ** C62: the self-check of the bias part *)
Theorem C62_strict_check : forall A (one : A) (is1 : A -> bool) (s : smx A),
  (forall v, is1 v = true <-> v = one) -> well_alloc s -> s_bias s = true ->
  exists b, test_biases_strict is1 s = Some b /\ (b = true <-> biases_one one s).
Proof. exact (fun A one => @strict_check A one one). Qed.
Print Assumptions C62_strict_check.

Theorem C62_holey_check_partial : forall A (isbin : A -> bool) (s : smx A),
  well_alloc s -> s_bias s = true -> s_bir s = false ->
  exists b, test_biases_holey isbin s = Some b /\
    (b = true <-> forall r v, r < s_rows s -> cell s r (s_cols s - 1) = Some v -> isbin v = true).
Proof.
  intros A isbin s W. pose proof W as (W1 & W2 & l & D & N).
  destruct l as [|a l]; [unfold s_numel in N; simpl in N; nia|].
  exact (holey_check_col a isbin s W).
Qed.
Print Assumptions C62_holey_check_partial.

(** The bias row of batch-in-row matrices is not checked: only one of its elements
    is looked at, or the loop leaves the storage. *)
Theorem C62_holey_check_refuted :
  let isbin v := (v =? 0) || (v =? 1) in
  (exists s : smx nat, well_alloc s /\ s_bias s = true /\ s_bir s = true /\
     cell s (s_rows s - 1) 1 = Some 5 /\ test_biases_holey isbin s = Some true) /\
  (exists s : smx nat, well_alloc s /\ s_bias s = true /\ s_bir s = true /\ test_biases_holey isbin s = None).
Proof.
  intros isbin. split.
  - exists (mkS 2 2 true false true true (Some [7; 1; 7; 5])).
    split; [|repeat split]. split; [simpl; lia|]. split; [simpl; lia|].
    eexists. split; [reflexivity|apply Nat.leb_le; reflexivity].
  - exists (mkS 2 3 true false true true (Some [7; 1; 7; 1; 7; 1])).
    split; [|repeat split]. split; [simpl; lia|]. split; [simpl; lia|].
    eexists. split; [reflexivity|apply Nat.leb_le; reflexivity].
Qed.
Print Assumptions C62_holey_check_refuted.

Example C62_example :
  let is1 v := v =? 1 in
  well_alloc ex_s /\ s_bias ex_s = true /\ test_biases_strict is1 ex_s = Some true /\
  test_biases_strict is1 (mkS 2 3 true false false true (Some [7; 1; 7; 2; 7; 1])) = Some false.
Proof.
  split; [|repeat split]. split; [simpl; lia|]. split; [simpl; lia|].
  eexists. split; [reflexivity|apply Nat.leb_le; reflexivity].
Qed.
