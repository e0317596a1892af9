(** Runs of operations; cloning without biases; the bias self-check. *)
From Verif Require Import Base BaseLemmas Kern_Model Kern_Proofs Smx_Model Smx_Spec Smx_Proofs Smx_Proofs2.

Section P.
Context {A : Type} (one zero nan : A).
Implicit Types (s d : smx A) (me : mem_env A) (l : list A).

Lemma create_inv me r c bir s :
  0 < r -> 0 < c -> create one me r c true bir = Some s -> inv one (s, []).
Proof.
  intros Hr Hc H. apply inv_nil. unfold create, realloc in H.
  cbn [s_ext guard negb obind s_rows s_cols] in H.
  assert (E : (0 <? r + Nat.b2n (true && bir)) && (0 <? c + Nat.b2n (true && negb bir)) = true).
  { apply andb_true_intro. split; apply Nat.ltb_lt; lia. }
  rewrite E in H. destruct me as [f|]; [|].
  - match goal with H : (do s0 <- Some ?x; _) = _ |- _ => cbn [obind] in H; set (s1 := x) in * end.
    destruct (set_biases_good one s1) as (s2 & E2 & (K1 & K2 & K3 & K4 & K5) & G).
    { split; [simpl; lia|]. split; [simpl; lia|]. eexists. split; [reflexivity|].
      rewrite block_length. unfold s_numel. simpl. lia. }
    rewrite E2 in H. injection H as <-. split; [rewrite K3; reflexivity|exact G].
  - exfalso. cbn [obind] in H. unfold set_biases in H. destruct bir; discriminate.
Qed.

Lemma run_inv os : forall st, inv one st -> valid_run one zero nan os st ->
  exists st', run one zero nan os st = Some st' /\ inv one st'.
Proof.
  induction os as [|o os IH]; intros st HI HV; [exists st; split; [reflexivity|exact HI]|].
  inversion HV; subst. destruct (step_inv one zero nan o st HI) as (st1 & E & HI1); [assumption|].
  simpl. rewrite E. cbn [obind]. apply IH; auto.
Qed.

Theorem bias_invariant : forall me r c bir s os,
  0 < r -> 0 < c -> create one me r c true bir = Some s -> valid_run one zero nan os (s, []) ->
  exists s' hs, run one zero nan os (s, []) = Some (s', hs) /\
    (empty s' = false -> s_bias (unhide s' hs) = true /\ biases_one one (unhide s' hs)).
Proof.
  intros me r c bir s os Hr Hc HC HV.
  destruct (run_inv os (s, []) (create_inv me r c bir s Hr Hc HC) HV) as ((s' & hs) & E & IB & IG & _).
  exists s', hs. split; [exact E|]. intros He. simpl in *. split; [exact IB|].
  destruct IG as [IG|[_ IG]]; [|exact IG].
  destruct (unhide_fields hs s') as (_ & _ & _ & _ & _ & U6). unfold empty in *. rewrite U6 in IG. congruence.
Qed.

(** ** The self-check *)
Lemma check_loop (is1 : A -> bool) l (addr : nat -> nat) n :
  (forall i, i < n -> addr i < length l) ->
  exists b, for_loop 0 n (fun i b => do v <- bget l (addr i); Some (b && is1 v)) true = Some b /\
    (b = true <-> forall i v, i < n -> bget l (addr i) = Some v -> is1 v = true).
Proof.
  intros Hl.
  destruct (for_loop_inv (fun k b => (b = true <-> forall i v, i < k -> bget l (addr i) = Some v -> is1 v = true))
     0 n (fun i b => do v <- bget l (addr i); Some (b && is1 v)) true) as (b & E & H).
  - split; [intros; lia|reflexivity].
  - intros k b Hk HP. destruct (bget_lt l (addr k)) as [v Ev]; [apply Hl; lia|].
    rewrite Ev. cbn [obind]. eexists. split; [reflexivity|]. split.
    + intros Hb i v' Hi Hv'. apply andb_prop in Hb. destruct Hb as [Hb1 Hb2].
      destruct (Nat.eq_dec i k) as [->|Hn]; [congruence|]. apply (proj1 HP Hb1 i); [lia|exact Hv'].
    + intros Hx. apply andb_true_intro. split; [apply HP; intros i v' Hi; apply Hx; lia|].
      apply (Hx k); [lia|exact Ev].
  - exists b. split; [exact E|]. exact H.
Qed.

Theorem strict_check (is1 : A -> bool) s :
  (forall v, is1 v = true <-> v = one) -> well_alloc s -> s_bias s = true ->
  exists b, test_biases_strict is1 s = Some b /\ (b = true <-> biases_one one s).
Proof.
  intros H1 (W1 & W2 & l & D & N) Hb. unfold test_biases_strict. rewrite D. cbn [obind].
  pose proof (biases_one_part one s l D W1 W2) as HB. unfold bias_part in HB. unfold s_numel in N.
  destruct (s_bir s).
  - destruct (check_loop is1 l (fun i => s_rows s - 1 + i * s_rows s) (s_cols s)) as (b & E & H).
    { intros i Hi. nia. }
    exists b. split; [exact E|]. rewrite H, HB. split.
    + intros Hx _ c Hc. destruct (bget_lt l (s_rows s - 1 + s_rows s * c)) as [v Ev]; [nia|].
      rewrite Ev. f_equal. apply H1. apply (Hx c); [exact Hc|].
      rewrite (Nat.mul_comm c). exact Ev.
    + intros Hx i v Hi Hv. rewrite (Nat.mul_comm i) in Hv. rewrite (Hx Hb i Hi) in Hv.
      injection Hv as <-. apply H1. reflexivity.
  - destruct (check_loop is1 l (fun i => s_rows s * (s_cols s - 1) + i) (s_rows s)) as (b & E & H).
    { intros i Hi. nia. }
    exists b. split; [exact E|]. rewrite H, HB. split.
    + intros Hx _ r Hr. destruct (bget_lt l (r + s_rows s * (s_cols s - 1))) as [v Ev]; [nia|].
      rewrite Ev. f_equal. apply H1. apply (Hx r); [exact Hr|].
      rewrite (Nat.add_comm _ r). exact Ev.
    + intros Hx i v Hi Hv. rewrite (Nat.add_comm _ i) in Hv. rewrite (Hx Hb i Hi) in Hv.
      injection Hv as <-. apply H1. reflexivity.
Qed.

Theorem holey_check_col (isbin : A -> bool) s :
  well_alloc s -> s_bias s = true -> s_bir s = false ->
  exists b, test_biases_holey isbin s = Some b /\
    (b = true <-> forall r v, r < s_rows s -> cell s r (s_cols s - 1) = Some v -> isbin v = true).
Proof.
  intros (W1 & W2 & l & D & N) Hb Hbir. unfold test_biases_holey. rewrite D, Hbir. cbn [obind].
  unfold s_numel in N.
  destruct (check_loop isbin l (fun i => s_rows s * (s_cols s - 1) + i) (s_rows s)) as (b & E & H).
  { intros i Hi. nia. }
  exists b. split; [exact E|]. rewrite H. split; intros Hx i v Hi Hv.
  - apply (Hx i v Hi). rewrite (cell_some s l _ _ D), (Nat.add_comm i) in Hv. exact Hv.
  - apply (Hx i v Hi). rewrite (cell_some s l _ _ D), (Nat.add_comm i). exact Hv.
Qed.

(** ** clone_to_no_bias *)
Lemma cnb_copy s d1 ls ld :
  well_alloc s -> s_data s = Some ls -> (s_bias s = true -> s_bir s = false) ->
  s_data d1 = Some ld -> s_rows s * s_cols_nb s <= length ld ->
  exists l', copy_n s (mkS (s_rows d1) (s_cols d1) false (s_ext d1) false (s_bir s) (s_data d1)) (s_numel_nb s)
      = Some (mkS (s_rows d1) (s_cols d1) false (s_ext d1) false (s_bir s) (Some l')) /\
    length l' = length ld /\
    (forall a, a < s_rows s * s_cols_nb s -> bget l' a = bget ls a) /\
    (forall a, s_rows s * s_cols_nb s <= a -> bget l' a = bget ld a).
Proof.
  intros (W1 & W2 & ls' & D & N) D' Hb Dd Hl. rewrite D in D'. injection D' as ->.
  assert (Hn : s_numel_nb s = s_rows s * s_cols_nb s).
  { unfold s_numel_nb, s_rows_nb, s_bias_row. destruct (s_bias s) eqn:Es; [rewrite (Hb eq_refl)|]; simpl;
      rewrite Nat.sub_0_r; reflexivity. }
  rewrite Hn.
  destruct (copy_n_spec s (mkS (s_rows d1) (s_cols d1) false (s_ext d1) false (s_bir s) (s_data d1))
              (s_rows s * s_cols_nb s) ls ld D Dd) as (l' & E & L & H1 & H2).
  { unfold s_numel, s_cols_nb in *.
    pose proof (Nat.mul_le_mono_l (s_cols s - Nat.b2n (s_bias_col s)) (s_cols s) (s_rows s)). lia. }
  { exact Hl. }
  exists l'. split; [exact E|]. auto.
Qed.

Theorem clone_no_bias_owned me s d :
  well_alloc s -> (s_bias s = true -> s_bir s = false) -> 0 < s_cols_nb s -> me <> None ->
  s_ext d = false -> s_bias d = false -> alloc_failed d = false -> (empty d = false -> well_alloc d) ->
  exists d', clone_to_no_bias one me s d = Some (true, d') /\ stripped s d'.
Proof.
  intros W Hb Hc Hm Hx Hbd Hf Hd. pose proof W as (W1 & W2 & ls & D & N).
  unfold clone_to_no_bias. rewrite Hx.
  destruct (resize_good one me d (s_rows s) (s_cols_nb s) Hx W1 Hc Hf Hd)
    as (b & d1 & E1 & R1 & C1 & B1 & I1 & X1 & Eb & W1' & _ & HM).
  specialize (HM Hm). rewrite HM in Eb, E1. rewrite E1. cbn [obind].
  assert (He : empty d1 = false) by (destruct (empty d1); [discriminate|reflexivity]).
  unfold s_bias_row, s_bias_col in R1, C1. rewrite Hbd in R1, C1. simpl in R1, C1. rewrite Nat.add_0_r in R1, C1.
  destruct (W1' He) as (V1 & V2 & ld & Dd & Nd). unfold s_numel in Nd. rewrite R1, C1 in Nd.
  destruct (cnb_copy s d1 ls ld W D Hb Dd Nd) as (l' & Ec & L & H1 & _).
  rewrite Ec. cbn [obind]. eexists. split; [reflexivity|].
  unfold stripped. cbn [s_bias s_rows s_cols s_bir]. do 4 (split; [congruence|]).
  intros r c Hr Hcc. unfold cell. cbn [s_data obind s_rows]. rewrite D. cbn [obind]. rewrite R1.
  assert (Ha : r + s_rows s * c < s_rows s * s_cols_nb s) by (apply cell_idx; assumption).
  rewrite (H1 _ Ha). split; [reflexivity|].
  destruct (bget_lt ls (r + s_rows s * c)) as [v Ev]; [|congruence].
  unfold s_numel, s_cols_nb in *. pose proof (Nat.mul_le_mono_l (s_cols s - Nat.b2n (s_bias_col s)) (s_cols s) (s_rows s)). lia.
Qed.

Theorem clone_no_bias_external me s d :
  well_alloc s -> (s_bias s = true -> s_bir s = false) ->
  s_ext d = true -> well_alloc d ->
  exists b d', clone_to_no_bias one me s d = Some (b, d') /\
    (b = true <-> s_rows d = s_rows s /\ s_cols d = s_cols_nb s) /\
    (b = true -> stripped s d') /\ (b = false -> d' = d).
Proof.
  intros W Hb Hx (V1 & V2 & ld & Dd & Nd). pose proof W as (W1 & W2 & ls & D & N).
  unfold clone_to_no_bias. rewrite Hx. cbn [obind].
  destruct ((s_rows d =? s_rows s) && (s_cols d =? s_cols_nb s)) eqn:E.
  - apply andb_prop in E. destruct E as [R1 C1]. apply Nat.eqb_eq in R1. apply Nat.eqb_eq in C1.
    unfold s_numel in Nd. rewrite R1, C1 in Nd.
    destruct (cnb_copy s d ls ld W D Hb Dd Nd) as (l' & Ec & L & H1 & _).
    rewrite Ec. cbn [obind]. eexists _, _. split; [reflexivity|].
    split; [tauto|]. split; [|discriminate]. intros _.
    unfold stripped. cbn [s_bias s_rows s_cols s_bir]. do 4 (split; [congruence|]).
    intros r c Hr Hcc. unfold cell. cbn [s_data obind s_rows]. rewrite D. cbn [obind]. rewrite R1.
    assert (Ha : r + s_rows s * c < s_rows s * s_cols_nb s) by (apply cell_idx; assumption).
    rewrite (H1 _ Ha). split; [reflexivity|].
    destruct (bget_lt ls (r + s_rows s * c)) as [v Ev]; [|congruence].
    unfold s_numel, s_cols_nb in *. pose proof (Nat.mul_le_mono_l (s_cols s - Nat.b2n (s_bias_col s)) (s_cols s) (s_rows s)). lia.
  - eexists _, _. split; [reflexivity|]. split; [|split; [discriminate|reflexivity]].
    split; [discriminate|]. intros [Ha Hbb]. rewrite Ha, Hbb, !Nat.eqb_refl in E. discriminate.
Qed.

(** What happens for a destination that emulates biases: one column too many. *)
Theorem clone_no_bias_biased me s d :
  well_alloc s -> (s_bias s = true -> s_bir s = false) -> 0 < s_cols_nb s -> me <> None ->
  s_ext d = false -> s_bias d = true -> s_bir d = false -> alloc_failed d = false ->
  (empty d = false -> well_alloc d) ->
  exists d', clone_to_no_bias one me s d = Some (true, d') /\
    s_bias d' = false /\ s_rows d' = s_rows s /\ s_cols d' = s_cols_nb s + 1 /\
    (forall r c, r < s_rows s -> c < s_cols_nb s -> cell d' r c = cell s r c) /\
    (forall r, r < s_rows s -> cell d' r (s_cols_nb s) = Some one).
Proof.
  intros W Hb Hc Hm Hx Hbd Hbir Hf Hd. pose proof W as (W1 & W2 & ls & D & N).
  unfold clone_to_no_bias. rewrite Hx.
  destruct (resize_good one me d (s_rows s) (s_cols_nb s) Hx W1 Hc Hf Hd)
    as (b & d1 & E1 & R1 & C1 & B1 & I1 & X1 & Eb & W1' & G & HM).
  specialize (HM Hm). rewrite HM in Eb, E1. rewrite E1. cbn [obind].
  assert (He : empty d1 = false) by (destruct (empty d1); [discriminate|reflexivity]).
  unfold s_bias_row, s_bias_col in R1, C1. rewrite Hbd, Hbir in R1, C1. simpl in R1, C1. rewrite Nat.add_0_r in R1.
  destruct (W1' He) as (V1 & V2 & ld & Dd & Nd). unfold s_numel in Nd. rewrite R1, C1 in Nd.
  destruct (cnb_copy s d1 ls ld W D Hb Dd) as (l' & Ec & L & H1 & H2); [nia|].
  rewrite Ec. cbn [obind]. eexists. split; [reflexivity|].
  split; [reflexivity|]. split; [exact R1|]. split; [exact C1|]. split.
  - intros r c Hr Hcc. unfold cell. cbn [s_data obind s_rows]. rewrite D. cbn [obind]. rewrite R1.
    apply H1. apply cell_idx; assumption.
  - intros r Hr. unfold cell. cbn [s_data obind s_rows]. rewrite R1. rewrite H2 by lia.
    destruct G as [G|[_ G]]; [congruence|].
    pose proof (proj1 (biases_one_part one d1 ld Dd V1 V2) G) as HB. rewrite B1, I1, Hbd, Hbir in HB.
    specialize (HB eq_refl). simpl in HB. rewrite R1, C1 in HB.
    replace (s_cols_nb s + 1 - 1) with (s_cols_nb s) in HB by lia. apply HB. exact Hr.
Qed.
End P.
