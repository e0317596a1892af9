(** Seeding; failed initialisation. *)
From Coq Require Import Reals ZArith Lia Lra.
From Verif Require Import Base BaseLemmas Workers_Model Workers_Spec Kern_Model Kern_Spec Kern_Proofs DataBuf_Model DataBuf_Spec DataBuf_Proofs
  Rng_Model Rng_Spec Rng_Proofs As_Model As_Spec As_Proofs As_Proofs2.
Local Open Scope nat_scope.

Section A.
Context {E D : Type} (uni : E -> R * E) (nrm : E * D -> R * (E * D)) (initA : Z -> nat -> E) (cnt : task -> nat).
Context (rs : list prange) (bnd : request -> nat) (dn0 : D) (HP : pool rs).
Local Notation ctx := (@ctx E D).
Local Notation astate := (@astate E D).
Local Notation bg_step := (bg_step uni nrm cnt).
Local Notation bg_run := (bg_run uni nrm cnt).
Local Notation quiesce := (quiesce uni nrm cnt).
Local Notation ev_step := (ev_step uni nrm initA cnt rs bnd dn0).
Local Notation ev_run := (ev_run uni nrm initA cnt rs bnd dn0).

Lemma ev_run_app : forall l1 l2 g, ev_run g (l1 ++ l2) = do (o1, g1) <- ev_run g l1; do (o2, g2) <- ev_run g1 l2; Some (o1 ++ o2, g2).
Proof.
  induction l1 as [|e l1 IH]; intros l2 g; cbn [app As_Model.ev_run].
  - cbn [obind]. destruct (ev_run g l2) as [[o2 g2]|]; reflexivity.
  - destruct (ev_step g e) as [[o g1]|]; cbn [obind]; [|reflexivity]. rewrite IH. destruct (ev_run g1 l1) as [[o1 g2]|]; cbn [obind]; [|reflexivity].
    destruct (ev_run g2 l2) as [[o2 g3]|]; reflexivity.
Qed.

(** ** Without normally distributed numbers the distribution objects keep their state *)
Definition ninv (s : astate) : Prop :=
  fst (a_size s) = 0 /\ a_task s TNormal = false /\ forall t c, nth_error (a_thr s) t = Some c -> c_nd c = dn0 /\ forall n, c_pend c <> Some (TNormal, n).
Lemma gen_uni_nd n : forall e d, snd (generate uni nrm TUni n e d) = d.
Proof. induction n as [|n IH]; intros e d; cbn [generate]; [reflexivity|]. destruct (uni e) as [v e1]. specialize (IH e1 d). destruct (generate uni nrm TUni n e1 d) as [[l e2] d2]. exact IH. Qed.
Lemma thr_ninv s j b t c thr : ninv s -> bset (a_thr s) t c = Some thr -> c_nd c = dn0 -> (forall n, c_pend c <> Some (TNormal, n)) -> ninv (set_thr (set_buf s j b) thr).
Proof.
  intros (I1 & I2 & I3) Et H1 H2. apply bset_some in Et. destruct Et as (_ & _ & G). unfold bget in G. split; [exact I1|]. split; [exact I2|]. intros t' c' H. cbn in H. rewrite G in H.
  destruct (t' =? t); [injection H as <-; auto|apply (I3 t' c' H)].
Qed.
Lemma bg_step_n t j s s' : ninv s -> bg_step t j s = Some s' -> ninv s'.
Proof.
  intros I. pose proof I as (I1 & I2 & I3). unfold As_Model.bg_step. destruct (bget (a_thr s) t) as [c|] eqn:Ec; cbn [obind]; [|discriminate]. destruct (I3 t c Ec) as [N1 N2].
  destruct (c_pend c) as [[j' n]|] eqn:Ep.
  - destruct (guard _); cbn [obind]; [|discriminate]. destruct j'; [exfalso; apply (N2 n); reflexivity|].
    pose proof (gen_uni_nd n (c_rng c) (c_nd c)) as G. destruct (generate uni nrm TUni n (c_rng c) (c_nd c)) as [[l e] d]. cbn in G. subst d.
    destruct (a_bufs s) as [p|]; cbn [obind]; [|discriminate]. destruct (as_done _ _) as [b|]; cbn [obind]; [|discriminate].
    destruct (bset _ _ _) as [thr|] eqn:Et; cbn [obind]; [|discriminate]. intros [= <-]. apply (thr_ninv _ _ _ _ _ _ I Et); [exact N1|discriminate].
  - destruct (a_task s j) eqn:Ej; [|intros [= <-]; exact I]. destruct (a_bufs s) as [p|]; cbn [obind]; [|discriminate]. destruct (should_work _ _) as [r b].
    destruct (bset _ _ _) as [thr|] eqn:Et; cbn [obind]; [|discriminate]. intros [= <-]. apply (thr_ninv _ _ _ _ _ _ I Et); [exact N1|]. cbn. intros n.
    destruct (r =? 0); [discriminate|]. intros [= -> _]. congruence.
Qed.
Lemma bg_run_n l : forall s s', ninv s -> bg_run l s = Some s' -> ninv s'.
Proof.
  induction l as [|[t j] l IH]; intros s s' I H; cbn [As_Model.bg_run] in H; [injection H as <-; exact I|].
  destruct (bg_step t j s) as [s1|] eqn:E1; cbn [obind] in H; [|discriminate]. apply (IH s1 s'); [|exact H]. eapply bg_step_n; eassumption.
Qed.
Lemma for_keep (P : astate -> Prop) (f : nat -> astate -> option astate) : (forall t s s', P s -> f t s = Some s' -> P s') -> forall n lo s s', P s -> for_loop lo n f s = Some s' -> P s'.
Proof. intros K. induction n as [|n IH]; intros lo s s' H H1; cbn in H1; [injection H1 as <-; exact H|]. destruct (f lo s) as [s1|] eqn:E1; [|discriminate]. apply (IH _ _ _ (K _ _ _ H E1) H1). Qed.
Lemma quiesce_n s s' : ninv s -> quiesce s = Some s' -> ninv s'.
Proof.
  intros I H. unfold As_Model.quiesce in H. refine (for_keep ninv _ _ _ _ _ _ I H). cbv beta. intros t s1 s2 I1. destruct (bget _ _) as [c|]; cbn [obind]; [|discriminate].
  destruct (c_pend c) as [[j n]|]; [apply bg_step_n, I1|intros [= <-]; exact I1].
Qed.
Lemma read_n bg j r : forall n k s l s', ninv s -> read_range uni nrm cnt bg j r k n s = Some (l, s') -> ninv s'.
Proof.
  induction n as [|n IH]; intros k s l s' I H; cbn [read_range] in H; [injection H as <- <-; exact I|].
  destruct (bg_run (bg k) s) as [s1|] eqn:E1; cbn [obind] in H; [|discriminate]. destruct (a_bufs s1); cbn [obind] in H; [|discriminate]. destruct (feeder_get _ _ _); cbn [obind] in H; [|discriminate].
  destruct (read_range uni nrm cnt bg j r (S k) n s1) as [[l2 s2]|] eqn:E2; cbn [obind] in H; [|discriminate]. injection H as <- <-. apply (IH _ _ _ _ (bg_run_n _ _ _ I E1) E2).
Qed.
Lemma move_n bg0 bg bg1 j n s o s' : ninv s -> move_data uni nrm cnt bg0 bg bg1 j n s = Some (o, s') -> ninv s'.
Proof.
  unfold move_data. intros I H. destruct (bg_run bg0 s) as [s1|] eqn:E1; cbn [obind] in H; [|discriminate]. pose proof (bg_run_n _ _ _ I E1) as I1.
  destruct (a_bufs s1) as [p|]; [|injection H as <- <-; exact I1]. destruct (_ =? 0); [injection H as <- <-; exact I1|].
  destruct (acquire _ _) as [r|]; [|injection H as <- <-; exact I1]. destruct (read_range _ _ _ _ _ _ _ _ _) as [[l s2]|] eqn:E2; cbn [obind] in H; [|discriminate].
  destruct (bg_run bg1 s2) as [s3|] eqn:E3; cbn [obind] in H; [|discriminate]. destruct (a_bufs s3); cbn [obind] in H; [|discriminate]. injection H as <- <-.
  apply (bg_run_n _ _ _ (read_n _ _ _ _ _ _ _ _ I1 E2) E3).
Qed.
Lemma ev_step_n g e o g' : ninv (g_as g) -> no_normal [e] -> ev_step g e = Some (o, g') -> ninv (g_as g').
Proof.
  intros I Hn H. destruct e as [t j|j ne|mem| |sd|bg0 bg bg1 q n]; cbn [As_Model.ev_step] in H.
  - destruct (bg_step t j (g_as g)) as [s|] eqn:E1; cbn [obind] in H; [|discriminate]. injection H as <- <-. eapply bg_step_n; eassumption.
  - injection H as <- <-. destruct j; [contradiction|]. destruct I as (I1 & I2 & I3). split; [exact I1|]. split; [exact I2|exact I3].
  - unfold init_rng, as_init in H. destruct (a_bufs (g_as g)); [discriminate|]. pose proof I as (I1 & I2 & I3). destruct (_ =? 0); [|destruct (mem _) as [m|]].
    + cbn [obind] in H. injection H as <- <-. split; [cbn; lia|]. split; [exact I2|exact I3].
    + destruct (quiesce (g_as g)) as [s|] eqn:E1; cbn [obind] in H; [|discriminate]. injection H as <- <-. pose proof (quiesce_n _ _ I E1) as (J1 & J2 & J3).
      split; [cbn; lia|]. split; [|exact J3]. cbn. rewrite I1. exact J2.
    + cbn [obind] in H. injection H as <- <-. split; [cbn; lia|]. split; [exact I2|exact I3].
  - unfold deinit_rng, as_deinit in H. destruct (quiesce (g_as g)) as [s|] eqn:E1; cbn [obind] in H; [|discriminate]. injection H as <- <-. pose proof (quiesce_n _ _ I E1) as (J1 & J2 & J3).
    split; [reflexivity|]. split; [reflexivity|exact J3].
  - unfold seed, as_seed in H. destruct (seed_mt _ _ _ _); cbn [obind] in H; [|discriminate]. destruct (quiesce (g_as g)) as [s|] eqn:E1; cbn [obind] in H; [|discriminate]. injection H as <- <-. pose proof (quiesce_n _ _ I E1) as (J1 & J2 & J3).
    split; [exact J1|]. split; [exact J2|]. intros t c Hc. cbn in Hc. rewrite nth_error_map in Hc. destruct (nth_error (combine _ _) t) as [[t' c']|] eqn:Ec; [|discriminate]. injection Hc as <-.
    apply nth_error_In, in_combine_r, In_nth_error in Ec. destruct Ec as [t'' Ec]. apply (J3 t'' c' Ec).
  - unfold generate_vector in H. destruct (move_data _ _ _ _ _ _ _ _ _) as [[o1 s]|] eqn:E1; cbn [obind] in H; [|discriminate]. pose proof (move_n _ _ _ _ _ _ _ _ I E1) as J.
    destruct o1 as [z|]; [injection H as <- <-; exact J|]. destruct (mt_state _ _ _ _ _ _ _ _); cbn [obind] in H; [|discriminate]. injection H as <- <-. exact J.
Qed.
Lemma ev_run_n : forall l g os g', ninv (g_as g) -> no_normal l -> ev_run g l = Some (os, g') -> ninv (g_as g').
Proof.
  induction l as [|e l IH]; intros g os g' I H H1; cbn [As_Model.ev_run] in H1; [injection H1 as <- <-; exact I|].
  destruct (ev_step g e) as [[o g1]|] eqn:E1; cbn [obind] in H1; [|discriminate]. destruct (ev_run g1 l) as [[os1 g2]|] eqn:E2; cbn [obind] in H1; [|discriminate]. injection H1 as <- <-.
  apply (IH g1 os1 g2); [|destruct e as [| [] | | | |]; cbn in H |- *; tauto|exact E2]. apply (ev_step_n g e o g1 I); [|exact E1]. destruct e as [| [] | | | |]; cbn in H |- *; tauto.
Qed.

(** Every engine after seeding. *)
Definition engines (g : rng_as (E := E) (D := D)) : list E := g_rngs g ++ map c_rng (a_thr (g_as g)).
Lemma seed_thr sd W : forall (l : list ctx) k,
  map c_rng (map (fun '(t, c) => mkC (initA sd (t + W)) (c_nd c) (c_pend c)) (combine (seq k (length l)) l)) = map (initA sd) (seq (W + k) (length l)).
Proof.
  induction l as [|c l IH]; intros k; cbn [length seq combine map c_rng]; [reflexivity|]. rewrite IH. rewrite (Nat.add_comm k W). replace (W + S k) with (S (W + k)) by lia. reflexivity.
Qed.
Theorem seeded_main T mk sd0 sd l : alternates T false l ->
  exists os g, ev_run (rng_new rs dn0 mk T sd0) (l ++ [ESeed sd]) = Some (os, g) /\ engines g = map (initA sd) (seq 0 (length rs + 1 + T)).
Proof.
  intros H. destruct (run_ok uni nrm initA cnt T rs bnd dn0 HP l false (rng_new rs dn0 mk T sd0)) as (os & g & up & E1 & _ & I).
  { constructor; cbn; [|unfold construct_rngs; rewrite map_length, seq_length; reflexivity|reflexivity].
    constructor; cbn; try discriminate; [rewrite map_length; apply seq_length|].
    intros t c j n Q1 Q2. rewrite nth_error_map in Q1. destruct (nth_error _ t); [|discriminate]. injection Q1 as <-. discriminate. }
  { exact H. }
  rewrite ev_run_app, E1. cbn [obind As_Model.ev_run As_Model.ev_step]. destruct I as [I L _]. unfold seed, as_seed. rewrite (seed_mt_ok initA sd rs (g_rngs g) HP L). cbn [obind].
  destruct (quiesce_ok uni nrm initA cnt T (g_as g) I) as (s & -> & I' & _ & _). cbn [obind]. eexists _, _. split; [reflexivity|].
  unfold engines. cbn [g_rngs g_as a_thr set_thr]. rewrite seed_thr. rewrite (ai_len _ _ _ _ _ I'), Nat.add_0_r, <- map_app. f_equal. symmetry. apply (seq_app (length rs + 1) T 0).
Qed.

Theorem reproducible_main T mk sd1 sd2 sd l1 l2 : alternates T false l1 -> alternates T false l2 -> no_normal l1 -> no_normal l2 ->
  exists os1 os2 g, ev_run (rng_new rs dn0 mk T sd1) (l1 ++ [EDeinit; ESeed sd]) = Some (os1, g) /\
                    ev_run (rng_new rs dn0 mk T sd2) (l2 ++ [EDeinit; ESeed sd]) = Some (os2, g).
Proof.
  intros H1 H2 N1 N2.
  set (final := mkG (mkA None (0, 0) (fun _ => false) (map (fun t => mkC (initA sd (t + (length rs + 1))) dn0 None) (seq 0 T))) (map (initA sd) (seq 0 (length rs + 1)))).
  assert (K : forall sd0 l, alternates T false l -> no_normal l -> exists os, ev_run (rng_new rs dn0 mk T sd0) (l ++ [EDeinit; ESeed sd]) = Some (os, final)).
  { intros sd0 l H N. destruct (run_ok uni nrm initA cnt T rs bnd dn0 HP l false (rng_new rs dn0 mk T sd0)) as (os & g & up & E1 & _ & I).
    { constructor; cbn; [|unfold construct_rngs; rewrite map_length, seq_length; reflexivity|reflexivity].
      constructor; cbn; try discriminate; [rewrite map_length; apply seq_length|].
      intros t c j n Q1 Q2. rewrite nth_error_map in Q1. destruct (nth_error _ t); [|discriminate]. injection Q1 as <-. discriminate. }
    { exact H. }
    assert (NI : ninv (g_as g)).
    { apply (ev_run_n l (rng_new rs dn0 mk T sd0) os g); [|exact N|exact E1]. split; [reflexivity|]. split; [reflexivity|]. intros t c Hc. cbn in Hc. rewrite nth_error_map in Hc.
      destruct (nth_error _ t); [|discriminate]. injection Hc as <-. split; [reflexivity|]. cbn. discriminate. }
    rewrite ev_run_app, E1. cbn [obind As_Model.ev_run As_Model.ev_step]. destruct I as [I L _]. unfold deinit_rng, as_deinit.
    destruct (quiesce_ok uni nrm initA cnt T (g_as g) I) as (s & Eq & I' & _ & Q). rewrite Eq. cbn [obind]. pose proof (quiesce_n _ _ NI Eq) as (_ & _ & J3).
    unfold seed. cbn [g_rngs g_as]. rewrite (seed_mt_ok initA sd rs (g_rngs g) HP L). cbn [obind]. unfold as_seed.
    set (s0 := mkA None (0, 0) (fun _ : task => false) (a_thr s)).
    assert (Q0 : quiesce s0 = Some s0).
    { unfold As_Model.quiesce. destruct (for_loop_inv (fun t st => st = s0) 0 (length (a_thr s0)) (fun t s => do c <- bget (a_thr s) t; match c_pend c with Some (j, _) => bg_step t j s | None => Some s end) s0) as (s' & E2 & ->); [reflexivity| |exact E2].
      intros t st Ht ->. destruct (bget_lt (a_thr s0) t) as [c Ec]; [lia|]. exists s0. rewrite Ec. cbn [obind]. rewrite (Q t c Ec). split; reflexivity. }
    rewrite Q0. cbn [obind set_thr a_bufs a_size a_task a_thr s0]. eexists. repeat f_equal. unfold final. repeat f_equal.
    rewrite (ai_len _ _ _ _ _ I'). pose proof (ai_len _ _ _ _ _ I') as Ls.
    unfold set_thr, s0. cbn [a_bufs a_size a_task]. f_equal. apply list_eq_bget. intros i. unfold bget. rewrite !nth_error_map. destruct (Nat.lt_ge_cases i T) as [Hi|Hi].
    - destruct (nth_error (a_thr s) i) as [c|] eqn:Ec; [|apply nth_error_None in Ec; lia].
      assert (Ei : nth_error (seq 0 T) i = Some i) by (rewrite (nth_error_nth' _ 0) by (rewrite seq_length; lia); rewrite seq_nth by lia; reflexivity).
      rewrite Ei. assert (Eb : nth_error (combine (seq 0 T) (a_thr s)) i = Some (i, c)).
      { clear - Ei Ec. revert i Ei Ec. generalize (seq 0 T) as a, (a_thr s) as b. assert (G : forall (a : list nat) (b : list ctx) i x c, nth_error a i = Some x -> nth_error b i = Some c -> nth_error (combine a b) i = Some (x, c)).
        { induction a as [|y a IH]; intros b [|i] x c0 Hx Hb; try discriminate; destruct b; try discriminate; cbn in *; [congruence|apply IH; assumption]. }
        intros a b i Ei Ec. apply G; assumption. }
      rewrite Eb. cbn. destruct (J3 i c Ec) as [-> _]. rewrite (Q i c Ec). reflexivity.
    - assert (E0 : nth_error (seq 0 T) i = None) by (apply nth_error_None; rewrite seq_length; lia). rewrite E0.
      assert (E0' : nth_error (combine (seq 0 T) (a_thr s)) i = None) by (apply nth_error_None; rewrite combine_length, seq_length; lia). rewrite E0'. reflexivity. }
  destruct (K sd1 l1 H1 N1) as [os1 K1]. destruct (K sd2 l2 H2 N2) as [os2 K2]. exists os1, os2, final. split; assumption.
Qed.

(** ** Memory is refused *)
Lemma nobuf_run T : forall l up g, ginv uni nrm cnt T rs up g -> a_bufs (g_as g) = None -> alternates T up l -> no_init l ->
  exists os g', ev_run g l = Some (os, g') /\ all_sync os.
Proof.
  induction l as [|e l IH]; intros up g I N H H1; cbn [As_Model.ev_run].
  - exists [], g. split; [reflexivity|exact Logic.I].
  - destruct (step_ok uni nrm initA cnt T rs bnd dn0 HP up g e l I H) as (o & g' & up' & E1 & S1 & I' & H').
    rewrite E1. cbn [obind].
    assert (K : a_bufs (g_as g') = None /\ forall os, all_sync os -> all_sync (o :: os)).
    { destruct e as [t j|j ne|mem| |sd|bg0 bg bg1 q n]; cbn [As_Model.ev_step served] in *; try (destruct o; try contradiction).
      - destruct H as [Ht H]. destruct (bg_step_ok uni nrm initA cnt T t j (g_as g) Ht (gi_a _ _ _ _ _ _ _ I)) as (s & E2 & _ & B). rewrite E2 in E1. cbn [obind] in E1. injection E1 as <-. split; [apply (proj1 (proj2 (proj2 B))), N|auto].
      - injection E1 as <-. split; [exact N|auto].
      - unfold deinit_rng, as_deinit in E1. destruct (quiesce (g_as g)); cbn [obind] in E1; [|discriminate]. injection E1 as <-. split; [reflexivity|auto].
      - unfold seed, as_seed in E1. destruct (seed_mt _ _ _ _); cbn [obind] in E1; [|discriminate]. destruct (quiesce_ok uni nrm initA cnt T (g_as g) (gi_a _ _ _ _ _ _ _ I)) as (s & Eq & _ & B & _). rewrite Eq in E1. cbn [obind] in E1. injection E1 as <-.
        split; [apply (proj1 (proj2 (proj2 B))), N|auto].
      - destruct H as (H0 & H2 & H3 & H). unfold generate_vector, move_data in E1. destruct (bg_run_ok uni nrm initA cnt T bg0 (g_as g) H0 (gi_a _ _ _ _ _ _ _ I)) as (s & Eq & _ & B). rewrite Eq in E1. cbn [obind] in E1.
        assert (Ns : a_bufs s = None) by (apply (proj1 (proj2 (proj2 B))), N). rewrite Ns in E1. cbn [obind] in E1. destruct (mt_state _ _ _ _ _ _ _ _); cbn [obind] in E1; [|discriminate]. injection E1 as <- <-. split; [exact Ns|auto]. }
    destruct K as [K1 K2]. destruct (IH up' g' I' K1 H') as (os & g2 & E2 & A2); [destruct e; cbn in H1 |- *; tauto|]. rewrite E2. cbn [obind]. exists (o :: os), g2. split; [reflexivity|apply K2, A2].
Qed.
Theorem refused_main T mk sd (ne : task -> nat) l : alternates T true l -> no_init l ->
  exists os g, ev_run (rng_new rs dn0 mk T sd) (EPreinit TNormal (ne TNormal) :: EPreinit TUni (ne TUni) :: EInit (fun _ => None) :: l) = Some (ONone :: ONone :: OInit true :: os, g) /\ all_sync os.
Proof.
  intros H N. cbn [As_Model.ev_run As_Model.ev_step obind]. unfold init_rng, as_init. cbn [rng_new g_as a_bufs preinit a_size pick put fst snd Nat.add].
  assert (K : forall s r, length (a_thr s) = T -> a_bufs s = None -> (forall j, a_task s j = false) -> (forall t c, nth_error (a_thr s) t = Some c -> c_pend c = None) -> length r = length rs + 1 -> ginv uni nrm cnt T rs true (mkG s r)).
  { intros s r K1 K2 K3 K4 K5. constructor; cbn; [|exact K5|discriminate]. constructor; [exact K1| | |].
    - intros t c j n Q1 Q2. rewrite (K4 t c Q1) in Q2. discriminate.
    - intros j Q. rewrite K3 in Q. discriminate.
    - intros p j Q. congruence. }
  assert (Kp : forall t c, nth_error (map (fun i => mkC (mk (sd + Z.of_nat (length rs + 1) + Z.of_nat i)%Z) dn0 None) (seq 0 T)) t = Some c -> c_pend c = None).
  { intros t c Q1. rewrite nth_error_map in Q1. destruct (nth_error _ t); [|discriminate]. injection Q1 as <-. reflexivity. }
  destruct (_ =? 0); cbn [obind].
  - match goal with |- context[As_Model.ev_run _ _ _ _ _ _ _ ?g l] => destruct (nobuf_run T l true g) as (os & g' & -> & A) end;
      [apply K; cbn; try reflexivity; [rewrite map_length; apply seq_length|exact Kp|unfold construct_rngs; rewrite map_length, seq_length; reflexivity]|reflexivity|exact H|exact N|]. cbn [obind]. eauto.
  - match goal with |- context[As_Model.ev_run _ _ _ _ _ _ _ ?g l] => destruct (nobuf_run T l true g) as (os & g' & -> & A) end;
      [apply K; cbn; try reflexivity; [rewrite map_length; apply seq_length|exact Kp|unfold construct_rngs; rewrite map_length, seq_length; reflexivity]|reflexivity|exact H|exact N|]. cbn [obind]. eauto.
Qed.
End A.
