(** Properties of the asynchronous random number generator: C110 (requests are served), C111
    (numbers are used once), C112 (seeding), C113 (failed initialisation).

    A history is a list of events: a step of a background thread (the request for work or the
    generation), calls of the API, and requests for vectors with the steps the background
    threads make before and after, and between any two elements that are copied. *)
From Coq Require Import Reals ZArith Lia Lra.
From Verif Require Import Base BaseLemmas Workers_Model Workers_Spec Kern_Model Kern_Spec Rng_Model Rng_Spec As_Model As_Spec
  As_Proofs2 As_Proofs3 As_Proofs4.
Local Open Scope nat_scope.

(** ** C110.  Whatever the background threads do, there is no undefined behaviour and every
    request is served: it gives n numbers, each made of a number that was drawn for it. *)
Theorem C110_serves : forall E D (uni : E -> R * E) (nrm : E * D -> R * (E * D)) initA cnt T rs bnd dn0 mk sd l,
  pool rs -> alternates T false l ->
  exists os g, ev_run uni nrm initA cnt rs bnd dn0 (rng_new rs dn0 mk T sd) l = Some (os, g) /\
    Forall2 (served uni nrm rs bnd dn0) l os.
Proof. intros E D uni nrm initA cnt T rs bnd dn0 mk sd l HP H. apply serves_main; assumption. Qed.
Print Assumptions C110_serves.
(** The requested ranges, for a basic generator with numbers in [0, 1]. *)
Theorem C110_range : forall E D (uni : E -> R * E) (nrm : E * D -> R * (E * D)) v,
  (forall e, 0 <= fst (uni e) <= 1)%R ->
  (forall a, (0 <= a)%R -> made uni nrm (GenSym a) v -> (- a <= v <= a)%R) /\
  (forall neg pos, (neg <= pos)%R -> made uni nrm (GenBetween neg pos) v -> (neg <= v <= pos)%R) /\
  (made uni nrm GenNorm v -> (0 <= v <= 1)%R).
Proof.
  intros E D uni nrm v H. split; [|split].
  - intros a Ha (z & (e & ->) & ->). specialize (H e). cbn. nra.
  - intros neg pos Ha (z & (e & ->) & ->). specialize (H e). cbn. nra.
  - intros (z & (e & ->) & ->). apply H.
Qed.
Print Assumptions C110_range.

(** Engines whose numbers never repeat: (seed, how many were drawn). *)
Definition ex_uni (e : Z * nat) : R * (Z * nat) := (IZR ((2 * fst e + 1) * 2 ^ Z.of_nat (snd e)), (fst e, S (snd e))).
(** a distribution object that, as the polar method, makes two numbers at a time and keeps one *)
Definition ex_nrm (sd : (Z * nat) * option R) : R * ((Z * nat) * option R) :=
  match snd sd with
  | Some v => (v, (fst sd, None))
  | None => let '(a, e) := ex_uni (fst sd) in let '(b, e) := ex_uni e in (a, (e, Some b))
  end.
Definition ex_initA (s : Z) (t : nat) : Z * nat := ((s * 100 + Z.of_nat t)%Z, 0).
Definition ex_rs := [mkR 0 0 1; mkR 0 0 2].
Definition ex_mk (s : Z) : Z * nat := (s, 0).
Definition ex_mem (n : nat) : option (list R) := Some (repeat 0%R n).
Definition ex_run cnt T sd l := ev_run ex_uni ex_nrm ex_initA (fun _ => cnt) ex_rs (fun _ => 4) None (rng_new ex_rs None ex_mk T sd) l.
Lemma ex_unrepeated e e' : fst (ex_uni e) = fst (ex_uni e') -> e = e'.
Proof.
  destruct e as [s k], e' as [s' k']. cbn [ex_uni fst snd]. intros H. apply eq_IZR in H.
  assert (K : forall a b i j, ((2 * a + 1) * 2 ^ Z.of_nat i = (2 * b + 1) * 2 ^ Z.of_nat j)%Z -> i <= j -> i = j /\ a = b).
  { intros a b i j E Hij. assert (Hj : (2 ^ Z.of_nat j = 2 ^ Z.of_nat (j - i) * 2 ^ Z.of_nat i)%Z) by (rewrite <- Z.pow_add_r by lia; f_equal; lia).
    rewrite Hj, Z.mul_assoc in E. apply Z.mul_reg_r in E; [|pose proof (Z.pow_pos_nonneg 2 (Z.of_nat i)); lia].
    destruct (Nat.eq_dec i j) as [->|Hne]; [rewrite Nat.sub_diag in E; change (2 ^ Z.of_nat 0)%Z with 1%Z in E; lia|].
    replace (Z.of_nat (j - i)) with (1 + Z.of_nat (j - i - 1))%Z in E by lia. rewrite Z.pow_add_r in E by lia. change (2 ^ 1)%Z with 2%Z in E.
    set (X := (2 ^ Z.of_nat (j - i - 1))%Z) in E. replace ((2 * b + 1) * (2 * X))%Z with (2 * ((2 * b + 1) * X))%Z in E by ring. lia. }
  destruct (Nat.le_ge_cases k k') as [Hk|Hk]; [destruct (K s s' k k' H Hk) as [-> ->]|destruct (K s' s k' k (eq_sym H) Hk) as [-> ->]]; reflexivity.
Qed.
(** Two background threads, both kinds; the second step of thread 1 falls between two elements
    that are being copied; the last request finds too few numbers. *)
Definition ex_hist := [EPreinit TUni 2; EPreinit TNormal 1; EInit ex_mem; EBg 0 TUni; EBg 1 TUni; EBg 0 TUni;
  EGen [(0, TNormal)] (fun k => if k =? 1 then [(1, TUni)] else []) [(0, TNormal)] GenNorm 2; ESeed 9; EGen [] (fun _ => []) [] (GenBetween 1 3) 5; EDeinit; EInit ex_mem].
Example C110_example : pool ex_rs /\ alternates 2 false ex_hist /\ exists g,
  ex_run 2 2 10 ex_hist = Some ([ONone; ONone; OInit true; ONone; ONone; ONone; OVec (Buffered [IZR 27; IZR 54]); ONone;
    OVec (Synchronous [(900%Z, 0); (901%Z, 0); (902%Z, 0)]); ONone; OInit true], g).
Proof.
  split; [reflexivity|]. split.
  - cbn. unfold good_bg, good_mem, ex_mem. repeat split; try lia; repeat constructor; try (intros n m [= <-]; apply repeat_length).
    intros k. destruct (k =? 1); repeat constructor.
  - eexists. lazy -[IZR]. reflexivity.
Qed.

(** ** C111.  The numbers behind the delivered vectors, for each kind, are the oldest numbers the
    background threads have drawn, in the order in which they were put into the buffer, without
    repetitions or gaps - if the buffer cannot be claimed as a whole by the other threads. *)
Theorem C111_once_partial : forall E D (uni : E -> R * E) (nrm : E * D -> R * (E * D)) initA cnt rs bnd dn0 mk T sd (ne : task -> nat) mem m l,
  pool rs -> (forall j, 0 < cnt j) ->
  (forall j, (T - 1) * cnt j < 3 * ne j \/ ne j = 0) -> 0 < ne TNormal + ne TUni ->
  mem (3 * (ne TNormal + ne TUni)) = Some m -> length m = 3 * (ne TNormal + ne TUni) -> in_use T l ->
  exists os g log,
    ev_run uni nrm initA cnt rs bnd dn0 (rng_new rs dn0 mk T sd) (EPreinit TNormal (ne TNormal) :: EPreinit TUni (ne TUni) :: EInit mem :: l) = Some (ONone :: ONone :: OInit true :: os, g) /\
    (forall t, t < T -> map snd (of_thread t log) = fst (stream uni nrm (map fst (of_thread t log)) (mk (sd + Z.of_nat (length rs + 1) + Z.of_nat t)%Z, dn0))) /\
    forall j, exists zs rest, given j l os zs /\ of_task j log = zs ++ rest.
Proof. exact @once_main. Qed.
Print Assumptions C111_once_partial.

Example C111_example : pool ex_rs /\ in_use 2 [EBg 0 TUni; EBg 1 TUni; EBg 1 TUni; EBg 0 TUni; EGen [] (fun k => if k =? 1 then [(1, TUni)] else []) [] GenNorm 3; EBg 1 TUni; EGen [] (fun _ => []) [] GenNorm 2] /\
  exists g, ex_run 2 2 10 [EPreinit TNormal 0; EPreinit TUni 1; EInit ex_mem; EBg 0 TUni; EBg 1 TUni; EBg 1 TUni; EBg 0 TUni; EGen [] (fun k => if k =? 1 then [(1, TUni)] else []) [] GenNorm 3; EBg 1 TUni; EBg 1 TUni; EGen [] (fun _ => []) [] GenNorm 2] =
    Some ([ONone; ONone; OInit true; ONone; ONone; ONone; ONone; OVec (Buffered [IZR 29; IZR 27; IZR 54]); ONone; ONone; OVec (Buffered [IZR 58; IZR 116])], g).
Proof.
  split; [reflexivity|]. split.
  - cbn. unfold good_bg. repeat split; try lia; repeat constructor. intros k. destruct (k =? 1); repeat constructor.
  - eexists. lazy -[IZR]. reflexivity.
Qed.

(** In general it is not so: with four background threads that draw one number at a time and a
    buffer for three, one number is delivered twice, although no engine ever repeats one. *)
Theorem C111_once_refuted :
  (forall e e', fst (ex_uni e) = fst (ex_uni e') -> e = e') /\
  exists l os g, alternates 4 false l /\ ex_run 1 4 10 l = Some (os, g) /\ ~ NoDup (delivered os).
Proof.
  split; [exact ex_unrepeated|].
  exists [EPreinit TUni 1; EInit ex_mem; EBg 0 TUni; EBg 0 TUni; EGen [] (fun _ => []) [] GenNorm 1;
          EBg 0 TUni; EBg 1 TUni; EBg 2 TUni; EBg 3 TUni; EBg 0 TUni; EBg 1 TUni; EBg 2 TUni;
          EGen [] (fun k => if k =? 0 then [(3, TUni)] else []) [] GenNorm 2; EGen [] (fun _ => []) [] GenNorm 2].
  eexists _, _. split; [|split].
  - cbn. unfold good_bg, good_mem, ex_mem. repeat split; try lia; repeat constructor; try (intros n m [= <-]; apply repeat_length).
    intros k. destruct (k =? 0); repeat constructor.
  - lazy -[IZR]. reflexivity.
  - cbn [delivered app]. intros H. apply NoDup_cons_iff in H. destruct H as [_ H]. apply NoDup_cons_iff in H. destruct H as [H _]. apply H. cbn. tauto.
Qed.
Print Assumptions C111_once_refuted.

(** ** C112.  seed() replaces every engine, those of the pool and of the background threads, with
    one made of the seed and a number of its own ... *)
Theorem C112_engines : forall E D (uni : E -> R * E) (nrm : E * D -> R * (E * D)) initA cnt T rs bnd dn0 mk sd0 sd l,
  pool rs -> alternates T false l ->
  exists os g, ev_run uni nrm initA cnt rs bnd dn0 (rng_new rs dn0 mk T sd0) (l ++ [ESeed sd]) = Some (os, g) /\
    engines g = map (initA sd) (seq 0 (length rs + 1 + T)).
Proof. intros E D uni nrm initA cnt T rs bnd dn0 mk sd0 sd l HP H. apply seeded_main; assumption. Qed.
Print Assumptions C112_engines.
(** ... and after deinit_rng() it puts the whole object into a state that depends on the seed only,
    as long as no normally distributed numbers were used. *)
Theorem C112_reproducible_partial : forall E D (uni : E -> R * E) (nrm : E * D -> R * (E * D)) initA cnt T rs bnd dn0 mk sd1 sd2 sd l1 l2,
  pool rs -> alternates T false l1 -> alternates T false l2 -> no_normal l1 -> no_normal l2 ->
  exists os1 os2 g,
    ev_run uni nrm initA cnt rs bnd dn0 (rng_new rs dn0 mk T sd1) (l1 ++ [EDeinit; ESeed sd]) = Some (os1, g) /\
    ev_run uni nrm initA cnt rs bnd dn0 (rng_new rs dn0 mk T sd2) (l2 ++ [EDeinit; ESeed sd]) = Some (os2, g).
Proof. intros E D uni nrm initA cnt T rs bnd dn0 mk sd1 sd2 sd l1 l2 HP. apply reproducible_main; assumption. Qed.
Print Assumptions C112_reproducible_partial.
Example C112_example : alternates 2 false [EPreinit TUni 1; EInit ex_mem; EBg 0 TUni; EBg 0 TUni; EBg 1 TUni] /\
  no_normal [EPreinit TUni 1; EInit ex_mem; EBg 0 TUni; EBg 0 TUni; EBg 1 TUni] /\
  exists os g, ex_run 2 2 10 [EPreinit TUni 1; EInit ex_mem; EBg 0 TUni; EBg 0 TUni; EBg 1 TUni; ESeed 7] = Some (os, g) /\
    engines g = [(700%Z, 0); (701%Z, 0); (702%Z, 0); (703%Z, 0); (704%Z, 0)].
Proof.
  split; [cbn; unfold good_mem, ex_mem; repeat split; try lia; intros n m [= <-]; apply repeat_length|]. split; [cbn; tauto|].
  eexists _, _. split; [lazy -[IZR]; reflexivity|reflexivity].
Qed.
(** Otherwise the same seed and the same use afterwards give different numbers: those in the buffer
    were drawn before the seeding ... *)
Definition ask (q : request) (n : nat) := EGen [] (fun _ => []) [] q n.
Theorem C112_seed_refuted : exists l use os1 os2 g1 g2 v1 v2,
  alternates 1 false (l ++ [ESeed 7] ++ use) /\
  ex_run 2 1 10 (l ++ [ESeed 7] ++ use) = Some (os1 ++ [OVec (Buffered v1)], g1) /\
  ex_run 2 1 20 (l ++ [ESeed 7] ++ use) = Some (os2 ++ [OVec (Buffered v2)], g2) /\ v1 <> v2.
Proof.
  exists [EPreinit TUni 1; EInit ex_mem; EBg 0 TUni; EBg 0 TUni], [ask GenNorm 1], [ONone; OInit true; ONone; ONone; ONone], [ONone; OInit true; ONone; ONone; ONone].
  eexists _, _, [IZR 27], [IZR 47]. split; [|split; [|split]].
  - cbn. unfold good_bg, good_mem, ex_mem. repeat split; try lia; repeat constructor; intros n m [= <-]; apply repeat_length.
  - lazy -[IZR]. reflexivity.
  - lazy -[IZR]. reflexivity.
  - intros [= H]. apply eq_IZR in H. discriminate.
Qed.
Print Assumptions C112_seed_refuted.
(** ... and, even after deinit_rng(), the distribution objects of the background threads keep
    what they have in stock. *)
Theorem C112_normal_refuted : exists l1 l2 use os1 os2 g1 g2 v1 v2,
  alternates 1 false (l1 ++ [EDeinit; ESeed 7] ++ use) /\ alternates 1 false (l2 ++ [EDeinit; ESeed 7] ++ use) /\
  ex_run 2 1 10 (l1 ++ [EDeinit; ESeed 7] ++ use) = Some (os1 ++ [OVec (Buffered v1)], g1) /\
  ex_run 2 1 10 (l2 ++ [EDeinit; ESeed 7] ++ use) = Some (os2 ++ [OVec (Buffered v2)], g2) /\ v1 <> v2.
Proof.
  exists [EPreinit TNormal 1; EInit ex_mem; EBg 0 TNormal; EBg 0 TNormal; EBg 0 TNormal; EBg 0 TNormal], [],
    [EPreinit TNormal 1; EInit ex_mem; EBg 0 TNormal; EBg 0 TNormal; EGen [] (fun _ => []) [] (GenNormal 0 1) 1],
    [ONone; OInit true; ONone; ONone; ONone; ONone; ONone; ONone; ONone; OInit true; ONone; ONone], [ONone; ONone; ONone; OInit true; ONone; ONone].
  eexists _, _, (req_scale (GenNormal 0 1) [IZR 216]), (req_scale (GenNormal 0 1) [IZR 1407]). split; [|split; [|split; [|split]]].
  - cbn. unfold good_bg, good_mem, ex_mem. repeat split; try lia; repeat constructor; intros n m [= <-]; apply repeat_length.
  - cbn. unfold good_bg, good_mem, ex_mem. repeat split; try lia; repeat constructor; intros n m [= <-]; apply repeat_length.
  - lazy -[IZR req_scale Rplus Rmult]. reflexivity.
  - lazy -[IZR req_scale Rplus Rmult]. reflexivity.
  - rewrite !req_scale_ok. cbn. intros [= H]. lra.
Qed.
Print Assumptions C112_normal_refuted.

(** ** C113.  init_rng() does not tell that there was no memory: it always returns true ... *)
Theorem C113_report_refuted : exists l os g, alternates 1 false l /\ ex_run 2 1 10 l = Some (os, g) /\
  l = [EPreinit TUni 1; EInit (fun _ => None)] /\ os = [ONone; OInit true] /\ a_bufs (g_as g) = None.
Proof.
  eexists _, _, _. split; [|split; [|split; [reflexivity|split; [reflexivity|]]]].
  - cbn. unfold good_mem. repeat split; discriminate.
  - lazy -[IZR]. reflexivity.
  - reflexivity.
Qed.
Print Assumptions C113_report_refuted.
(** ... and afterwards every vector is made synchronously. *)
Theorem C113_refused_partial : forall E D (uni : E -> R * E) (nrm : E * D -> R * (E * D)) initA cnt rs bnd dn0 T mk sd (ne : task -> nat) l,
  pool rs -> alternates T true l -> no_init l ->
  exists os g, ev_run uni nrm initA cnt rs bnd dn0 (rng_new rs dn0 mk T sd)
      (EPreinit TNormal (ne TNormal) :: EPreinit TUni (ne TUni) :: EInit (fun _ => None) :: l) = Some (ONone :: ONone :: OInit true :: os, g) /\ all_sync os.
Proof. intros E D uni nrm initA cnt rs bnd dn0 T mk sd ne l HP. apply refused_main; assumption. Qed.
Print Assumptions C113_refused_partial.
Example C113_example : alternates 1 true [EBg 0 TUni; ask GenNorm 3; EDeinit] /\ no_init [EBg 0 TUni; ask GenNorm 3; EDeinit] /\
  exists g, ex_run 2 1 10 [EPreinit TNormal 0; EPreinit TUni 1; EInit (fun _ => None); EBg 0 TUni; ask GenNorm 3; EDeinit] =
    Some ([ONone; ONone; OInit true; ONone; OVec (Synchronous [(10%Z, 0); (11%Z, 0); (12%Z, 0)]); ONone], g).
Proof.
  split; [cbn; unfold good_bg; repeat split; try lia; repeat constructor|]. split; [cbn; tauto|]. eexists. lazy -[IZR]. reflexivity.
Qed.
