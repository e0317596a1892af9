(** Properties of the random number generators: C51 (vectors), C52 (normal_vector), C83
    (seeding).

    [number d0 draw s k] is the k-th number an engine gives from its state s on;
    [fresh_numbers use n rngs]: every element is made of a number of its own, no number is
    used twice or skipped; [computes call d post]: no undefined behaviour, no data race,
    and [post] holds in every order of the threads' writes. *)
From Coq Require Import Reals Lra.
From Verif Require Import Base BaseLemmas Workers_Model Workers_Spec Kern_Model Kern_Spec Kern_Proofs
  Rng_Model Rng_Spec Rng_Proofs.
Local Open Scope nat_scope.

(** ** C51, the multithreaded generator: for every pool of workers, threshold, length and
    engine states each element is written exactly once with f of a fresh number, nothing
    else is written, and the engines are advanced by what was taken from them. *)
Theorem C51_fill : forall E D (d0 : D) (draw : E * D -> R * (E * D)) f ptr n rs bnd (rngs : list E),
  pool rs -> length rngs = length rs + 1 ->
  exists use, fresh_numbers use n rngs /\
    (forall d, ptr + n <= length d ->
       computes (mt_call d0 draw f ptr n rs bnd rngs) d (filled d0 draw f ptr n rngs use d)) /\
    (exists rngs', mt_state d0 draw f ptr n rs bnd rngs = Some rngs' /\
       advanced d0 draw use n rngs rngs').
Proof. exact @mt_ok. Qed.
Print Assumptions C51_fill.

(** The requested ranges, for a basic generator with numbers in [0, 1]. *)
Theorem C51_range : forall E D (d0 : D) (draw : E * D -> R * (E * D)) ptr n rs bnd (rngs : list E) d,
  pool rs -> length rngs = length rs + 1 -> ptr + n <= length d ->
  (forall s k, (0 <= number d0 draw s k <= 1)%R) ->
  (forall a, (0 <= a)%R ->
     computes (mt_call d0 draw (el_sym a) ptr n rs bnd rngs) d
       (all_in (fun x => (- a <= x <= a)%R) ptr n d)) /\
  (forall neg pos, (neg <= pos)%R ->
     computes (mt_call d0 draw (el_between neg pos) ptr n rs bnd rngs) d
       (all_in (fun x => (neg <= x <= pos)%R) ptr n d)) /\
  computes (mt_call d0 draw el_norm ptr n rs bnd rngs) d
    (all_in (fun x => (0 <= x <= 1)%R) ptr n d) /\
  (forall a, (0 <= a)%R ->
     computes (mt_call d0 draw (el_gtz a) ptr n rs bnd rngs) d
       (all_in (fun x => (0 <= x <= a)%R) ptr n d)) /\
  (forall p pos neg,
     computes (mt_call d0 draw (el_bern p pos neg) ptr n rs bnd rngs) d
       (all_in (fun x => x = pos \/ x = neg) ptr n d)).
Proof.
  intros E D d0 draw ptr n rs bnd rngs d HP HL Hd HU.
  split; [|split; [|split; [|split]]].
  - intros a Ha. apply mt_range; auto. intros s k. apply el_sym_in; auto.
  - intros neg pos Ha. apply mt_range; auto. intros s k. apply el_between_in; auto.
  - apply mt_range; auto.
  - intros a Ha. apply mt_range; auto. intros s k. apply el_gtz_in; auto.
  - intros p pos neg. apply mt_range; auto. intros s k. apply el_bern_in.
Qed.
Print Assumptions C51_range.

(** The generators with one engine: element i is made of number i. *)
Theorem C51_single : forall E D (d0 : D) (draw : E * D -> R * (E * D)) f ptr n (s : E) d,
  ptr + n <= length d ->
  computes (st_call d0 draw f ptr n s) d (filled d0 draw f ptr n [s] (fun i => (0, i)) d).
Proof. exact @st_ok. Qed.
Print Assumptions C51_single.

Theorem C51_single_range : forall E D (d0 : D) (draw : E * D -> R * (E * D)) ptr n (s : E) d,
  ptr + n <= length d ->
  (forall s k, (0 <= number d0 draw s k <= 1)%R) ->
  (forall a, (0 <= a)%R ->
     computes (st_call d0 draw (el_sym1 a) ptr n s) d
       (all_in (fun x => (- a <= x <= a)%R) ptr n d)) /\
  (forall neg pos, (neg <= pos)%R ->
     computes (st_call d0 draw (el_between neg pos) ptr n s) d
       (all_in (fun x => (neg <= x <= pos)%R) ptr n d)) /\
  computes (st_call d0 draw el_norm ptr n s) d (all_in (fun x => (0 <= x <= 1)%R) ptr n d) /\
  (forall a, (0 <= a)%R ->
     computes (st_call d0 draw (el_gtz a) ptr n s) d
       (all_in (fun x => (0 <= x <= a)%R) ptr n d)).
Proof.
  intros E D d0 draw ptr n s d Hd HU. split; [|split; [|split]].
  - intros a Ha. apply st_range; auto. intros s' k. apply el_sym1_in; auto.
  - intros neg pos Ha. apply st_range; auto. intros s' k. apply el_between_in; auto.
  - apply st_range; auto.
  - intros a Ha. apply st_range; auto. intros s' k. apply el_gtz_in; auto.
Qed.
Print Assumptions C51_single_range.

(** The whole range can be reached: the least and the greatest number give the ends. *)
Theorem C51_ends : forall a neg pos,
  el_sym a 0 = (- a)%R /\ el_sym a 1 = a /\ el_sym1 a 0 = (- a)%R /\ el_sym1 a 1 = a /\
  el_between neg pos 0 = neg /\ el_between neg pos 1 = pos /\
  el_gtz a 0 = 0%R /\ el_gtz a 1 = a.
Proof.
  intros a neg pos. unfold el_sym, el_between, el_span, el_sym1, el_gtz.
  repeat split; lra.
Qed.
Print Assumptions C51_ends.

(** gen_i(n) is in [0, n) as long as n - 1 is an int. *)
Theorem C51_gen_i : forall irx n,
  (forall lo hi, (lo <= hi -> lo <= irx lo hi <= hi)%Z) ->
  (1 <= n <= 2 ^ 31)%Z -> (0 <= gen_i_af irx n < n)%Z.
Proof. exact gen_i_af_ok. Qed.
Print Assumptions C51_gen_i.

Theorem C51_gen_i_cstd : forall rnd n, (0 <= rnd)%Z -> (1 <= n)%Z -> (0 <= gen_i_cstd rnd n < n)%Z.
Proof. exact gen_i_cstd_ok. Qed.
Print Assumptions C51_gen_i_cstd.

(** An engine counting 0, 1/2, 1, 0, 1/2, ... *)
Definition ex_draw (sd : nat * unit) : R * (nat * unit) :=
  let (s, u) := sd in
  ((match s mod 3 with 0 => 0 | 1 => / 2 | _ => 1 end)%R, (S s, u)).
Definition ex_pool := [mkR 0 0 1; mkR 0 0 2].

Lemma ex_draw_01 : forall s k, (0 <= number tt ex_draw s k <= 1)%R.
Proof.
  intros s k. unfold number. destruct (after ex_draw k (s, tt)) as [s' u].
  unfold ex_draw; cbn [fst]. destruct (s' mod 3) as [|[|m]]; lra.
Qed.

Example C51_example : pool ex_pool /\
  mt_state tt ex_draw (el_sym 1) 1 7 ex_pool 4 [10; 20; 30] = Some [12; 23; 32] /\
  (exists w0 w1 w2, mt_call tt ex_draw (el_sym 1) 1 7 ex_pool 4 [10; 20; 30] = Some [w1; w2; w0] /\
     map fst w1 = [1; 2; 3] /\ map fst w2 = [4; 5] /\ map fst w0 = [6; 7]) /\
  computes (mt_call tt ex_draw (el_sym 1) 1 7 ex_pool 4 [10; 20; 30]) (repeat 0%R 9)
    (all_in (fun x => (- 1 <= x <= 1)%R) 1 7 (repeat 0%R 9)).
Proof.
  split; [reflexivity|]. split; [reflexivity|]. split.
  - do 3 eexists. split; [reflexivity|]. repeat split.
  - refine (proj1 (C51_range nat unit tt ex_draw 1 7 ex_pool 4 [10; 20; 30] (repeat 0%R 9)
      eq_refl eq_refl _ ex_draw_01) 1%R _); [cbn; lia|lra].
Qed.

Example C51_gen_i_example : gen_i_af (fun lo hi => hi) 6 = 5%Z /\ gen_i_cstd 17 5 = 2%Z.
Proof. split; reflexivity. Qed.

(** ** C52.  The multithreaded normal_vector(m, st) gives m + st z with a fresh standard
    normal number z for every element. *)
Theorem C52_mt_partial : forall E D (d0 : D) (draw : E * D -> R * (E * D)) m st ptr n rs bnd (rngs : list E),
  pool rs -> length rngs = length rs + 1 ->
  exists use, fresh_numbers use n rngs /\
    (forall d, ptr + n <= length d ->
       computes (mt_normal_call d0 draw m st ptr n rs bnd rngs) d
         (filled d0 draw (fun z => m + st * z)%R ptr n rngs use d)).
Proof.
  intros E D d0 draw m st ptr n rs bnd rngs HP HL.
  destruct (mt_ok d0 draw (el_normal m st) ptr n rs bnd rngs HP HL) as [use [H1 [H2 _]]].
  exists use. split; assumption.
Qed.
Print Assumptions C52_mt_partial.

(** The version of AFRand and CStd uses the length of the vector as the deviation ... *)
Theorem C52_single_partial : forall E D (d0 : D) (draw : E * D -> R * (E * D)) m st ptr n (s : E) d,
  ptr + n <= length d ->
  computes (st_normal_call d0 draw m st ptr n s) d
    (filled d0 draw (fun z => m + INR n * z)%R ptr n [s] (fun i => (0, i)) d).
Proof. intros. apply st_ok. assumption. Qed.
Print Assumptions C52_single_partial.

(** ... so that no element is what was asked for unless z = 0 or st = n. *)
Theorem C52_single_refuted : exists E D (d0 : D) (draw : E * D -> R * (E * D)) m st ptr n (s : E) d,
  ptr + n <= length d /\
  ~ computes (st_normal_call d0 draw m st ptr n s) d
      (filled d0 draw (fun z => m + st * z)%R ptr n [s] (fun i => (0, i)) d).
Proof.
  exists nat, unit, tt, (fun sd => (1%R, sd)), 0%R, 1%R, 0, 2, 0, [5; 5]%R.
  split; [cbn; lia|]. intros [trs [H1 [_ H3]]].
  cbn in H1. injection H1 as <-.
  destruct (H3 [(0, el_normal 0%R (INR 2) 1%R); (1, el_normal 0%R (INR 2) 1%R)]) as [d' [A1 [_ [A3 _]]]].
  { apply (il_pick _ 0 _ [(1, el_normal 0%R (INR 2) 1%R)]); [reflexivity|].
    apply (il_pick _ 0 _ []); [reflexivity|]. apply il_done. repeat constructor. }
  cbn in A1. injection A1 as <-.
  destruct (A3 0 ltac:(lia)) as [s [_ S2]]. cbn in S2. injection S2 as S2.
  unfold el_normal, number in S2; cbn in S2. lra.
Qed.
Print Assumptions C52_single_refuted.

Example C52_example : pool ex_pool /\ length [10; 20; 30] = length ex_pool + 1 /\
  (forall z, (3 + 2 * z = el_normal 3 2 z)%R).
Proof. repeat split. Qed.

(** ** C83.  seed(s) puts every engine of the pool into the state given by the seed and its
    thread number, whatever was generated before; so everything generated afterwards is a
    function of the seed (and of the pool). *)
Theorem C83_seed : forall E (initA : Z -> nat -> E) s rs rngs,
  pool rs -> length rngs = length rs + 1 ->
  seed_mt initA s rs rngs = Some (map (initA s) (seq 0 (length rs + 1))).
Proof. exact @seed_mt_ok. Qed.
Print Assumptions C83_seed.

Theorem C83_reproducible : forall E D (d0 : D) (draw : E * D -> R * (E * D)) (initA : Z -> nat -> E)
  s rs rngs1 rngs2 f ptr n bnd,
  pool rs -> length rngs1 = length rs + 1 -> length rngs2 = length rs + 1 ->
  (do r <- seed_mt initA s rs rngs1; mt_call d0 draw f ptr n rs bnd r) =
  (do r <- seed_mt initA s rs rngs2; mt_call d0 draw f ptr n rs bnd r) /\
  (do r <- seed_mt initA s rs rngs1; mt_state d0 draw f ptr n rs bnd r) =
  (do r <- seed_mt initA s rs rngs2; mt_state d0 draw f ptr n rs bnd r).
Proof.
  intros E D d0 draw initA s rs rngs1 rngs2 f ptr n bnd HP H1 H2.
  rewrite !seed_mt_ok by assumption. split; reflexivity.
Qed.
Print Assumptions C83_reproducible.

Example C83_example : seed_mt (fun s t => (s * 100 + Z.of_nat t)%Z) 7 ex_pool [1; 2; 3]%Z
  = Some [700; 701; 702]%Z.
Proof. reflexivity. Qed.
