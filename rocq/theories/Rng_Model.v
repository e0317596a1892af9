(** Model of the random number generators' vector functions:
    nntl/interface/_i_rng.h (rng_helper), rng/afrand.h, rng/afrand_mt.h, rng/cstd.h.

    The basic generator (Agner Fog's library or std::rand) is not in /repo: it is an
    engine state [E] with a function returning the next number.  Numbers are reals.
    [ptr] is the position of the vector in the storage that is written. *)
From Verif Require Import Base Workers_Model Kern_Model.
From Coq Require Import Reals.
Local Open Scope nat_scope.

Section Engine.
(** [D]: the state of a distribution object that lives for one range (std::
    normal_distribution keeps the second number of a pair); [d0] is a new one.
    [draw] returns the next number of the distribution. *)
Context {E D : Type} (d0 : D) (draw : E * D -> R * (E * D)).

(** afrand_mt.h:182-194 ( _igen_vector_st), 213-221 ( _igen_vector_norm_st), 243-259
    ( _igen_vector_gtz_st), 293-308 ( _ibernoulli_vector_st), 345-351
    ( _inormal_vector_st): the loop over the elements of a range with the engine of the
    thread; [f] turns the drawn number into the element. *)
Definition igen (f : R -> R) (ptr : nat) (rngs : list E) (r : prange)
  : option (E * list (wr R)) :=
  do s <- bget rngs (r_tid r);
  do (s', w) <- ptr_loop (ptr + r_ofs r) (ptr + r_ofs r + r_cnt r) 1
    (fun p sd => let (x, sd') := draw sd in Some (sd', [(p, f x)])) (s, d0);
  Some (fst s', w).

Definition igen_writes f ptr rngs r : option (list (wr R)) :=
  do (_, w) <- igen f ptr rngs r; Some w.

(** The engines after the call.  Each range leaves its final state in the engine of its
    thread. *)
Fixpoint igen_state (f : R -> R) (ptr : nat) (rngs : list E) (parts : list prange) (acc : list E)
  : option (list E) :=
  match parts with
  | [] => Some acc
  | r :: t =>
      do (s', _) <- igen f ptr rngs r;
      do acc' <- bset acc (r_tid r) s';
      igen_state f ptr rngs t acc'
  end.

(** afrand_mt.h:146-163 (and likewise 199-230, 234-268, 273-291, 313-328): fewer than [bnd]
    elements are processed by the calling thread with engine 0 (elms_range(0, n)), else
    run() distributes them, every thread using its own engine.  [rs] are the ranges of the
    workers. *)
Definition mt_parts (rs : list prange) (bnd n : nat) : list prange :=
  if n <? bnd then whole n else run_ranges rs 0 n.

Definition mt_call (f : R -> R) (ptr n : nat) (rs : list prange) (bnd : nat) (rngs : list E) :=
  par (igen_writes f ptr rngs) (mt_parts rs bnd n).

Definition mt_state (f : R -> R) (ptr n : nat) (rs : list prange) (bnd : nat) (rngs : list E) :=
  igen_state f ptr rngs (mt_parts rs bnd n) rngs.

(** The generators with one engine (afrand.h:84-137, cstd.h:91-118, _i_rng.h:189-199): one
    loop over the whole vector. *)
Definition st_call (f : R -> R) (ptr n : nat) (s : E) :=
  par (igen_writes f ptr [s]) (whole n).
End Engine.

(** ** How an element is made of the drawn number *)
Local Open Scope R_scope.

(** afrand_mt.h:153-163, 192: gen_vector(a): span = 2a, ofs = -a *)
Definition el_span (span ofs : R) (u : R) : R := u * span + ofs.
Definition el_sym (a : R) := el_span (a * 2) (- a).
(** afrand_mt.h:178-181, 195-200: gen_vector(neg, pos) *)
Definition el_between (neg pos : R) := el_span (pos - neg) neg.
(** afrand_mt.h:220: gen_vector_norm *)
Definition el_norm (u : R) : R := u.
(** afrand_mt.h:258: gen_vector_gtz for a floating point type *)
Definition el_gtz (a u : R) : R := u * a.
(** afrand_mt.h:306: bernoulli_vector *)
Definition el_bern (p pos neg u : R) : R := if Rlt_dec u p then pos else neg.
(** afrand.h:93 and cstd.h:97: gen_vector(a) of the generators with one engine *)
Definition el_sym1 (a u : R) : R := 2 * a * (u - / 2).

(** ** Normal distribution.  std::normal_distribution(m, s) returns m + s z for a standard
    normal number z of its generator (the C++ standard fixes the distribution only; this is
    what the usual implementations do). *)
Definition el_normal (m s z : R) : R := m + s * z.

(** afrand_mt.h:345-351: [distr(m, st)] *)
Definition mt_normal_call {E D} (d0 : D) draw (m st : R) ptr n rs bnd (rngs : list E) :=
  mt_call d0 draw (el_normal m st) ptr n rs bnd rngs.

(** _i_rng.h:214-219, used by AFRand and CStd: [distr(m, n)] *)
Definition st_normal_call {E D} (d0 : D) draw (m st : R) ptr n (s : E) :=
  st_call d0 draw (el_normal m (INR n)) ptr n s.

(** ** gen_i, afrand_mt.h:124-131 / afrand.h:64-70: IRandomX(0, (int)(lessThan - 1)).
    [irx lo hi] is the library's integer in [lo, hi].  [int32] is the conversion to int. *)
Local Open Scope Z_scope.
Definition int32 (x : Z) : Z := (x + 2 ^ 31) mod 2 ^ 32 - 2 ^ 31.
Definition gen_i_af (irx : Z -> Z -> Z) (lessThan : Z) : Z := irx 0 (int32 (lessThan - 1)).
(** cstd.h:70-74: rand() % lessThan *)
Definition gen_i_cstd (rnd lessThan : Z) : Z := Z.rem rnd lessThan.

(** ** Seeding, afrand_mt.h:70-84 and 107-119. *)
Local Open Scope nat_scope.
Section Seed.
Context {E : Type} (mk : Z -> E) (initA : Z -> nat -> E).

(** 70-84: engine i is constructed with the seed s + i *)
Definition construct_rngs (W : nat) (s : Z) : list E :=
  map (fun i => mk (s + Z.of_nat i)%Z) (seq 0 (W + 1)).

(** 107-119: run() over workers_count() items; every range reseeds the engine of its
    thread. *)
Fixpoint seed_parts (s : Z) (parts : list prange) (rngs : list E) : option (list E) :=
  match parts with
  | [] => Some rngs
  | r :: t => do rngs' <- bset rngs (r_tid r) (initA s (r_tid r)); seed_parts s t rngs'
  end.

Definition seed_mt (s : Z) (rs : list prange) (rngs : list E) : option (list E) :=
  seed_parts s (run_ranges rs 0 (length rs + 1)) rngs.
End Seed.
