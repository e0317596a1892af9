(** Model of the asynchronous random number generator, nntl/interface/rng/afrand_as.h.

    Background threads fill two circular buffers (DataBuf_Model) with numbers, the main thread
    takes them from there; if there are not enough, the multithreaded generator (Rng_Model) is
    used.  Engines are as in Rng_Model.  A background thread's step is either the request for
    work or the generation with the transfer into the buffer; steps of the background threads
    happen in any order at any time, also between any two elements the main thread copies.
    (The order of tasks and waiting of bgworkers.h is that of Bg_Model; any order is allowed
    here.)  Changes of the task list and exec() of bgworkers.h wait until no task is running
    (disperse_locker, the exclusive lock), which is [quiesce].
    Simplifications: the product of a size and bufsizeMul is exact; numbers are reals, written
    and read in one piece. *)
From Coq Require Import Reals ZArith.
From Verif Require Import Base Workers_Model Kern_Model DataBuf_Model Rng_Model.
Local Open Scope nat_scope.

(** _TaskId, 100-105 *)
Inductive task := TNormal | TUni.

Section A.
(** [uni]: Rng.Random(); [nrm]: normDistr(Rng) with the parameters 0 and 1; [initA s t]:
    RandomInitByArray({s, t}) *)
Context {E D : Type} (uni : E -> R * E) (nrm : E * D -> R * (E * D)) (initA : Z -> nat -> E).
(** thread_mem_count4_normal_distr, thread_mem_count4_norm, 116-117 *)
Context (cnt : task -> nat).

(** BgThreadCtx, 86-97; [c_pend]: a request for work that was granted *)
Record ctx := mkC { c_rng : E; c_nd : D; c_pend : option (task * nat) }.
(** 133-148; [a_bufs]: m_pMainBuffer with the buffers in it; [a_size]: ma_bufferSize;
    [a_task]: the tasks of m_bgThreads *)
Record astate := mkA { a_bufs : option (dbuf R * dbuf R); a_size : nat * nat; a_task : task -> bool; a_thr : list ctx }.

Definition pick {A} (j : task) (p : A * A) : A := match j with TNormal => fst p | TUni => snd p end.
Definition put {A} (j : task) (x : A) (p : A * A) : A * A := match j with TNormal => (x, snd p) | TUni => (fst p, x) end.
Definition set_buf s j b := mkA (match a_bufs s with Some p => Some (put j b p) | None => None end) (a_size s) (a_task s) (a_thr s).
Definition set_thr s l := mkA (a_bufs s) (a_size s) (a_task s) l.

(** The loops of _as_normal_distr, 356-358, and _as_norm, 373-375 *)
Fixpoint generate (j : task) (n : nat) (e : E) (d : D) : list R * E * D :=
  match n with
  | 0 => ([], e, d)
  | S n' =>
      let '(v, e, d) := match j with
                        | TNormal => let '(v, (e', d')) := nrm (e, d) in (v, e', d')
                        | TUni => let '(v, e') := uni e in (v, e', d)
                        end in
      let '(l, e, d) := generate j n' e d in (v :: l, e, d)
  end.

(** _as_normal_distr, 346-362; _as_norm, 364-379; for the memory at pTmpMem see 200-214 *)
Definition bg_step (t : nat) (j : task) (s : astate) : option astate :=
  do c <- bget (a_thr s) t;
  match c_pend c with
  | None =>
      if a_task s j then
        do p <- a_bufs s;
        let '(r, b) := should_work (pick j p) (cnt j) in
        do thr <- bset (a_thr s) t (mkC (c_rng c) (c_nd c) (if r =? 0 then None else Some (j, r)));
        Some (set_thr (set_buf s j b) thr)
      else Some s
  | Some (j, n) =>
      do _ <- guard (n <=? Nat.max (cnt TNormal) (cnt TUni));
      let '(l, e, d) := generate j n (c_rng c) (c_nd c) in
      do p <- a_bufs s;
      do b <- as_done (pick j p) l;
      do thr <- bset (a_thr s) t (mkC e d None);
      Some (set_thr (set_buf s j b) thr)
  end.
Fixpoint bg_run (l : list (nat * task)) (s : astate) : option astate :=
  match l with [] => Some s | (t, j) :: l' => do s' <- bg_step t j s; bg_run l' s' end.
(** until no thread is in a task *)
Definition quiesce (s : astate) : option astate :=
  for_loop 0 (length (a_thr s)) (fun t s =>
    do c <- bget (a_thr s) t;
    match c_pend c with Some (j, _) => bg_step t j s | None => Some s end) s.

(** preinit_additive_*, 234-242 *)
Definition preinit (j : task) (ne : nat) (s : astate) : astate :=
  mkA (a_bufs s) (put j (pick j (a_size s) + ne) (a_size s)) (a_task s) (a_thr s).
(** init_rng, 244-283; [mem]: the memory new returns, or None; the result None is abort() *)
Definition as_init (mem : nat -> option (list R)) (s : astate) : option (bool * astate) :=
  match a_bufs s with
  | Some _ => None
  | None =>
      let sz := (3 * fst (a_size s), 3 * snd (a_size s)) in
      let total := fst sz + snd sz in
      if total =? 0 then Some (true, mkA None sz (a_task s) (a_thr s)) else
      match mem total with
      | None => Some (false, mkA None sz (a_task s) (a_thr s))
      | Some m =>
          do s <- quiesce s;
          Some (true, mkA (Some (db_new (firstn (fst sz) m), db_new (skipn (fst sz) m))) sz
            (fun j => if pick j sz =? 0 then a_task s j else true) (a_thr s))
      end
  end.
(** deinit_rng, 287-300 *)
Definition as_deinit (s : astate) : option astate :=
  do s <- quiesce s;
  Some (mkA None (0, 0) (fun _ => false) (a_thr s)).
(** seed, 217-226; [W]: workers_count() of the other pool *)
Definition as_seed (W : nat) (sd : Z) (s : astate) : option astate :=
  do s <- quiesce s;
  Some (set_thr s (map (fun '(t, c) => mkC (initA sd (t + W)) (c_nd c) (c_pend c)) (combine (seq 0 (length (a_thr s))) (a_thr s)))).

(** _move_data, 319-340: [bg k] are the steps of the background threads before the k-th step
    of the main thread; memcpy reads what [feeder_get] describes *)
Fixpoint read_range (bg : nat -> list (nat * task)) (j : task) (r : range) (k n : nat) (s : astate) : option (list R * astate) :=
  match n with
  | 0 => Some ([], s)
  | S n' =>
      do s <- bg_run (bg k) s;
      do p <- a_bufs s;
      do v <- feeder_get (pick j p) r k;
      do (l, s) <- read_range bg j r (S k) n' s;
      Some (v :: l, s)
  end.
Definition move_data (bg0 : list (nat * task)) (bg : nat -> list (nat * task)) (bg1 : list (nat * task)) (j : task) (n : nat) (s : astate) : option (option (list R) * astate) :=
  do s <- bg_run bg0 s;
  match a_bufs s with
  | None => Some (None, s)
  | Some p =>
      if pick j (a_size s) =? 0 then Some (None, s) else
      match acquire (pick j p) n with
      | None => Some (None, s)
      | Some r =>
          do (l, s) <- read_range bg j r 0 n s;
          do s <- bg_run bg1 s;
          do p <- a_bufs s;
          Some (Some l, set_buf s j (release (pick j p) r))
      end
  end.

Local Open Scope R_scope.
(** _apply_scaling, 384-406 *)
Definition apply_scaling (l : list R) (span ofs bestSpan bestOfs : R) : list R :=
  let bHasSpan := if Req_EM_T span bestSpan then false else true in
  let bHasOfs := if Req_EM_T ofs bestOfs then false else true in
  if (bHasOfs || bHasSpan)%bool then
    if (bHasOfs && bHasSpan)%bool then map (fun v => span * v + ofs) l
    else if bHasOfs then map (fun v => v + ofs) l
    else map (fun v => v * span) l
  else l.
Local Open Scope nat_scope.

(** ** The generator, class _AFRand_as, 445-660 *)
(** requests: gen_vector(a), 520-525; gen_vector(neg, pos), 526-531; gen_vector_norm, 535-540;
    normal_vector, 641-646 *)
Inductive request := GenSym (a : R) | GenBetween (neg pos : R) | GenNorm | GenNormal (m st : R).
Definition req_task (q : request) : task := match q with GenNormal _ _ => TNormal | _ => TUni end.
(** 408-412, 433-440 *)
Definition req_scale (q : request) (l : list R) : list R :=
  match q with
  | GenSym a => apply_scaling l (a * 2) (- a) 1 0
  | GenBetween neg pos => apply_scaling l (pos - neg) neg 1 0
  | GenNorm => l
  | GenNormal m st => apply_scaling l st m 1 0
  end%R.
(** what the multithreaded generator does with a drawn number *)
Definition req_base (q : request) : R -> R :=
  match q with
  | GenSym a => el_sym a
  | GenBetween neg pos => el_between neg pos
  | GenNorm => el_norm
  | GenNormal m st => el_normal m st
  end.

(** A vector taken from the buffer, or the call of the multithreaded generator with the
    engines of the pool. *)
Inductive answer := Buffered (v : list R) | Synchronous (rngs : list E).
Record rng_as := mkG { g_as : astate; g_rngs : list E }.

Section G.
(** the pool of the other generator, the threshold, its distribution objects *)
Context (rs : list prange) (bnd : request -> nat) (dn0 : D).
Definition base_draw (q : request) (sd : E * D) : R * (E * D) :=
  match q with GenNormal _ _ => nrm sd | _ => let '(v, e) := uni (fst sd) in (v, (e, snd sd)) end.
Definition generate_vector (bg0 : list (nat * task)) (bg : nat -> list (nat * task)) (bg1 : list (nat * task)) (q : request) (n : nat) (g : rng_as) : option (answer * rng_as) :=
  do (o, s) <- move_data bg0 bg bg1 (req_task q) n (g_as g);
  match o with
  | Some l => Some (Buffered (req_scale q l), mkG s (g_rngs g))
  | None => do rngs <- mt_state dn0 (base_draw q) (req_base q) 0 n rs (bnd q) (g_rngs g); Some (Synchronous (g_rngs g), mkG s rngs)
  end.
(** init_rng, 498-502: the base class' function returns true and does nothing *)
Definition init_rng (mem : nat -> option (list R)) (g : rng_as) : option (bool * rng_as) :=
  do (_, s) <- as_init mem (g_as g); Some (true, mkG s (g_rngs g)).
(** deinit_rng, 503-506 *)
Definition deinit_rng (g : rng_as) : option rng_as := do s <- as_deinit (g_as g); Some (mkG s (g_rngs g)).
(** seed, 484-487 *)
Definition seed (sd : Z) (g : rng_as) : option rng_as :=
  do rngs <- seed_mt initA sd rs (g_rngs g); do s <- as_seed (length rs + 1) sd (g_as g); Some (mkG s rngs).

(** Histories of an object. *)
Inductive event :=
| EBg (t : nat) (j : task)
| EPreinit (j : task) (ne : nat)
| EInit (mem : nat -> option (list R))
| EDeinit
| ESeed (sd : Z)
| EGen (bg0 : list (nat * task)) (bg : nat -> list (nat * task)) (bg1 : list (nat * task)) (q : request) (n : nat).
Inductive outcome := ONone | OInit (ok : bool) | OVec (a : answer).
Definition ev_step (g : rng_as) (e : event) : option (outcome * rng_as) :=
  match e with
  | EBg t j => do s <- bg_step t j (g_as g); Some (ONone, mkG s (g_rngs g))
  | EPreinit j ne => Some (ONone, mkG (preinit j ne (g_as g)) (g_rngs g))
  | EInit mem => do (b, g) <- init_rng mem g; Some (OInit b, g)
  | EDeinit => do g <- deinit_rng g; Some (ONone, g)
  | ESeed sd => do g <- seed sd g; Some (ONone, g)
  | EGen bg0 bg bg1 q n => do (a, g) <- generate_vector bg0 bg bg1 q n g; Some (OVec a, g)
  end.
Fixpoint ev_run (g : rng_as) (l : list event) : option (list outcome * rng_as) :=
  match l with
  | [] => Some ([], g)
  | e :: l' => do (o, g) <- ev_step g e; do (os, g) <- ev_run g l'; Some (o :: os, g)
  end.
(** the constructors, 466-473, and _construct_rngs, 185-215: T background threads; [rs] has
    one range for every thread of the pool but the main one *)
Definition rng_new (mk : Z -> E) (T : nat) (sd : Z) : rng_as :=
  let W := Z.of_nat (length rs + 1) in
  mkG (mkA None (0, 0) (fun _ => false) (map (fun i => mkC (mk (sd + W + Z.of_nat i)%Z) dn0 None) (seq 0 T)))
    (construct_rngs mk (length rs) sd).
End G.
End A.
