(** What a user of the asynchronous generator relies on. *)
From Coq Require Import Reals ZArith.
From Verif Require Import Base Workers_Model Workers_Spec Kern_Model Kern_Spec Rng_Model Rng_Spec As_Model.
Local Open Scope nat_scope.

Section S.
Context {E D : Type} (uni : E -> R * E) (nrm : E * D -> R * (E * D)).
(** a number the generator has drawn *)
Definition drawn (j : task) (v : R) : Prop :=
  match j with TNormal => exists sd, v = fst (nrm sd) | TUni => exists e, v = fst (uni e) end.
(** The element a drawn number gives: the interval [-a, a], [neg, pos] or [0, 1] is the image of
    [0, 1]; normally distributed numbers are shifted and scaled. *)
Definition wanted (q : request) (z : R) : R :=
  match q with
  | GenSym a => - a + 2 * a * z
  | GenBetween neg pos => neg + (pos - neg) * z
  | GenNorm => z
  | GenNormal m st => m + st * z
  end%R.
Definition made (q : request) (v : R) : Prop := exists z, drawn (req_task q) z /\ v = wanted q z.

(** Memory is granted in the size asked for. *)
Definition good_mem (mem : nat -> option (list R)) : Prop := forall n m, mem n = Some m -> length m = n.
(** The steps of background threads are those of threads that exist. *)
Definition good_bg (T : nat) (l : list (nat * task)) : Prop := Forall (fun x => fst x < T) l.
(** The object is initialised, and deinitialised before it is initialised again. *)
Fixpoint alternates (T : nat) (up : bool) (l : list event) : Prop :=
  match l with
  | [] => True
  | EInit mem :: l' => up = false /\ good_mem mem /\ alternates T true l'
  | EDeinit :: l' => alternates T false l'
  | EBg t _ :: l' => t < T /\ alternates T up l'
  | EGen bg0 bg bg1 _ _ :: l' => good_bg T bg0 /\ (forall k, good_bg T (bg k)) /\ good_bg T bg1 /\ alternates T up l'
  | _ :: l' => alternates T up l'
  end.

Context (rs : list prange) (bnd : request -> nat) (dn0 : D).
(** The answer to a request: n numbers, or a call of the multithreaded generator that writes n
    numbers at any place of any storage and nothing else. *)
Definition answers (q : request) (n : nat) (a : answer (E := E)) : Prop :=
  match a with
  | Buffered v => length v = n /\ Forall (made q) v
  | Synchronous rngs => forall ptr d, ptr + n <= length d ->
      computes (mt_call dn0 (base_draw uni nrm q) (req_base q) ptr n rs (bnd q) rngs) d (all_in (made q) ptr n d)
  end.
Definition served (e : event) (o : outcome (E := E)) : Prop :=
  match e, o with
  | EGen _ _ _ q n, OVec a => answers q n a
  | EInit _, OInit _ => True
  | EGen _ _ _ _ _, _ | EInit _, _ => False
  | _, ONone => True
  | _, _ => False
  end.

(** ** Numbers are used once *)
(** the numbers an engine gives for a sequence of kinds, and its state afterwards *)
Fixpoint stream (ks : list task) (sd : E * D) : list R * (E * D) :=
  match ks with
  | [] => ([], sd)
  | j :: ks' =>
      let '(v, sd) := match j with TNormal => nrm sd | TUni => let '(v, e) := uni (fst sd) in (v, (e, snd sd)) end in
      let '(l, sd) := stream ks' sd in (v :: l, sd)
  end.
Definition same (j k : task) : bool := match j, k with TNormal, TNormal | TUni, TUni => true | _, _ => false end.
(** a log of portions (thread, kind, numbers), the oldest first *)
Definition portions := list (nat * task * list R).
Definition of_thread (t : nat) (log : portions) : list (task * R) :=
  flat_map (fun '(t', j, l) => if t' =? t then map (pair j) l else []) log.
Definition of_task (j : task) (log : portions) : list R :=
  flat_map (fun '(_, k, l) => if same j k then l else []) log.
(** [zs] are the drawn numbers behind the vectors of kind j that were not made synchronously *)
Fixpoint given (j : task) (l : list event) (os : list (outcome (E := E))) (zs : list R) : Prop :=
  match l, os with
  | [], [] => zs = []
  | EGen _ _ _ q _ :: l', OVec (Buffered v) :: os' =>
      if same j (req_task q) then exists z zs', zs = z ++ zs' /\ v = map (wanted q) z /\ given j l' os' zs' else given j l' os' zs
  | _ :: l', _ :: os' => given j l' os' zs
  | _, _ => False
  end.
(** the object is only used: not initialised, deinitialised or seeded *)
Fixpoint in_use (T : nat) (l : list event) : Prop :=
  match l with
  | [] => True
  | EBg t _ :: l' => t < T /\ in_use T l'
  | EGen bg0 bg bg1 _ _ :: l' => good_bg T bg0 /\ (forall k, good_bg T (bg k)) /\ good_bg T bg1 /\ in_use T l'
  | EPreinit _ _ :: l' => in_use T l'
  | _ => False
  end.

(** no normally distributed numbers are announced *)
Fixpoint no_normal (l : list event) : Prop :=
  match l with [] => True | EPreinit TNormal _ :: _ => False | _ :: l' => no_normal l' end.
(** every vector was made synchronously *)
Fixpoint all_sync (os : list (outcome (E := E))) : Prop :=
  match os with [] => True | OVec (Buffered _) :: _ => False | _ :: os' => all_sync os' end.
Fixpoint no_init (l : list event) : Prop :=
  match l with [] => True | EInit _ :: _ => False | _ :: l' => no_init l' end.
(** the numbers of all vectors that were not made synchronously *)
Fixpoint delivered (os : list (outcome (E := E))) : list R :=
  match os with [] => [] | OVec (Buffered v) :: os' => v ++ delivered os' | _ :: os' => delivered os' end.
End S.
