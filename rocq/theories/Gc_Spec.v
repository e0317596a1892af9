(** What the gradient check is expected to do (independent of GradCheckFunctor and of
    the inspector). *)
From Coq Require Import Reals.
From Verif Require Import Base TData_Model Gc_Model.
Local Open Scope nat_scope.

Section S.
Context {G : Type}.
Notation hist := (list event).
Implicit Types (W : list (list xf)).

(** ** Passes over the network; [a]: layer and column of the activation that is moved,
    up or down.  Events in the order of time. *)
Definition moved_act (a : option (nat * nat * bool)) (idx : nat) : list event :=
  match a with Some (j, c, b) => if j =? idx then [VAct idx c b] else [] | None => [] end.
Fixpoint fwd_l W a (m : nat) (l : glayer) : list event :=
  match l with
  | GFC idx _ _ _ => VMul idx m (nth idx W []) :: moved_act a idx
  | GId idx _ => moved_act a idx
  | GPack idx _ k ls => fwd_ls W a (k * m) ls ++ moved_act a idx
  end
with fwd_ls W a (m : nat) (ls : glist) : list event :=
  match ls with GNil => [] | GCons l ls => fwd_l W a m l ++ fwd_ls W a m ls end.
Definition out_layer (N : gnet) : glayer := GFC (g_oidx N) (g_on N) (g_oinc N) (g_oupd N).
Definition fwd (N : gnet) W a m : list event := fwd_ls W a m (g_hid N) ++ fwd_l W a m (out_layer N).
(** layers in the order of back-propagation *)
Fixpoint back_l (l : glayer) : list nat :=
  match l with GFC idx _ _ _ => [idx] | GId idx _ => [idx] | GPack idx _ _ ls => idx :: back_ls ls end
with back_ls (ls : glist) : list nat := match ls with GNil => [] | GCons l ls => back_ls ls ++ back_l l end.
Definition back (N : gnet) : list nat := g_oidx N :: back_ls (g_hid N).

(** [inside m l m' l']: layer [l'] is [l] or a layer inside of it; the batch of [l'] has
    [m'] rows if that of [l] has [m] *)
Inductive inside : nat -> glayer -> nat -> glayer -> Prop :=
| in_self m l : inside m l m l
| in_pack m idx n k ls l m' l' : in_glist l ls -> inside (k * m) l m' l' -> inside m (GPack idx n k ls) m' l'
with in_glist : glayer -> glist -> Prop :=
| ig_here l ls : in_glist l (GCons l ls)
| ig_next l x ls : in_glist l ls -> in_glist l (GCons x ls).
(** layer [l] of the network, its batch has [m'] rows *)
Definition layer_of (N : gnet) (m m' : nat) (l : glayer) : Prop :=
  (exists t, in_glist t (g_hid N) /\ inside m t m' l) \/ (m' = m /\ l = out_layer N).
Definition neurons_of (l : glayer) : nat := match l with GFC _ n _ _ => n | GId _ n => n | GPack _ n _ _ => n end.

(** ** Well-formed networks: indices 1, 2, ... without repetition; weights allocated;
    at least one tile *)
Fixpoint tiles_ok (l : glayer) : Prop := match l with GPack _ _ k ls => 0 < k /\ tiles_oks ls | _ => True end
with tiles_oks (ls : glist) : Prop := match ls with GNil => True | GCons l ls => tiles_ok l /\ tiles_oks ls end.
Definition net_ok (N : gnet) : Prop := NoDup (back N) /\ ~ In 0 (back N) /\ tiles_oks (g_hid N).
Definition weights_ok (N : gnet) W : Prop :=
  forall m m' idx n inc u, layer_of N m m' (GFC idx n inc u) -> idx < length W /\ length (nth idx W []) = n * (inc + 1).
(** std::random_shuffle's generator returns values below its argument *)
Definition rng_good (E : genv G) : Prop := forall h k, 0 < k -> ge_rv E h k < k.

(** ** One check *)
Definition moved W (idx n r c : nat) (d : xf) : list (list xf) :=
  let w := nth idx W [] in upd W idx (upd w (r + n * c) (x_add (nth (r + n * c) w XNaN) d)).
Fixpoint upto (idx : nat) (l : list nat) : list nat :=
  match l with [] => [] | x :: l => if x =? idx then [x] else x :: upto idx l end.

(** the check of parameter ([r],[c]) of layer [l] (an activation of the first sample or
    a weight) starting with history [h]: what happens; analytical and numeric value *)
Definition ran_check (E : genv G) (N : gnet) (T : setts) W (rows m : nat) (h : hist)
    (g : group) (l : glayer) (r c : nat) (blk : list event) (an num : xf) : Prop :=
  exists b m',
    (* the batch: distinct samples *)
    NoDup b /\ Forall (fun x => x < rows) b /\ length b = m /\ layer_of N m m' l /\
    let idx := gidx l in
    let sd := if st_seed T then [VSeed] else [] in
    let Wat d := match g with GW => moved W idx (neurons_of l) r c d | GA => W end in
    let Aat up := match g with GA => Some (idx, c, up) | GW => None end in
    (* a pass with the parameter moved down, one with it moved up, one with the network as it is *)
    let t1 := VBatch b :: VStart PMinus :: sd ++ fwd N (Wat (x_neg (st_step T))) (Aat false) m in
    let t2 := t1 ++ VStart PPlus :: sd ++ fwd N (Wat (st_step T)) (Aat true) m in
    let t3 := t2 ++ VStart PAnalytical :: sd ++ fwd N W None m ++ sd in
    blk = t3 ++ map VBack (back N) ++ [VCheck idx g r c an num] /\
    (* numeric value: the central difference of the loss *)
    let diff := x_sub (ge_loss E (rev t2 ++ h)) (ge_loss E (rev t1 ++ h)) in
    let step2 := x_mul (st_step T) (x_nat 2) in
    num = match g with GA => x_mul (x_div (x_nat 1) step2) diff | GW => x_div diff (x_mul step2 (x_nat m')) end /\
    (* analytical value: what the layer computes during back-propagation; not-a-number
       if it computes nothing, unless the layer may be skipped *)
    let hb := rev (map VBack (upto idx (back N))) ++ rev t3 ++ h in
    let raw := match g, l with
      | GA, _ => ge_dLdA E hb idx r c
      | GW, GFC _ _ _ true => ge_dLdW E hb idx r c
      | GW, _ => XNaN end in
    an = if in_list (st_may T) idx && x_isnan raw then XR 0 else raw.

Definition check := (glayer * group * nat * nat * xf * xf)%type.
(** the checks of a run; activations are checked with batches of [st_online] samples,
    weights with batches of [bs] samples *)
Inductive ran (E : genv G) (N : gnet) (T : setts) W (rows bs : nat) : hist -> list event -> list check -> Prop :=
| ran_nil h : ran E N T W rows bs h [] []
| ran_shuffle h evs cs : ran E N T W rows bs (VShuffle :: h) evs cs -> ran E N T W rows bs h (VShuffle :: evs) cs
| ran_size h t b evs cs : ran E N T W rows bs (VBatchSize t b :: h) evs cs -> ran E N T W rows bs h (VBatchSize t b :: evs) cs
| ran_one h g l r c blk an num evs cs :
    ran_check E N T W rows (match g with GA => st_online T | GW => bs end) h g l r c blk an num ->
    ran E N T W rows bs (rev blk ++ h) evs cs -> ran E N T W rows bs h (blk ++ evs) ((l, g, r, c, an, num) :: cs).

(** ** Verdicts *)
Definition both_zero (an num : xf) : Prop := an = XR 0 /\ num = XR 0.
(** the difference relative to the bigger of two numbers *)
Definition rel_diff (a n : R) : R := (Rabs (a - n) / Rmax (Rabs a) (Rabs n))%R.
Definition thresholds (T : setts) (g : group) : eval_setts := match g with GA => st_A T | GW => st_W T end.
Definition finite_thresholds (T : setts) : Prop :=
  forall g, exists w f, ev_warn (thresholds T g) = XR w /\ ev_fail (thresholds T g) = XR f.
(** two numbers that differ by more than the warning threshold and not less than the
    failure threshold *)
Definition wrong (T : setts) (g : group) (an num : xf) : Prop :=
  exists a n w f, an = XR a /\ num = XR n /\ ev_warn (thresholds T g) = XR w /\ ev_fail (thresholds T g) = XR f /\
    (a <> 0 \/ n <> 0)%R /\ (w < rel_diff a n /\ f <= rel_diff a n)%R.
(** number of checks of a layer where both values are zero *)
Definition zeros (cs : list check) (idx : nat) (g : group) : nat :=
  length (filter (fun '(l, g', _, _, an, num) => (gidx l =? idx) && grp_eqb g g' && x_is0 an && x_is0 num) cs).
Definition zeros_allowed (T : setts) (l : glayer) (g : group) : nat :=
  match g, l with
  | GW, GFC _ n inc _ => countToCheck (st_group T) n * (countToCheck (st_sub T) inc + 1) * ev_zeros (st_W T) / 100
  | _, _ => countToCheck (st_group T) (neurons_of l) * ev_zeros (st_A T) / 100
  end.
(** bIgnoreZerodLdWInUndelyingLayer: the weights next to the input may have any number
    of zero derivatives *)
Definition exempt (T : setts) (l : glayer) (g : group) : Prop := g = GW /\ gidx l = 1 /\ st_ignore1 T = true.
Definition in_net (N : gnet) (l : glayer) : Prop := exists m m', layer_of N m m' l.
(** no wrong value, not too many zeros *)
Definition passes (N : gnet) (T : setts) (cs : list check) : Prop :=
  (forall l g r c an num, In (l, g, r, c, an, num) cs -> ~ wrong T g an num) /\
  (forall l g, in_net N l -> ~ exempt T l g -> zeros cs (gidx l) g <= zeros_allowed T l g).

(** ** Coverage *)
Definition done (cs : list check) (l : glayer) (g : group) (r c : nat) : Prop := exists an num, In (l, g, r, c, an, num) cs.
(** [P] holds for [cnt] distinct numbers below [n] *)
Definition picks (n cnt : nat) (P : nat -> Prop) : Prop :=
  exists xs, NoDup xs /\ length xs = cnt /\ Forall (fun x => x < n) xs /\ Forall P xs.
Definition covered (N : gnet) (T : setts) (cs : list check) (g : group) (l : glayer) : Prop :=
  match g with
  | GA => gidx l <> g_oidx N -> picks (neurons_of l) (countToCheck (st_group T) (neurons_of l)) (done cs l GA 0)
  | GW => forall idx n inc u, l = GFC idx n inc u ->
      picks n (countToCheck (st_group T) n) (fun r => picks inc (countToCheck (st_sub T) inc) (done cs l GW r)) /\
      picks n (countToCheck (st_group T) n) (fun r => done cs l GW r inc)
  end.
Definition covers (N : gnet) (T : setts) (cs : list check) : Prop :=
  forall l g, in_net N l -> ~ In (gidx l) (st_ignore T) -> covered N T cs g l.

(** ** Calls *)
(** data that gradcheck() accepts: [rows] samples, [xw] features, [yrows] labels of width [yw] *)
Definition admitted (N : gnet) (T : setts) (rows xw yrows yw bs : nat) : Prop :=
  0 < bs /\ xw = g_in N /\ yw = g_on N /\ rows = yrows /\ Nat.max bs (st_online T) <= rows.
(** initialised for batches of that size, not to be reinitialised *)
Definition initialised (T : setts) (bs : nat) (n : net G) : Prop :=
  n_reinit n = false /\ 0 < n_fp n /\ Nat.max bs (st_online T) <= n_fp n /\ Nat.max bs (st_online T) <= n_tb n.
(** weight updates are not blocked, the batch size in use fits *)
Definition sane (n : net G) : Prop := n_block n = false /\ n_cur n <= (if n_train n then n_tb n else n_fp n).
(** from [s] to [s'] the checks [cs] were made, with result [r] *)
Definition run_result (E : genv G) (N : gnet) (T : setts) (rows bs : nat) (s s' : st G) (cs : list check) : Prop :=
  exists evs post, s_h s' = post ++ rev evs ++ s_h s /\ (post = [] \/ post = [VBatchSize (n_train (s_n s)) (n_cur (s_n s))]) /\
    ran E N T (n_W (s_n s)) rows bs (s_h s) evs cs.
End S.
