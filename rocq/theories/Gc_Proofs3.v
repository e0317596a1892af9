(** Gradient check: one check and loops of checks. *)
From Coq Require Import Reals Permutation.
From Verif Require Import Base BaseLemmas TData_Model TData_Spec TData_Proofs2 Gc_Model Gc_Spec Gc_Proofs Gc_Proofs2.
Local Open Scope nat_scope.

Lemma firstn_skipn_nodup {A} (l : list A) a b : NoDup l -> NoDup (firstn a (skipn b l)).
Proof.
  intros H. assert (H1 : NoDup (skipn b l)).
  { rewrite <- (firstn_skipn b l) in H. exact (nodup_app_r _ _ H). }
  rewrite <- (firstn_skipn a (skipn b l)) in H1. exact (nodup_app_l _ _ H1).
Qed.
Lemma in_firstn_skipn {A} (l : list A) a b x : In x (firstn a (skipn b l)) -> In x l.
Proof.
  intros H. rewrite <- (firstn_skipn b l). apply in_or_app. right.
  rewrite <- (firstn_skipn a (skipn b l)). apply in_or_app. left. exact H.
Qed.

Section P.
Context {G : Type} (E : genv G) (N : gnet) (T : setts).
Context (HN : net_ok N) (HE : rng_good E).
Context (W : list (list xf)) (HW : weights_ok N W) (rows bs : nat).
Notation st := (st G). Notation net := (net G). Notation fst_ := (fst_ G).

Definition mg (g : group) : nat := match g with GA => st_online T | GW => bs end.
Definition hist_of (f : fst_) : list event := s_h (f_s f).
Definition good (n0 : net) (m : nat) (f : fst_) : Prop :=
  idle n0 (f_s f) /\ f_rows f = rows /\ Permutation (f_idx f) (seq 0 rows) /\ f_cur f = m.
Definition shuffles (pre : list event) : Prop := pre = [] \/ pre = [VShuffle].

Lemma nextBatch_ok n0 m f : good n0 m f -> 0 < m <= rows ->
  exists f' b pre, nextBatch E f = Some f' /\ hist_of f' = VBatch b :: pre ++ hist_of f /\ shuffles pre /\
    NoDup b /\ Forall (fun x => x < rows) b /\ length b = m /\ good n0 m f' /\ f_fail f' = f_fail f.
Proof.
  intros ((H1 & H2 & H3) & Hr & Hp & Hc) Hm. unfold nextBatch. rewrite Hr, Hc.
  destruct (Nat.eqb_spec m rows) as [->|Hne].
  - eexists _, (seq 0 rows), []. split; [reflexivity|]. split; [reflexivity|]. split; [left; reflexivity|].
    split; [apply seq_NoDup|]. split; [apply Forall_forall; intros x Hx; apply in_seq in Hx; lia|].
    split; [apply seq_length|]. split; [|reflexivity]. split; [split; [exact H1|split; assumption]|]. auto.
  - assert (Hb : forall idx o, Permutation idx (seq 0 rows) -> o + m <= rows ->
      let b := firstn m (skipn o idx) in NoDup b /\ Forall (fun x => x < rows) b /\ length b = m).
    { intros idx o Hpi Ho b. split; [apply firstn_skipn_nodup; eapply Permutation_NoDup; [apply Permutation_sym, Hpi|apply seq_NoDup]|].
      split.
      - apply Forall_forall. intros x Hx. apply in_firstn_skipn in Hx. eapply Permutation_in in Hx; [|exact Hpi]. apply in_seq in Hx. lia.
      - unfold b. rewrite firstn_length, skipn_length, (Permutation_length Hpi), seq_length. lia. }
    destruct (Nat.leb_spec (rows - m) (f_next f)) as [Hle|Hlt].
    + destruct (shuffle_perm (ge_rv E (s_h (f_s f))) (f_idx f)) as (idx & Ei & Pi); [intros k Hk; apply HE, Hk|].
      rewrite Ei. cbn [obind f_cur f_next f_idx].
      destruct (Hb idx 0 (Permutation_trans Pi Hp) ltac:(lia)) as (B1 & B2 & B3).
      rewrite ?Hc. rewrite B3, Nat.eqb_refl. cbn [guard obind].
      eexists _, _, [VShuffle]. split; [reflexivity|]. split; [reflexivity|]. split; [right; reflexivity|].
      split; [exact B1|]. split; [exact B2|]. split; [exact B3|]. split; [|reflexivity].
      split; [split; [exact H1|split; assumption]|]. split; [reflexivity|]. split; [exact (Permutation_trans Pi Hp)|reflexivity].
    + cbn [obind f_cur f_next f_idx]. rewrite Hc.
      destruct (Hb (f_idx f) (f_next f) Hp ltac:(lia)) as (B1 & B2 & B3).
      rewrite B3, Nat.eqb_refl. cbn [guard obind].
      eexists _, _, []. split; [reflexivity|]. split; [reflexivity|]. split; [left; reflexivity|].
      split; [exact B1|]. split; [exact B2|]. split; [exact B3|]. split; [|reflexivity].
      split; [split; [exact H1|split; assumption]|]. auto.
Qed.

Definition aims (i : insp) (l : glayer) (g : group) (r c : nat) (may : bool) : Prop :=
  i_check i = gidx l /\ i_grp i = g /\ i_row i = r /\ i_col i = c /\ i_may i = may.
(** the parameter exists *)
Definition exists_param (m' : nat) (l : glayer) (g : group) (r c : nat) : Prop :=
  match g, l with
  | GA, _ => r < m' /\ c < neurons_of l /\ gidx l <> g_oidx N
  | GW, GFC _ n inc _ => r < n /\ c < inc + 1
  | GW, _ => False
  end.
Lemma aims_param i m m' l g r c may : aims i l g r c may -> layer_of N m m' l -> exists_param m' l g r c -> param_ok N i m m' l.
Proof.
  intros (A1 & A2 & A3 & A4 & A5) Hl He. split; [exact Hl|]. split; [auto|]. unfold fits. rewrite A2, A3, A4.
  destruct g; cbn in He.
  - destruct He as (E1 & E2 & E3). split; [auto|]. intros _. exact E3.
  - destruct l; try contradiction. split; [exact He|discriminate].
Qed.

Definition sd : list event := if st_seed T then [VSeed] else [].
Definition Wp (l : glayer) (g : group) (r c : nat) (p : phase) : list (list xf) :=
  match p, g with
  | PAnalytical, _ | _, GA => W
  | PPlus, GW => moved W (gidx l) (neurons_of l) r c (st_step T)
  | PMinus, GW => moved W (gidx l) (neurons_of l) r c (x_neg (st_step T))
  end.
Definition Ap (l : glayer) (g : group) (c : nat) (p : phase) : option (nat * nat * bool) :=
  match p, g with
  | PAnalytical, _ | _, GW => None
  | PPlus, GA => Some (gidx l, c, true)
  | PMinus, GA => Some (gidx l, c, false)
  end.

Lemma pass_ok n0 p m m' l g r c may f : n_block n0 = true -> n_W n0 = W -> good n0 m f -> layer_of N m m' l -> exists_param m' l g r c ->
  aims (s_i (f_s f)) l g r c may ->
  exists f', run (fprop E N T (f_cur (phase_start p f))) (with_s (seed T (f_s (phase_start p f))) (phase_start p f)) = Some f' /\
    hist_of f' = rev (VStart p :: sd ++ fwd N (Wp l g r c p) (Ap l g c p) m) ++ hist_of f /\
    aims (s_i (f_s f')) l g r c may /\ i_phase (s_i (f_s f')) = p /\ i_an (s_i (f_s f')) = XNaN /\
    (numeric p = true -> i_bs (s_i (f_s f')) = m') /\ good n0 m f' /\ f_fail f' = f_fail f.
Proof.
  intros Hb HWn ((H1 & H2 & H3) & Hr & Hp & Hc) Hl He Ha.
  set (f1 := with_s (seed T (f_s (phase_start p f))) (phase_start p f)).
  assert (Hi1 : s_i (f_s f1) = gc_phase p (s_i (f_s f))) by (unfold f1, seed; destruct (st_seed T); reflexivity).
  assert (Hh1 : s_h (f_s f1) = rev (VStart p :: sd) ++ hist_of f) by (unfold f1, seed, sd; destruct (st_seed T); reflexivity).
  assert (Hn1 : s_n (f_s f1) = n0) by (unfold f1, seed; destruct (st_seed T); exact H1).
  destruct Ha as (A1 & A2 & A3 & A4 & A5).
  assert (HP : param_ok N (s_i (f_s f1)) m m' l).
  { eapply (aims_param _ m m' l g r c may); [|exact Hl|exact He]. rewrite Hi1. repeat split; assumption. }
  destruct (fprop_all E N T HN W HW n0 m m' l (f_s f1) Hb HWn) as [o Ho]; [|exact HP|].
  { split; [exact Hn1|]. rewrite Hi1. split; assumption. }
  unfold run. change (f_cur (phase_start p f)) with (f_cur f). rewrite Hc. rewrite Ho. cbn [obind].
  eexists. split; [reflexivity|]. unfold hist_of. cbn [with_s f_s s_h s_i].
  rewrite Hh1, Hi1. split.
  { rewrite app_comm_cons, rev_app_distr, <- app_assoc. f_equal. f_equal. f_equal.
    - unfold effW, Wp, step_of. cbn [gc_phase i_grp i_phase i_check i_row i_col]. rewrite A1, A2, A3, A4. destruct g, p; reflexivity.
    - unfold effA, Ap. cbn [gc_phase i_grp i_phase i_check i_row i_col]. rewrite A1, A2, A4. destruct g, p; reflexivity. }
  split; [repeat split; assumption|]. split; [reflexivity|]. split; [reflexivity|].
  split; [intros Q; unfold nb; cbn [seti gc_phase i_phase i_bs]; rewrite Q; reflexivity|].
  split; [|reflexivity]. split; [split; [reflexivity|split; [exact H2|reflexivity]]|]. auto.
Qed.

Lemma check_one_ok n0 m' l g r c mz f z : n_block n0 = true -> n_W n0 = W -> good n0 (mg g) f -> 0 < mg g <= rows ->
  layer_of N (mg g) m' l -> exists_param m' l g r c ->
  exists f' pre blk an num, check_one E N T g (gidx l) r c mz (f, z) = Some (f', snd (checkErr T (gidx l) g an num mz z)) /\
    hist_of f' = rev blk ++ pre ++ hist_of f /\ shuffles pre /\
    ran_check E N T W rows (mg g) (pre ++ hist_of f) g l r c blk an num /\ good n0 (mg g) f' /\
    f_fail f' = (if fst (checkErr T (gidx l) g an num mz z) then gidx l else f_fail f).
Proof.
  intros Hb HWn Hg Hm Hl He. unfold check_one.
  destruct (nextBatch_ok n0 (mg g) f Hg Hm) as (f1 & b & pre & E1 & Hh1 & Hpre & B1 & B2 & B3 & G1 & F1).
  rewrite E1. cbn [obind]. clear E1.
  set (f2 := on_i (gc_prep (gidx l) g r c (in_list (st_may T) (gidx l))) f1).
  assert (G2 : good n0 (mg g) f2). { destruct G1 as ((I1 & I2 & I3) & Q). split; [split; [exact I1|split; assumption]|exact Q]. }
  assert (A2 : aims (s_i (f_s f2)) l g r c (in_list (st_may T) (gidx l))) by (repeat split).
  (* minus *)
  destruct (pass_ok n0 PMinus (mg g) m' l g r c _ f2 Hb HWn G2 Hl He A2) as (f3 & E3 & Hh3 & A3 & P3 & N3 & R3 & G3 & F3).
  unfold calcLossF at 1. rewrite E3. cbn [obind]. clear E3.
  (* plus *)
  destruct (pass_ok n0 PPlus (mg g) m' l g r c _ f3 Hb HWn G3 Hl He A3) as (f4 & E4 & Hh4 & A4 & P4 & N4 & R4 & G4 & F4).
  unfold calcLossF. rewrite E4. cbn [obind]. clear E4.
  (* analytical *)
  destruct (pass_ok n0 PAnalytical (mg g) m' l g r c _ f4 Hb HWn G4 Hl He A4) as (f5 & E5 & Hh5 & A5 & P5 & N5 & R5 & G5 & F5).
  rewrite E5. cbn [obind]. clear E5.
  set (f6 := with_s (seed T (f_s f5)) f5).
  assert (Hi6 : s_i (f_s f6) = s_i (f_s f5)) by (unfold f6, seed; destruct (st_seed T); reflexivity).
  assert (Hh6 : s_h (f_s f6) = sd ++ hist_of f5) by (unfold f6, seed, sd; destruct (st_seed T); reflexivity).
  pose proof G5 as ((I1 & I2 & I3) & Q1 & Q2 & Q3).
  assert (Hn6 : s_n (f_s f6) = n0) by (unfold f6, seed; destruct (st_seed T); exact I1).
  destruct (bprop_all E N HN n0 (mg g) m' l (f_s f6) Hb) as (i7 & E7 & S7 & P7 & M7 & V7).
  { split; [exact Hn6|]. rewrite Hi6. split; assumption. }
  { rewrite Hi6. eapply aims_param; eassumption. } { rewrite Hi6. exact P5. } { rewrite Hi6. exact N5. }
  unfold run. rewrite Q3. rewrite E7. cbn [obind].
  cbn [with_s f_s s_i].
  assert (Hbs : get_bs (s_i (f_s f3)) = m').
  { unfold get_bs. rewrite (R3 eq_refl). pose proof (layer_pos N HN _ _ _ (proj1 Hm) Hl). destruct m'; [lia|]. rewrite andb_false_r. reflexivity. }
  rewrite Hbs.
  set (num := match g with GA => _ | GW => _ end).
  set (an := get_analytical i7).
  destruct (checkErr T (gidx l) g an num mz z) as [bad z'] eqn:Eck. cbn [fst snd].
  eexists _, pre, _, an, num. rewrite Eck. cbn [fst snd]. split; [reflexivity|].
  (* the three traces *)
  set (t1 := VBatch b :: VStart PMinus :: sd ++ fwd N (Wp l g r c PMinus) (Ap l g c PMinus) (mg g)).
  set (t2 := t1 ++ VStart PPlus :: sd ++ fwd N (Wp l g r c PPlus) (Ap l g c PPlus) (mg g)).
  set (t3 := t2 ++ VStart PAnalytical :: sd ++ fwd N W None (mg g) ++ sd).
  assert (K3 : hist_of f3 = rev t1 ++ pre ++ hist_of f).
  { rewrite Hh3. unfold t1. cbn [rev]. rewrite <- !app_assoc. change (hist_of f2) with (hist_of f1). rewrite Hh1. reflexivity. }
  assert (K4 : hist_of f4 = rev t2 ++ pre ++ hist_of f).
  { rewrite Hh4, K3. unfold t2. rewrite rev_app_distr, <- app_assoc. reflexivity. }
  assert (Hsd : rev sd = sd) by (unfold sd; destruct (st_seed T); reflexivity).
  assert (K6 : s_h (f_s f6) = rev t3 ++ pre ++ hist_of f).
  { rewrite Hh6, Hh5, K4. unfold t3. rewrite !rev_app_distr. cbn [rev]. rewrite !rev_app_distr, Hsd, <- !app_assoc.
    replace (Wp l g r c PAnalytical) with W by (destruct g; reflexivity). replace (Ap l g c PAnalytical) with (@None (nat * nat * bool)) by (destruct g; reflexivity).
    reflexivity. }
  split.
  { transitivity (rev (t3 ++ map VBack (back N) ++ [VCheck (gidx l) g r c an num]) ++ pre ++ hist_of f); [|reflexivity].
    rewrite !rev_app_distr. cbn [rev app]. rewrite <- !app_assoc. rewrite <- K6.
    destruct bad; reflexivity. }
  split; [exact Hpre|]. split.
  { exists b, m'. split; [exact B1|]. split; [exact B2|]. split; [exact B3|]. split; [exact Hl|]. cbv beta zeta.
    fold t1. fold t2. fold t3.
    assert (Et1 : VBatch b :: VStart PMinus :: (if st_seed T then [VSeed] else []) ++
       fwd N (match g with GA => W | GW => moved W (gidx l) (neurons_of l) r c (x_neg (st_step T)) end)
             (match g with GA => Some (gidx l, c, false) | GW => None end) (mg g) = t1).
    { unfold t1, sd, Wp, Ap. destruct g; reflexivity. }
    rewrite Et1.
    assert (Et2 : t1 ++ VStart PPlus :: (if st_seed T then [VSeed] else []) ++
       fwd N (match g with GA => W | GW => moved W (gidx l) (neurons_of l) r c (st_step T) end)
             (match g with GA => Some (gidx l, c, true) | GW => None end) (mg g) = t2).
    { unfold t2, sd, Wp, Ap. destruct g; reflexivity. }
    rewrite Et2. change (if st_seed T then [VSeed] else []) with sd. fold t3.
    split; [reflexivity|]. split.
    - unfold num. change (s_h (f_s f4)) with (hist_of f4). change (s_h (f_s f3)) with (hist_of f3). rewrite K4, K3. reflexivity.
    - unfold an, get_analytical. rewrite M7, Hi6.
      destruct A5 as (A51 & A52 & A53 & A54 & A55). rewrite A55, V7, K6, Hi6. unfold raw_an. rewrite A52, A53, A54. reflexivity. }
  split.
  - destruct bad; (split; [split; [reflexivity|split; assumption]|]; split; [exact Q1|]; split; [exact Q2|exact Q3]).
  - destruct bad; [reflexivity|]. cbn [flog with_s with_fail f_fail]. unfold f6. cbn [with_s f_fail]. rewrite F5, F4, F3. exact F1.
Qed.
End P.
