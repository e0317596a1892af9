(** Gradient check: loops, verdict and coverage. *)
From Coq Require Import Reals Permutation Lra.
From Verif Require Import Base BaseLemmas TData_Model TData_Spec TData_Proofs2 Gc_Model Gc_Spec Gc_Proofs Gc_Proofs2 Gc_Proofs3.
Local Open Scope nat_scope.

(** ** Verdict on one pair of values *)
Lemma x_is0_iff a : x_is0 a = true <-> a = XR 0.
Proof.
  unfold x_is0. destruct a; split; intros H; try discriminate H.
  - destruct (Req_EM_T r 0); [subst; reflexivity|discriminate H].
  - injection H as ->. destruct (Req_EM_T 0 0); [reflexivity|contradiction].
Qed.
Definition bz (an num : xf) : bool := x_is0 an && x_is0 num.
Lemma rel_err_cases an num : bz an num = false ->
  (exists a n, an = XR a /\ num = XR n /\ (a <> 0 \/ n <> 0)%R /\ rel_err an num = XR (rel_diff a n)) \/ rel_err an num = XNaN.
Proof.
  intros H. destruct an as [|s|a]; [right; reflexivity| |]; destruct num as [|t|n]; try (right; reflexivity).
  - right. unfold rel_err. cbn. destruct s, t; reflexivity.
  - left. exists a, n. split; [reflexivity|]. split; [reflexivity|].
    assert (Hne : (a <> 0 \/ n <> 0)%R).
    { unfold bz, x_is0 in H. destruct (Req_EM_T a 0); [|auto]. destruct (Req_EM_T n 0); [discriminate H|auto]. }
    split; [exact Hne|]. unfold rel_err. cbn [x_sub x_neg x_add x_abs]. unfold x_max, x_lt.
    assert (Hm : XR (Rmax (Rabs a) (Rabs n)) = (if (if Rlt_dec (Rabs a) (Rabs n) then true else false) then XR (Rabs n) else XR (Rabs a))).
    { destruct (Rlt_dec (Rabs a) (Rabs n)); f_equal; [apply Rmax_right|apply Rmax_left]; lra. }
    rewrite <- Hm. cbn [x_div]. destruct (Req_EM_T (Rmax (Rabs a) (Rabs n)) 0) as [Q|Q].
    + exfalso. pose proof (Rmax_l (Rabs a) (Rabs n)). pose proof (Rmax_r (Rabs a) (Rabs n)).
      destruct Hne as [Hne|Hne]; apply Rabs_pos_lt in Hne; lra.
    + reflexivity.
Qed.

Section P.
Context {G : Type} (E : genv G) (N : gnet) (T : setts).
Context (HN : net_ok N) (HE : rng_good E) (HF : finite_thresholds T).
Context (W : list (list xf)) (HW : weights_ok N W) (rows bs : nat).
Notation st := (st G). Notation net := (net G). Notation fst_ := (fst_ G).
Notation good := (good rows). Notation mg := (mg T bs).
Notation ran := (ran E N T W rows bs).

Definition zc (c : check) (idx : nat) (g : group) : nat := zeros [c] idx g.
Lemma zeros_app cs cs' idx g : zeros (cs ++ cs') idx g = zeros cs idx g + zeros cs' idx g.
Proof. unfold zeros. rewrite filter_app, app_length. reflexivity. Qed.
Lemma zeros_one l g r c an num : zeros [(l, g, r, c, an, num)] (gidx l) g = if bz an num then 1 else 0.
Proof. unfold zeros, bz. cbn. rewrite Nat.eqb_refl. destruct g; cbn; destruct (x_is0 an), (x_is0 num); reflexivity. Qed.
Lemma zeros_other cs idx g : (forall l g' r c an num, In (l, g', r, c, an, num) cs -> gidx l = idx -> g' <> g) -> zeros cs idx g = 0.
Proof.
  intros H. unfold zeros. induction cs as [|[[[[[l g'] r] c] an] num] cs IH]; [reflexivity|].
  cbn [filter]. assert (X : (gidx l =? idx) && grp_eqb g g' && x_is0 an && x_is0 num = false).
  { destruct (Nat.eqb_spec (gidx l) idx) as [Q|]; [|reflexivity]. pose proof (H _ _ _ _ _ _ (or_introl eq_refl) Q).
    destruct g, g'; try reflexivity; contradiction. }
  rewrite X. apply IH. intros. eapply H; [right; eassumption|assumption].
Qed.

Lemma checkErr_snd idx g an num mz z : snd (checkErr T idx g an num mz z) = z + if bz an num then 1 else 0.
Proof. unfold checkErr. fold (bz an num). destruct (bz an num); cbn; lia. Qed.
Lemma checkErr_fst l g an num mz z : (~ exempt T l g -> z <= mz) ->
  fst (checkErr T (gidx l) g an num mz z) = false <->
  (~ wrong T g an num /\ (~ exempt T l g -> snd (checkErr T (gidx l) g an num mz z) <= mz)).
Proof.
  intros Hz. unfold checkErr. fold (bz an num). destruct (bz an num) eqn:Hb; cbn [fst snd].
  - unfold bz in Hb. apply andb_prop in Hb as [B1 B2]. apply x_is0_iff in B1, B2. subst.
    assert (Hw : ~ wrong T g (XR 0) (XR 0)).
    { intros (a & n & w & f & Ea & En & _ & _ & Q & _). injection Ea as <-. injection En as <-. destruct Q as [Q|Q]; apply Q; reflexivity. }
    assert (Hex : grp_eqb g GW && (gidx l =? 1) && st_ignore1 T = true <-> exempt T l g).
    { unfold exempt. rewrite !andb_true_iff, Nat.eqb_eq. destruct g; cbn; intuition congruence. }
    destruct (grp_eqb g GW && (gidx l =? 1) && st_ignore1 T) eqn:Hx; cbn [negb andb].
    + split; [intros _; split; [exact Hw|]|reflexivity]. intros Q. elim Q. apply Hex. reflexivity.
    + destruct (Nat.ltb_spec mz (z + 1)).
      * split; [discriminate|]. intros [_ Q]. exfalso. assert (Y : ~ exempt T l g) by (intros Y; apply Hex in Y; discriminate Y).
        specialize (Q Y). lia.
      * split; [|reflexivity]. intros _. split; [exact Hw|]. intros _. lia.
  - destruct (HF g) as (w & f & Hw & Hf). change (ev_of T g) with (thresholds T g). rewrite Hw, Hf.
    destruct (rel_err_cases an num Hb) as [(a & n & -> & -> & Hne & Hr)|Hr]; rewrite Hr.
    + cbn [x_lt]. split.
      * intros Q. split; [|exact Hz]. intros (a' & n' & w' & f' & Ea & En & Ew & Ef & _ & Q1 & Q2).
        injection Ea as <-. injection En as <-. rewrite Hw in Ew. rewrite Hf in Ef. injection Ew as <-. injection Ef as <-.
        destruct (Rlt_dec w (rel_diff a n)); [|contradiction]. destruct (Rlt_dec (rel_diff a n) f); [lra|discriminate Q].
      * intros [Q _]. destruct (Rlt_dec w (rel_diff a n)) as [L1|]; [|reflexivity]. destruct (Rlt_dec (rel_diff a n) f) as [L2|L2]; [reflexivity|].
        elim Q. exists a, n, w, f. repeat (split; [assumption || reflexivity|]). lra.
    + cbn [x_lt]. split; [|reflexivity]. intros _. split; [|exact Hz].
      intros (a' & n' & w' & f' & -> & -> & _ & _ & Hne & _).
      assert (X : rel_err (XR a') (XR n') = XNaN -> False).
      { destruct (rel_err_cases (XR a') (XR n')) as [(? & ? & _ & _ & _ & Q)|Q]; [exact Hb|rewrite Q; discriminate|].
        clear - Hne. unfold rel_err. cbn. destruct (if Rlt_dec (Rabs a') (Rabs n') then true else false) eqn:Q; cbn.
        - destruct (Rlt_dec (Rabs a') (Rabs n')); [|discriminate Q]. unfold x_max, x_lt. cbn.
          destruct (Rlt_dec (Rabs a') (Rabs n')); [|contradiction]. pose proof (Rabs_pos a').
          cbn. destruct (Req_EM_T (Rabs n') 0); [lra|discriminate].
        - destruct (Rlt_dec (Rabs a') (Rabs n')); [discriminate Q|]. unfold x_max, x_lt. cbn.
          destruct (Rlt_dec (Rabs a') (Rabs n')); [contradiction|].
          cbn. destruct (Req_EM_T (Rabs a') 0) as [Z|]; [|discriminate]. destruct Hne as [Hne|Hne]; apply Rabs_pos_lt in Hne; lra. }
      exact (X Hr).
Qed.

(** ** Runs *)
Lemma ran_app h e1 c1 e2 c2 : ran h e1 c1 -> ran (rev e1 ++ h) e2 c2 -> ran h (e1 ++ e2) (c1 ++ c2).
Proof.
  intros H. induction H; cbn [app rev].
  - cbn. auto.
  - intros Q. constructor. apply IHran. rewrite <- app_assoc in Q. exact Q.
  - intros Q. constructor. apply IHran. rewrite <- app_assoc in Q. exact Q.
  - intros Q. rewrite <- app_assoc. cbn [app]. econstructor; [eassumption|]. apply IHran.
    rewrite rev_app_distr, <- app_assoc in Q. exact Q.
Qed.

Definition ext (n0 : net) (g : group) (f f' : fst_) (cs : list check) : Prop :=
  exists evs, hist_of f' = rev evs ++ hist_of f /\ ran (hist_of f) evs cs /\ good n0 (mg g) f'.
Lemma ext_refl n0 g f : good n0 (mg g) f -> ext n0 g f f [].
Proof. intros H. exists []. split; [reflexivity|]. split; [constructor|exact H]. Qed.
Lemma ext_trans n0 g f f1 f2 cs1 cs2 : ext n0 g f f1 cs1 -> ext n0 g f1 f2 cs2 -> ext n0 g f f2 (cs1 ++ cs2).
Proof.
  intros (e1 & H1 & R1 & _) (e2 & H2 & R2 & G2). exists (e1 ++ e2). split; [rewrite H2, H1, rev_app_distr, app_assoc; reflexivity|].
  split; [|exact G2]. apply ran_app; [exact R1|]. rewrite <- H1. exact R2.
Qed.
Lemma ext_good n0 g f f' cs : ext n0 g f f' cs -> good n0 (mg g) f'.
Proof. intros (e & _ & _ & H). exact H. Qed.

Lemma shuffled_ok n0 g f l : good n0 (mg g) f -> exists l' f', shuffled E l f = Some (l', f') /\ Permutation l' l /\ ext n0 g f f' [] /\ f_fail f' = f_fail f.
Proof.
  intros (H1 & H2). unfold shuffled.
  destruct (shuffle_perm (ge_rv E (s_h (f_s f))) l) as (l' & El & Pl); [intros k Hk; apply HE, Hk|]. rewrite El. cbn [obind].
  exists l', (flog VShuffle f). split; [reflexivity|]. split; [exact Pl|]. split; [|reflexivity].
  exists [VShuffle]. split; [reflexivity|]. split; [constructor; constructor|]. split; assumption.
Qed.

Section Call.
(** one call: layer [l], group [g] *)
Context (n0 : net) (l : glayer) (g : group) (m' : nat) (mz : nat).
Context (Hb : n_block n0 = true) (HWn : n_W n0 = W) (Hm : 0 < mg g <= rows) (Hl : layer_of N (mg g) m' l).

Definition about (cs : list check) : Prop := forall l1 g1 r c an num, In (l1, g1, r, c, an, num) cs -> l1 = l /\ g1 = g.
Definition clean1 (cs : list check) : Prop :=
  (forall l1 g1 r c an num, In (l1, g1, r, c, an, num) cs -> ~ wrong T g1 an num) /\
  (~ exempt T l g -> zeros cs (gidx l) g <= mz).
Definition J (f0 : fst_) (fz : fst_ * nat) (cs : list check) : Prop :=
  ext n0 g f0 (fst fz) cs /\ snd fz = zeros cs (gidx l) g /\ (f_fail (fst fz) = 0 <-> clean1 cs) /\ about cs.

Lemma J_start f : good n0 (mg g) f -> f_fail f = 0 -> J f (f, 0) [].
Proof.
  intros H Hf. split; [apply ext_refl, H|]. split; [reflexivity|]. split; [|intros ? ? ? ? ? ? []].
  split; [intros _|intros _; exact Hf]. split; [intros ? ? ? ? ? ? []|intros _; cbn; lia].
Qed.
Lemma J_ext f0 f z cs f' : J f0 (f, z) cs -> ext n0 g f f' [] -> f_fail f' = f_fail f -> J f0 (f', z) cs.
Proof.
  intros (H1 & H2 & H3 & H4) He Hf. cbn [fst snd] in *. split; cbn [fst snd].
  - rewrite <- (app_nil_r cs). eapply ext_trans; eassumption.
  - rewrite Hf. auto.
Qed.
Lemma J_step f0 f z cs r c : J f0 (f, z) cs -> f_fail f = 0 -> exists_param N m' l g r c ->
  exists fz' an num, check_one E N T g (gidx l) r c mz (f, z) = Some fz' /\ J f0 fz' (cs ++ [(l, g, r, c, an, num)]).
Proof.
  intros (H1 & H2 & H3 & H4) Hf He. cbn [fst snd] in *.
  destruct (check_one_ok E N T HN HE W HW rows bs n0 m' l g r c mz f z Hb HWn (ext_good _ _ _ _ _ H1) Hm Hl He)
    as (f' & pre & blk & an & num & Ec & Hh & Hpre & Hr & Hg & Hff).
  eexists _, an, num. split; [exact Ec|]. pose proof (proj1 H3 Hf) as [C1 C2]. split; [|split; [|split]]; cbn [fst snd].
  - eapply ext_trans; [exact H1|]. exists (pre ++ blk ++ []). rewrite app_nil_r.
    assert (Hrp : rev pre = pre) by (destruct Hpre as [->| ->]; reflexivity).
    split; [rewrite Hh, rev_app_distr, Hrp, app_assoc; reflexivity|]. split; [|exact Hg].
    rewrite <- (app_nil_r blk).
    assert (X : ran (pre ++ hist_of f) (blk ++ []) [(l, g, r, c, an, num)]) by (econstructor; [exact Hr|constructor]).
    destruct Hpre as [->| ->]; [exact X|constructor; exact X].
  - rewrite checkErr_snd, zeros_app, zeros_one. lia.
  - rewrite Hff. pose proof (checkErr_fst l g an num mz z) as Q. rewrite H2 in Q at 1. specialize (Q C2).
    assert (Z : zeros (cs ++ [(l, g, r, c, an, num)]) (gidx l) g = snd (checkErr T (gidx l) g an num mz z)).
    { rewrite checkErr_snd, zeros_app, zeros_one. lia. }
    unfold clean1. rewrite Z. destruct (fst (checkErr T (gidx l) g an num mz z)).
    + split.
      * intros X. pose proof (layer_idx0 N HN _ _ _ Hl). lia.
      * intros [Y1 Y2]. exfalso. destruct Q as [_ Q]. discriminate Q. split; [|exact Y2].
        eapply Y1. apply in_or_app. right. left. reflexivity.
    + split; [|intros _; exact Hf]. intros _. destruct Q as [Q _]. destruct (Q eq_refl) as [Q1 Q2]. split; [|exact Q2].
      intros l1 g1 r1 c1 an1 num1 Hin. apply in_app_or in Hin as [Hin|[Hin|[]]]; [eapply C1, Hin|]. injection Hin as <- <- <- <- <- <-. exact Q1.
  - intros l1 g1 r1 c1 an1 num1 Hin. apply in_app_or in Hin as [Hin|[Hin|[]]]; [eapply H4, Hin|]. injection Hin as <- <- <- <- <- <-. auto.
Qed.
Lemma done_app cs cs' r c : done cs l g r c -> done (cs ++ cs') l g r c.
Proof. intros (an & num & H). exists an, num. apply in_or_app. left. exact H. Qed.
Lemma done_last cs r c an num : done (cs ++ [(l, g, r, c, an, num)]) l g r c.
Proof. exists an, num. apply in_or_app. right. left. reflexivity. Qed.

(** a loop of checks: parameter ([pr] i, [pc] i) at step i *)
Lemma loop_ok f0 f z cs cnt (pr pc : nat -> nat) body :
  J f0 (f, z) cs -> (forall i, i < cnt -> exists_param N m' l g (pr i) (pc i)) ->
  (forall i fz, i < cnt -> body i fz = check_one E N T g (gidx l) (pr i) (pc i) mz fz) ->
  exists fz' cs', for_loop 0 cnt (fun i => unless_failed (body i)) (f, z) = Some fz' /\ J f0 fz' (cs ++ cs') /\
    (f_fail (fst fz') = 0 -> forall i, i < cnt -> done (cs ++ cs') l g (pr i) (pc i)).
Proof.
  intros HJ He Hbody.
  destruct (for_loop_inv (fun i fz => exists cs', J f0 fz (cs ++ cs') /\
     (f_fail (fst fz) = 0 -> forall j, j < i -> done (cs ++ cs') l g (pr j) (pc j))) 0 cnt (fun i => unless_failed (body i)) (f, z)) as (fz' & H1 & cs' & H2 & H3).
  - exists []. rewrite app_nil_r. split; [exact HJ|]. intros _ j Hj. lia.
  - intros i [f1 z1] Hi (cs' & HJ1 & Hd). unfold unless_failed. cbn [fst] in *.
    destruct (Nat.eqb_spec (f_fail f1) 0) as [Hz|Hz].
    + rewrite Hbody by lia. destruct (J_step _ _ _ _ _ _ HJ1 Hz (He i ltac:(lia))) as (fz2 & an & num & E2 & J2).
      exists fz2. split; [exact E2|]. exists (cs' ++ [(l, g, pr i, pc i, an, num)]). rewrite app_assoc. split; [exact J2|].
      intros _ j Hj. destruct (Nat.eq_dec j i) as [->|]; [apply done_last|]. apply done_app, Hd; [exact Hz|lia].
    + exists (f1, z1). split; [reflexivity|]. exists cs'. split; [exact HJ1|]. cbn. intros Q. contradiction.
  - exists fz', cs'. rewrite Nat.add_0_l in H3. auto.
Qed.
End Call.

Lemma count_le md n : countToCheck md n <= n.
Proof.
  destruct md as [p|p pc]; unfold countToCheck.
  - lia.
  - apply Nat.max_lub; [|lia]. set (q := if 100 <? pc then 100 else pc).
    assert (q <= 100) by (unfold q; destruct (Nat.ltb_spec 100 pc); lia).
    apply Nat.div_le_upper_bound; [lia|]. pose proof (Nat.mul_le_mono_l q 100 n). lia.
Qed.
Lemma picks_of n cnt grp (P : nat -> Prop) : Permutation grp (seq 0 n) -> cnt <= n -> (forall i, i < cnt -> P (nth i grp 0)) -> picks n cnt P.
Proof.
  intros Hp Hc HP. exists (firstn cnt grp).
  assert (Hlen : length grp = n) by (rewrite (Permutation_length Hp); apply seq_length).
  split; [apply (firstn_skipn_nodup grp cnt 0); eapply Permutation_NoDup; [apply Permutation_sym, Hp|apply seq_NoDup]|].
  split; [rewrite firstn_length; lia|]. split.
  - apply Forall_forall. intros x Hx. apply (in_firstn_skipn grp cnt 0) in Hx. eapply Permutation_in in Hx; [|exact Hp]. apply in_seq in Hx. lia.
  - apply Forall_forall. intros x Hx. apply (In_nth _ _ 0) in Hx as (i & Hi & <-). rewrite firstn_length in Hi.
    assert (X : nth i (firstn cnt grp) 0 = nth i grp 0).
    { rewrite <- (firstn_skipn cnt grp) at 2. rewrite app_nth1; [reflexivity|rewrite firstn_length; lia]. }
    rewrite X. apply HP. lia.
Qed.
Lemma perm_nth n grp i : Permutation grp (seq 0 n) -> i < n -> bget grp i = Some (nth i grp 0) /\ nth i grp 0 < n.
Proof.
  intros Hp Hi. assert (Hlen : length grp = n) by (rewrite (Permutation_length Hp); apply seq_length).
  split; [apply bget_nth; lia|]. assert (Hin : In (nth i grp 0) grp) by (apply nth_In; lia).
  eapply Permutation_in in Hin; [|exact Hp]. apply in_seq in Hin. lia.
Qed.

Definition outcome1 (n0 : net) (l : glayer) (g : group) (f f' : fst_) (cs : list check) : Prop :=
  ext n0 g f f' cs /\ about l g cs /\ (f_fail f' = 0 <-> clean1 l g (zeros_allowed T l g) cs) /\
  (f_fail f' = 0 -> covered N T cs g l).

Lemma checkdLdA_ok n0 l m' f : n_block n0 = true -> n_W n0 = W -> 0 < mg GA <= rows -> layer_of N (mg GA) m' l -> gidx l <> g_oidx N ->
  good n0 (mg GA) f -> f_fail f = 0 ->
  exists f' cs, checkdLdA E N T (gidx l) (neurons_of l) f = Some f' /\ outcome1 n0 l GA f f' cs.
Proof.
  intros Hb HWn Hm Hl Ho Hg Hf. unfold checkdLdA.
  destruct (shuffled_ok n0 GA f (seq 0 (neurons_of l)) Hg) as (grp & f1 & E1 & P1 & X1 & F1). rewrite E1. cbn [obind].
  set (n := neurons_of l) in *. set (cnt := countToCheck (st_group T) n).
  pose proof (count_le (st_group T) n) as Hcnt. fold cnt in Hcnt.
  set (mz := cnt * ev_zeros (st_A T) / 100).
  assert (Hmz : mz = zeros_allowed T l GA) by reflexivity.
  pose proof (layer_pos N HN _ _ _ (proj1 Hm) Hl) as Hm'.
  destruct (loop_ok n0 l GA m' mz Hb HWn Hm Hl f f1 0 [] cnt (fun _ => 0) (fun i => nth i grp 0)
     (fun i fz => do c <- bget grp i; check_one E N T GA (gidx l) 0 c mz fz)) as ([f2 z2] & cs & E2 & J2 & D2).
  - eapply J_ext; [apply J_start; assumption|exact X1|exact F1].
  - intros i Hi. destruct (perm_nth n grp i P1 ltac:(lia)) as [_ Q]. cbn. auto.
  - intros i fz Hi. destruct (perm_nth n grp i P1 ltac:(lia)) as [Q _]. rewrite Q. reflexivity.
  - rewrite E2. cbn [obind]. exists f2, cs. split; [reflexivity|]. destruct J2 as (J21 & J22 & J23 & J24). cbn [fst snd app] in *.
    split; [exact J21|]. split; [exact J24|]. split; [rewrite <- Hmz; exact J23|].
    intros Hz _. fold n. apply (picks_of n cnt grp); auto.
Qed.

Lemma checkdLdW_ok n0 idx n inc u m' f : let l := GFC idx n inc u in
  n_block n0 = true -> n_W n0 = W -> 0 < mg GW <= rows -> layer_of N (mg GW) m' l ->
  good n0 (mg GW) f -> f_fail f = 0 ->
  exists f' cs, checkdLdW E N T idx n inc f = Some f' /\ outcome1 n0 l GW f f' cs.
Proof.
  intros l Hb HWn Hm Hl Hg Hf. unfold checkdLdW.
  destruct (shuffled_ok n0 GW f (seq 0 n) Hg) as (grp & f1 & E1 & P1 & X1 & F1). rewrite E1. cbn [obind].
  set (cnt := countToCheck (st_group T) n). set (ci := countToCheck (st_sub T) inc).
  pose proof (count_le (st_group T) n) as Hcnt. fold cnt in Hcnt.
  pose proof (count_le (st_sub T) inc) as Hci. fold ci in Hci.
  set (mz := cnt * (ci + 1) * ev_zeros (st_W T) / 100).
  assert (Hmz : mz = zeros_allowed T l GW) by reflexivity.
  match goal with |- context [for_loop 0 cnt ?b (f1, (0, seq 0 inc))] => set (body := b) end.
  destruct (for_loop_inv (fun i (s : fst_ * (nat * list nat)) => let '(f2, (z, sub)) := s in Permutation sub (seq 0 inc) /\ exists cs, J n0 l GW mz f (f2, z) cs /\
     (f_fail f2 = 0 -> forall j, j < i -> picks inc ci (done cs l GW (nth j grp 0)))) 0 cnt body (f1, (0, seq 0 inc))) as ([f2 [z2 sub2]] & E2 & _ & cs2 & J2 & D2).
  - split; [apply Permutation_refl|]. exists []. split; [eapply J_ext; [apply J_start; assumption|exact X1|exact F1]|]. intros _ j Hj. lia.
  - intros i [f2 [z sub]] Hi (Hsub & cs & HJ & Hd). unfold body, unless_failed. cbn [fst].
    destruct (Nat.eqb_spec (f_fail f2) 0) as [Hz|Hz].
    + destruct (perm_nth n grp i P1 ltac:(lia)) as [Q1 Q2]. rewrite Q1. cbn [obind].
      destruct (shuffled_ok n0 GW f2 sub (ext_good _ _ _ _ _ (proj1 HJ))) as (sub' & f3 & E3 & P3 & X3 & F3). rewrite E3. cbn [obind].
      pose proof (Permutation_trans P3 Hsub) as P3'.
      destruct (loop_ok n0 l GW m' mz Hb HWn Hm Hl f f3 z cs ci (fun _ => nth i grp 0) (fun j => nth j sub' 0)
        (fun j fz => do c <- bget sub' j; check_one E N T GW idx (nth i grp 0) c mz fz)) as ([f4 z4] & cs4 & E4 & J4 & D4).
      * eapply J_ext; [exact HJ|exact X3|exact F3].
      * intros j Hj. destruct (perm_nth inc sub' j P3' ltac:(lia)) as [_ Q]. cbn. lia.
      * intros j fz Hj. destruct (perm_nth inc sub' j P3' ltac:(lia)) as [Q _]. rewrite Q. reflexivity.
      * unfold unless_failed in E4. rewrite E4. cbn [obind]. eexists. split; [reflexivity|]. cbv beta iota. split; [exact P3'|].
        exists (cs ++ cs4). split; [exact J4|]. cbn [fst] in D4. intros Hz4 j Hj. destruct (Nat.eq_dec j i) as [->|].
        -- apply (picks_of inc ci sub' _ P3' Hci). intros k Hk. apply D4; assumption.
        -- destruct (Hd Hz j ltac:(lia)) as (xs & K1 & K2 & K3 & K4). exists xs. split; [exact K1|]. split; [exact K2|]. split; [exact K3|].
           eapply Forall_impl; [|exact K4]. intros a Ha. apply done_app, Ha.
    + eexists. split; [reflexivity|]. cbv beta iota. split; [exact Hsub|]. exists cs. split; [exact HJ|]. intros Q. contradiction.
  - rewrite Nat.add_0_l in D2. rewrite E2. cbn [obind].
    destruct (Nat.eqb_spec (f_fail f2) 0) as [Hz|Hz].
    + destruct (shuffled_ok n0 GW f2 grp (ext_good _ _ _ _ _ (proj1 J2))) as (grp' & f3 & E3 & P3 & X3 & F3). rewrite E3. cbn [obind].
      pose proof (Permutation_trans P3 P1) as P3'.
      destruct (loop_ok n0 l GW m' mz Hb HWn Hm Hl f f3 z2 cs2 cnt (fun i => nth i grp' 0) (fun _ => inc)
        (fun i fz => do r <- bget grp' i; check_one E N T GW idx r inc mz fz)) as ([f4 z4] & cs4 & E4 & J4 & D4).
      * eapply J_ext; [exact J2|exact X3|exact F3].
      * intros j Hj. destruct (perm_nth n grp' j P3' ltac:(lia)) as [_ Q]. cbn. lia.
      * intros j fz Hj. destruct (perm_nth n grp' j P3' ltac:(lia)) as [Q _]. rewrite Q. reflexivity.
      * rewrite E4. cbn [obind]. exists f4, (cs2 ++ cs4). split; [reflexivity|].
        destruct J4 as (J41 & J42 & J43 & J44). cbn [fst snd] in *. split; [exact J41|]. split; [exact J44|]. split; [rewrite <- Hmz; exact J43|].
        intros Hz4 idx' n' inc' u' El. injection El as <- <- <- <-. fold cnt ci. split.
        -- apply (picks_of n cnt grp _ P1 Hcnt). intros i Hi. destruct (D2 Hz i Hi) as (xs & K1 & K2 & K3 & K4). exists xs. split; [exact K1|]. split; [exact K2|]. split; [exact K3|].
           eapply Forall_impl; [|exact K4]. intros a Ha. apply done_app, Ha.
        -- apply (picks_of n cnt grp' _ P3' Hcnt). intros i Hi. apply D4; assumption.
    + exists f2, cs2. split; [reflexivity|]. destruct J2 as (J41 & J42 & J43 & J44). cbn [fst snd] in *.
      split; [exact J41|]. split; [exact J44|]. split; [rewrite <- Hmz; exact J43|]. intros Q. contradiction.
Qed.
End P.
