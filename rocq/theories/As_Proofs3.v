(** Large buffers: every drawn number is delivered once, in order. *)
From Coq Require Import Reals ZArith Lia Lra.
From Verif Require Import Base BaseLemmas Workers_Model Workers_Spec Kern_Model Kern_Spec Kern_Proofs DataBuf_Model DataBuf_Spec DataBuf_Proofs
  Rng_Model Rng_Spec Rng_Proofs As_Model As_Spec As_Proofs As_Proofs2.
Local Open Scope nat_scope.

Lemma bset_sum {A} (f : A -> nat) : forall (l l' : list A) t c c', nth_error l t = Some c -> bset l t c' = Some l' ->
  list_sum (map f l') + f c = list_sum (map f l) + f c'.
Proof.
  induction l as [|x l IH]; intros l' [|t] c c' Hn Hs; cbn in *; try discriminate.
  - injection Hn as ->. injection Hs as <-. cbn. lia.
  - destruct (bset l t c') as [l2|] eqn:E; [|discriminate]. injection Hs as <-. cbn. specialize (IH l2 t c c' Hn E). unfold list_sum in *. lia.
Qed.
Lemma sum_bound {A} (f : A -> nat) k : forall (l : list A), (forall x, In x l -> f x <= k) -> list_sum (map f l) <= length l * k.
Proof. induction l as [|x l IH]; intros H; cbn; [lia|]. specialize (H x (or_introl eq_refl)) as Hx. specialize (IH (fun y Hy => H y (or_intror Hy))). unfold list_sum in *. lia. Qed.
Lemma sum_others {A} (f : A -> nat) k : forall (l : list A) t c, (forall x, In x l -> f x <= k) -> nth_error l t = Some c -> f c = 0 ->
  list_sum (map f l) <= (length l - 1) * k.
Proof.
  induction l as [|x l IH]; intros [|t] c H Hn H0; cbn in *; try discriminate.
  - injection Hn as ->. rewrite Nat.sub_0_r. pose proof (sum_bound f k l (fun y Hy => H y (or_intror Hy))). unfold list_sum in *. lia.
  - rewrite Nat.sub_0_r. specialize (IH t c (fun y Hy => H y (or_intror Hy)) Hn H0). specialize (H x (or_introl eq_refl)).
    assert (0 < length l) by (destruct l; [destruct t; discriminate|cbn; lia]). unfold list_sum in *. destruct (length l) as [|m]; [lia|]. cbn in IH. rewrite Nat.sub_0_r in IH. cbn. lia.
Qed.
Lemma sum_in {A} (f : A -> nat) : forall (l : list A) t c, nth_error l t = Some c -> f c <= list_sum (map f l).
Proof. induction l as [|x l IH]; intros [|t] c H; cbn in *; try discriminate; [injection H as ->; lia|]. specialize (IH t c H). unfold list_sum in *. lia. Qed.

Section A.
Context {E D : Type} (uni : E -> R * E) (nrm : E * D -> R * (E * D)) (initA : Z -> nat -> E) (cnt : task -> nat).
Context (T : nat) (Hcnt : forall j, 0 < cnt j).
Local Notation ctx := (@ctx E D).
Local Notation astate := (@astate E D).
Local Notation bg_step := (bg_step uni nrm cnt).
Local Notation bg_run := (bg_run uni nrm cnt).
Local Notation stream := (stream uni nrm).

Lemma stream_app a : forall b sd, stream (a ++ b) sd = let '(l, s1) := stream a sd in let '(m, s2) := stream b s1 in (l ++ m, s2).
Proof.
  induction a as [|j a IH]; intros b sd; cbn [app As_Spec.stream]; [destruct (stream b sd); reflexivity|].
  destruct (match j with TNormal => _ | TUni => _ end) as [v sd1]. rewrite IH. destruct (stream a sd1) as [l s1]. destruct (stream b s1) as [m s2]. reflexivity.
Qed.
Lemma generate_stream j n : forall e d, let '(l, e', d') := generate uni nrm j n e d in length l = n /\ stream (repeat j n) (e, d) = (l, (e', d')).
Proof.
  induction n as [|n IH]; intros e d; cbn [generate repeat As_Spec.stream]; [split; reflexivity|]. destruct j.
  - destruct (nrm (e, d)) as [v [e1 d1]]. specialize (IH e1 d1). destruct (generate uni nrm TNormal n e1 d1) as [[l e2] d2]. destruct IH as [L ->]. cbn. split; [lia|reflexivity].
  - cbn [fst snd]. destruct (uni e) as [v e1]. specialize (IH e1 d). destruct (generate uni nrm TUni n e1 d) as [[l e2] d2]. destruct IH as [L ->]. cbn. split; [lia|reflexivity].
Qed.
Lemma of_thread_app t a b : of_thread t (a ++ b) = of_thread t a ++ of_thread t b. Proof. apply flat_map_app. Qed.
Lemma of_task_app t a b : of_task t (a ++ b) = of_task t a ++ of_task t b. Proof. apply flat_map_app. Qed.

Definition pn (j : task) (c : ctx) : nat := match c_pend c with Some (k, n) => if same j k then n else 0 | None => 0 end.
Definition pend_sum (thr : list ctx) (j : task) : nat := list_sum (map (pn j) thr).

Context (L : task -> nat) (HL : forall j, (T - 1) * cnt j < L j \/ L j = 0).
Context (start : nat -> E * D).
Definition waiting (log : portions) (del : task -> list R) (j : task) : list R := skipn (length (del j)) (of_task j log).

Record finv (s : astate) (log : portions) (del : task -> list R) : Prop := {
  fi_len : length (a_thr s) = T;
  fi_thr : forall t c, nth_error (a_thr s) t = Some c ->
    stream (map fst (of_thread t log)) (start t) = (map snd (of_thread t log), (c_rng c, c_nd c));
  fi_pend : forall t c j n, nth_error (a_thr s) t = Some c -> c_pend c = Some (j, n) -> 0 < n <= cnt j /\ L j <> 0;
  fi_log : forall j, of_task j log = del j ++ waiting log del j;
  fi_task : forall j, a_task s j = negb (L j =? 0);
  fi_bufs : exists p, a_bufs s = Some p /\ forall j,
    if L j =? 0 then b_empty (pick j p) = true else rep (L j) (pick j p) (waiting log del j) (pend_sum (a_thr s) j) }.
(** the place of the next number to be read *)
Definition cur_of (s : astate) (j : task) : nat := match a_bufs s with Some p => b_cur (pick j p) | None => 0 end.

Lemma same_refl j : same j j = true. Proof. destruct j; reflexivity. Qed.
Lemma same_eq j k : same j k = true -> j = k. Proof. destruct j, k; cbn; congruence. Qed.

Lemma bg_step_f t j s log del : t < T -> finv s log del ->
  exists s' x, bg_step t j s = Some s' /\ finv s' (log ++ x) del /\ forall k, cur_of s' k = cur_of s k.
Proof.
  intros Ht F. pose proof F as [F1 F2 F3 F4 F5 (p & Ep & F6)]. unfold As_Model.bg_step. destruct (bget_lt (a_thr s) t) as [c Ec]; [lia|]. rewrite Ec. cbn [obind].
  destruct (c_pend c) as [[j' n]|] eqn:Epd.
  - destruct (F3 t c j' n Ec Epd) as [Hn HLj].
    replace (n <=? Nat.max (cnt TNormal) (cnt TUni)) with true by (symmetry; apply Nat.leb_le; destruct j'; lia). cbn [guard obind].
    pose proof (generate_stream j' n (c_rng c) (c_nd c)) as G. destruct (generate uni nrm j' n (c_rng c) (c_nd c)) as [[l e] d]. destruct G as [Gl Gs].
    rewrite Ep. cbn [obind]. pose proof (F6 j') as RJ. apply Nat.eqb_neq in HLj. rewrite HLj in RJ.
    assert (Hpn : pn j' c = n) by (unfold pn; rewrite Epd, same_refl; reflexivity).
    destruct (fill_spec _ _ _ _ l RJ ltac:(lia)) as (b & -> & B1 & B2). { rewrite Gl, <- Hpn. apply (sum_in (pn j') _ t). exact Ec. } cbn [obind].
    destruct (bset_lt (a_thr s) t (mkC e d None)) as [thr Et]; [lia|]. rewrite Et. cbn [obind]. eexists _, [(t, j', l)]. split; [reflexivity|].
    pose proof Et as Es. apply bset_some in Es. destruct Es as (S1 & S2 & S3). unfold bget in S3.
    assert (W : forall k, waiting (log ++ [(t, j', l)]) del k = waiting log del k ++ (if same k j' then l else [])).
    { intros k. unfold waiting. rewrite of_task_app. cbn [of_task flat_map]. rewrite app_nil_r, skipn_app.
      assert (Z : length (del k) - length (of_task k log) = 0) by (rewrite (F4 k), app_length; lia). rewrite Z. reflexivity. }
    assert (P : forall k, pend_sum thr k = pend_sum (a_thr s) k - (if same k j' then n else 0)).
    { intros k. pose proof (bset_sum (pn k) _ _ t c _ Ec Et) as Q. unfold pend_sum. unfold pn at 2 4 in Q. rewrite Epd in Q. cbn [c_pend] in Q. lia. }
    split; [constructor|].
    + cbn. congruence.
    + intros t' c' Hc. cbn in Hc. rewrite S3 in Hc. rewrite of_thread_app. cbn [of_thread flat_map]. rewrite app_nil_r.
      destruct (Nat.eqb_spec t' t) as [->|Hne].
      * injection Hc as <-. rewrite Nat.eqb_refl, !map_app, stream_app, (F2 t c Ec). cbn [c_rng c_nd].
        rewrite map_map. cbn [fst]. replace (map (fun _ : R => j') l) with (repeat j' n) by (rewrite <- Gl; clear; induction l; cbn; congruence).
        rewrite Gs, map_map. cbn [snd]. rewrite map_id. reflexivity.
      * destruct (Nat.eqb_spec t t'); [congruence|]. rewrite app_nil_r. apply (F2 t' c' Hc).
    + intros t' c' k m Hc Hp. cbn in Hc. rewrite S3 in Hc. destruct (t' =? t); [injection Hc as <-; discriminate|]. apply (F3 t' c' k m Hc Hp).
    + intros k. rewrite W, of_task_app, (F4 k). cbn [of_task flat_map]. rewrite app_nil_r, app_assoc. reflexivity.
    + exact F5.
    + exists (put j' b p). split; [unfold set_buf; cbn; rewrite Ep; reflexivity|]. intros k. rewrite W. cbn [a_thr set_thr]. rewrite P, pick_put. specialize (F6 k).
      destruct (same k j') eqn:Sk.
      * apply same_eq in Sk. subst k. rewrite HLj. replace (match j' with TNormal => match j' with TNormal => b | TUni => pick j' p end | TUni => match j' with TNormal => pick j' p | TUni => b end end) with b by (destruct j'; reflexivity).
        rewrite <- Gl. exact B2.
      * rewrite app_nil_r, Nat.sub_0_r. destruct j', k; try discriminate; exact F6.
    + intros k. unfold cur_of, set_buf, set_thr. cbn [a_bufs]. rewrite Ep, pick_put. destruct j', k; try reflexivity; exact B1.
  - rewrite F5. destruct (L j =? 0) eqn:HLj; cbn [negb].
    + exists s, []. rewrite app_nil_r. auto.
    + rewrite Ep. cbn [obind]. pose proof (F6 j) as RJ. rewrite HLj in RJ. apply Nat.eqb_neq in HLj.
      assert (Hp0 : pn j c = 0) by (unfold pn; rewrite Epd; reflexivity).
      assert (Bd : pend_sum (a_thr s) j <= (length (a_thr s) - 1) * cnt j).
      { apply (sum_others (pn j) (cnt j) _ t c); [|exact Ec|exact Hp0]. intros x Hx. apply In_nth_error in Hx. destruct Hx as [i Hi]. unfold pn. destruct (c_pend x) as [[k m]|] eqn:Ex; [|lia].
        destruct (same j k) eqn:Sk; [|lia]. apply same_eq in Sk. subst k. apply (F3 i x j m Hi Ex). }
      rewrite F1 in Bd. destruct (HL j) as [HLb|]; [|congruence].
      destruct (claim_spec _ _ _ _ (cnt j) RJ (Hcnt j) ltac:(lia)) as (b & -> & B1 & B2).
      set (r := Nat.min (cnt j) (L j - (length (waiting log del j) + pend_sum (a_thr s) j))) in *.
      set (c' := mkC (c_rng c) (c_nd c) (if r =? 0 then None else Some (j, r))). destruct (bset_lt (a_thr s) t c') as [thr Et]; [lia|]. rewrite Et. cbn [obind].
      exists (set_thr (set_buf s j b) thr), []. split; [reflexivity|]. rewrite app_nil_r.
      pose proof Et as Es. apply bset_some in Es. destruct Es as (S1 & S2 & S3). unfold bget in S3.
      assert (P : forall k, pend_sum thr k = pend_sum (a_thr s) k + (if same k j then r else 0)).
      { intros k. pose proof (bset_sum (pn k) _ _ t c _ Ec Et) as Q. unfold pend_sum. unfold pn at 2 4 in Q. rewrite Epd in Q. unfold c' in Q. cbn [c_pend] in Q.
        destruct (Nat.eqb_spec r 0) as [->|]; [destruct (same k j); lia|lia]. }
      split; [constructor|].
      * cbn. congruence.
      * intros t' c0 Hc. cbn in Hc. rewrite S3 in Hc. destruct (Nat.eqb_spec t' t) as [->|Hne]; [injection Hc as <-; apply (F2 t c Ec)|apply (F2 t' c0 Hc)].
      * intros t' c0 k m Hc Hp. cbn in Hc. rewrite S3 in Hc. destruct (t' =? t); [|apply (F3 t' c0 k m Hc Hp)]. injection Hc as <-. unfold c' in Hp. cbn in Hp.
        destruct (Nat.eqb_spec r 0); [discriminate|]. injection Hp as <- <-. split; [lia|exact HLj].
      * exact F4.
      * exact F5.
      * exists (put j b p). split; [unfold set_buf; cbn; rewrite Ep; reflexivity|]. intros k. cbn [a_thr set_thr]. rewrite P, pick_put. specialize (F6 k).
        destruct (same k j) eqn:Sk.
        -- apply same_eq in Sk. subst k. apply Nat.eqb_neq in HLj. rewrite HLj. destruct j; exact B2.
        -- rewrite Nat.add_0_r. destruct j, k; try discriminate; exact F6.
      * intros k. unfold cur_of, set_buf, set_thr. cbn [a_bufs]. rewrite Ep, pick_put. destruct j, k; try reflexivity; exact B1.
Qed.

Lemma bg_run_f del l : forall s log, good_bg T l -> finv s log del ->
  exists s' x, bg_run l s = Some s' /\ finv s' (log ++ x) del /\ forall k, cur_of s' k = cur_of s k.
Proof.
  induction l as [|[t j] l IH]; intros s log H F; cbn [As_Model.bg_run]; [exists s, []; rewrite app_nil_r; auto|].
  inversion H as [|? ? H1 H2]; subst. destruct (bg_step_f t j s log del H1 F) as (s1 & x1 & -> & F1 & C1). cbn [obind].
  destruct (IH s1 _ H2 F1) as (s2 & x2 & -> & F2 & C2). exists s2, (x1 ++ x2). rewrite app_assoc. split; [reflexivity|]. split; [exact F2|]. intros k. rewrite C2. apply C1.
Qed.
Lemma waiting_app s log x del j : finv s log del -> waiting (log ++ x) del j = waiting log del j ++ of_task j x.
Proof.
  intros F. unfold waiting. rewrite of_task_app, skipn_app.
  assert (Z : length (del j) - length (of_task j log) = 0) by (rewrite (fi_log _ _ _ F j), app_length; lia). rewrite Z. reflexivity.
Qed.

Lemma read_f bg j cur m del : (forall k, good_bg T (bg k)) -> L j <> 0 -> forall n k s log, finv s log del -> cur_of s j = cur ->
  m <= length (waiting log del j) -> k + n = m ->
  exists s' x, read_range uni nrm cnt bg j (rng (L j) cur m) k n s = Some (firstn n (skipn k (waiting log del j)), s') /\ finv s' (log ++ x) del /\ cur_of s' j = cur.
Proof.
  intros Hbg HLj. induction n as [|n IH]; intros k s log F Hc Hm Hk; cbn [read_range].
  - exists s, []. rewrite app_nil_r. auto.
  - destruct (bg_run_f del (bg k) s log (Hbg k) F) as (s1 & x1 & -> & F1 & C1). cbn [obind].
    pose proof F1 as [_ _ _ _ _ (p & Ep & R1)]. specialize (R1 j). apply Nat.eqb_neq in HLj. rewrite HLj in R1. rewrite Ep. cbn [obind].
    assert (Cp : b_cur (pick j p) = cur). { rewrite <- Hc, <- (C1 j). unfold cur_of. rewrite Ep. reflexivity. }
    rewrite (waiting_app s log x1 del j F) in R1.
    destruct (nth_error (waiting log del j) k) as [v|] eqn:Ev; [|apply nth_error_None in Ev; lia].
    pose proof (read_spec _ _ _ _ m k v R1 ltac:(rewrite app_length; lia) ltac:(lia) ltac:(rewrite nth_error_app1 by lia; exact Ev)) as G. rewrite Cp in G. rewrite G. cbn [obind].
    destruct (IH (S k) s1 (log ++ x1) F1) as (s2 & x2 & -> & F2 & C2); [rewrite C1; exact Hc|rewrite (waiting_app s) by exact F; rewrite app_length; lia|lia|]. cbn [obind].
    exists s2, (x1 ++ x2). rewrite app_assoc. split; [|split; [exact F2|exact C2]]. f_equal. f_equal.
    rewrite (waiting_app s) by exact F.
    assert (SK : skipn k (waiting log del j) = v :: skipn (S k) (waiting log del j)).
    { clear - Ev. revert k Ev. generalize (waiting log del j) as w. induction w as [|y w IH]; intros [|k] Ev; try discriminate; [cbn in *; congruence|]. cbn [skipn]. rewrite (IH k Ev). reflexivity. }
    rewrite SK. cbn [firstn]. f_equal. rewrite skipn_app, firstn_app.
    assert (Z : n - length (skipn (S k) (waiting log del j)) = 0) by (rewrite skipn_length; lia). rewrite Z. cbn [firstn]. apply app_nil_r.
Qed.

Definition add_del (del : task -> list R) (j : task) (l : list R) (k : task) : list R := if same k j then del k ++ l else del k.

Lemma move_f bg0 bg bg1 j n s log del : good_bg T bg0 -> (forall k, good_bg T (bg k)) -> good_bg T bg1 -> finv s log del ->
  exists o s' x, move_data uni nrm cnt bg0 bg bg1 j n s = Some (o, s') /\
    finv s' (log ++ x) (match o with Some l => add_del del j l | None => del end).
Proof.
  intros H0 H H1 F. unfold move_data. destruct (bg_run_f del bg0 s log H0 F) as (s1 & x1 & -> & F1 & _). cbn [obind].
  pose proof F1 as [_ _ _ _ _ (p & Ep & R1)]. rewrite Ep. specialize (R1 j).
  destruct (pick j (a_size s1) =? 0); [exists None, s1, x1; auto|].
  destruct (L j =? 0) eqn:HLj.
  { unfold acquire. rewrite R1. cbn [negb andb]. exists None, s1, x1; auto. }
  rewrite (acquire_spec _ _ _ _ n R1). destruct ((1 <=? n) && (n <=? length (waiting (log ++ x1) del j))) eqn:En; [|exists None, s1, x1; auto].
  assert (Hn : 1 <= n <= length (waiting (log ++ x1) del j)) by lia. pose proof HLj as HLj'. apply Nat.eqb_neq in HLj'.
  destruct (read_f bg j (b_cur (pick j p)) n del H HLj' n 0 s1 _ F1) as (s2 & x2 & -> & F2 & C2); [unfold cur_of; rewrite Ep; reflexivity|lia|lia|]. cbn [obind skipn].
  destruct (bg_run_f del bg1 s2 _ H1 F2) as (s3 & x3 & -> & F3 & C3). cbn [obind].
  pose proof F3 as [G1 G2 G3 G4 G5 (p3 & Ep3 & R3)]. rewrite Ep3. cbn [obind].
  set (w := waiting (log ++ x1) del j) in *. exists (Some (firstn n w)), (set_buf s3 j (release (pick j p3) (rng (L j) (b_cur (pick j p)) n))), (x1 ++ x2 ++ x3).
  split; [reflexivity|]. rewrite !app_assoc. set (log3 := ((log ++ x1) ++ x2) ++ x3) in *.
  assert (W3 : exists y, waiting log3 del j = w ++ y). { exists (of_task j x2 ++ of_task j x3). unfold log3. rewrite (waiting_app s2 _ x3) by exact F2. rewrite (waiting_app s1 _ x2) by exact F1. rewrite app_assoc. reflexivity. }
  destruct W3 as [y W3].
  assert (Ld : length (add_del del j (firstn n w) j) = length (del j) + n) by (unfold add_del; rewrite same_refl, app_length, firstn_length; lia).
  assert (Wj : waiting log3 (add_del del j (firstn n w)) j = skipn n (waiting log3 del j)).
  { unfold waiting. rewrite Ld. clear. generalize (of_task j log3) as a, (length (del j)) as k. induction a as [|z a IH]; intros [|k]; cbn [skipn Nat.add]; try reflexivity; [destruct n; reflexivity|apply IH]. }
  assert (Cc : b_cur (pick j p3) = b_cur (pick j p)).
  { specialize (C3 j). rewrite C2 in C3. unfold cur_of in C3. rewrite Ep3 in C3. exact C3. }
  assert (Dk : forall k, same k j = false -> add_del del j (firstn n w) k = del k) by (intros k Hk; unfold add_del; rewrite Hk; reflexivity).
  constructor.
  - exact G1.
  - exact G2.
  - exact G3.
  - intros k. destruct (same k j) eqn:Sk.
    + apply same_eq in Sk. subst k. rewrite Wj. unfold add_del. rewrite same_refl, (G4 j), <- app_assoc. f_equal. rewrite <- (firstn_skipn n (waiting log3 del j)) at 1. f_equal.
      rewrite W3, firstn_app. replace (n - length w) with 0 by lia. cbn [firstn]. apply app_nil_r.
    + unfold waiting. rewrite (Dk k Sk). apply G4.
  - exact G5.
  - exists (put j (release (pick j p3) (rng (L j) (b_cur (pick j p)) n)) p3). split; [unfold set_buf; rewrite Ep3; reflexivity|].
    intros k. rewrite pick_put. cbn [a_thr set_buf]. specialize (R3 k). destruct (same k j) eqn:Sk.
    + apply same_eq in Sk. subst k. rewrite HLj, Wj. rewrite HLj in R3.
      pose proof (release_spec _ _ _ _ n n R3 ltac:(rewrite W3, app_length; lia) ltac:(lia) ltac:(lia)) as RR. rewrite Cc in RR.
      assert (SH : release (pick j p3) (shrink (rng (L j) (b_cur (pick j p)) n) n) = release (pick j p3) (rng (L j) (b_cur (pick j p)) n)).
      { unfold rng, shrink. destruct (Nat.leb_spec (b_cur (pick j p) + n) (L j)); cbn [r_n1 r_p1 r_p2 r_n2].
        - rewrite Nat.leb_refl. reflexivity.
        - destruct (Nat.leb_spec (L j - b_cur (pick j p)) n); [reflexivity|]. lia. }
      rewrite SH in RR. destruct j; exact RR.
    + unfold waiting. rewrite (Dk k Sk). destruct j, k; try discriminate; exact R3.
Qed.

Context (rs : list prange) (bnd : request -> nat) (dn0 : D) (HP : pool rs).
Local Notation ev_step := (ev_step uni nrm initA cnt rs bnd dn0).
Local Notation ev_run := (ev_run uni nrm initA cnt rs bnd dn0).

Lemma run_f : forall l g log del, finv (g_as g) log del -> length (g_rngs g) = length rs + 1 -> in_use T l ->
  exists os g' x (zs : task -> list R), ev_run g l = Some (os, g') /\ (forall j, given j l os (zs j)) /\
    finv (g_as g') (log ++ x) (fun j => del j ++ zs j).
Proof.
  assert (Fe : forall s log del del', (forall j, del j = del' j) -> finv s log del -> finv s log del').
  { intros s log del del' X [F1 F2 F3 F4 F5 (p & Ep & F6)]. constructor; auto.
    - intros j. unfold waiting. rewrite <- X. apply F4.
    - exists p. split; [exact Ep|]. intros j. unfold waiting. rewrite <- X. apply F6. }
  induction l as [|e l IH]; intros g log del F Lg H; cbn [As_Model.ev_run].
  - exists [], g, [], (fun _ => []). rewrite app_nil_r. split; [reflexivity|]. split; [reflexivity|]. apply (Fe _ _ del); [intros; symmetry; apply app_nil_r|exact F].
  - destruct e as [t j|j ne|mem| |sd|bg0 bg bg1 q n]; cbn [As_Model.ev_step in_use] in *; try contradiction.
    + destruct H as [Ht H]. destruct (bg_step_f t j (g_as g) log del Ht F) as (s & x & -> & F' & _). cbn [obind].
      destruct (IH (mkG s (g_rngs g)) _ _ F' Lg H) as (os & g' & x' & zs & -> & Z & F2). cbn [obind].
      exists (ONone :: os), g', (x ++ x'), zs. rewrite app_assoc. split; [reflexivity|]. split; [exact Z|exact F2].
    + cbn [obind]. destruct (IH (mkG (preinit j ne (g_as g)) (g_rngs g)) log del) as (os & g' & x' & zs & -> & Z & F2); [|exact Lg|exact H|].
      { destruct F as [F1 F2 F3 F4 F5 F6]. constructor; assumption. }
      cbn [obind]. exists (ONone :: os), g', x', zs. split; [reflexivity|]. split; [exact Z|exact F2].
    + destruct H as (H0 & H1 & H2 & H). unfold generate_vector. destruct (move_f bg0 bg bg1 (req_task q) n (g_as g) log del H0 H1 H2 F) as (o & s & x & -> & F'). cbn [obind].
      destruct o as [z|].
      * cbn [obind]. destruct (IH (mkG s (g_rngs g)) _ _ F' Lg H) as (os & g' & x' & zs & -> & Z & F2). cbn [obind].
        exists (OVec (Buffered (req_scale q z)) :: os), g', (x ++ x'), (fun j => (if same j (req_task q) then z else []) ++ zs j). rewrite app_assoc.
        split; [reflexivity|]. split.
        -- intros j. cbn [given]. destruct (same j (req_task q)); [|exact (Z j)]. exists z, (zs j). split; [reflexivity|]. split; [apply req_scale_ok|apply Z].
        -- eapply Fe; [|exact F2]. intros j. cbn. unfold add_del. destruct (same j (req_task q)); [rewrite app_assoc; reflexivity|reflexivity].
      * destruct (mt_ok dn0 (base_draw uni nrm q) (req_base q) 0 n rs (bnd q) (g_rngs g) HP Lg) as (use & _ & _ & rngs' & -> & Adv). cbn [obind].
        destruct (IH (mkG s rngs') _ _ F' ltac:(cbn; rewrite (proj1 Adv); exact Lg) H) as (os & g' & x' & zs & -> & Z & F2). cbn [obind].
        exists (OVec (Synchronous (g_rngs g)) :: os), g', (x ++ x'), zs. rewrite app_assoc. split; [reflexivity|]. split; [exact Z|exact F2].
Qed.
End A.

Section M.
Context {E D : Type} (uni : E -> R * E) (nrm : E * D -> R * (E * D)) (initA : Z -> nat -> E) (cnt : task -> nat) (rs : list prange) (bnd : request -> nat) (dn0 : D).
Lemma quiesce_id T (s : astate (E := E) (D := D)) : length (a_thr s) = T -> (forall t c, nth_error (a_thr s) t = Some c -> c_pend c = None) -> quiesce uni nrm cnt s = Some s.
Proof.
  intros HT H. unfold quiesce. destruct (for_loop_inv (fun t st => st = s) 0 (length (a_thr s)) (fun t s => do c <- bget (a_thr s) t; match c_pend c with Some (j, _) => bg_step uni nrm cnt t j s | None => Some s end) s) as (s' & E1 & ->); [reflexivity| |exact E1].
  intros t st Ht ->. destruct (bget_lt (a_thr s) t) as [c Ec]; [lia|]. exists s. rewrite Ec. cbn [obind]. rewrite (H t c Ec). split; reflexivity.
Qed.
Theorem once_main mk T sd (ne : task -> nat) mem m l : pool rs -> (forall j, 0 < cnt j) ->
  (forall j, (T - 1) * cnt j < 3 * ne j \/ ne j = 0) -> 0 < ne TNormal + ne TUni ->
  mem (3 * (ne TNormal + ne TUni)) = Some m -> length m = 3 * (ne TNormal + ne TUni) -> in_use T l ->
  exists os g log,
    ev_run uni nrm initA cnt rs bnd dn0 (rng_new rs dn0 mk T sd) (EPreinit TNormal (ne TNormal) :: EPreinit TUni (ne TUni) :: EInit mem :: l) = Some (ONone :: ONone :: OInit true :: os, g) /\
    (forall t, t < T -> map snd (of_thread t log) = fst (stream uni nrm (map fst (of_thread t log)) (mk (sd + Z.of_nat (length rs + 1) + Z.of_nat t)%Z, dn0))) /\
    forall j, exists zs rest, given j l os zs /\ of_task j log = zs ++ rest.
Proof.
  intros HP Hc HL Hne Hmem Hm Hl.
  set (L := fun j => 3 * ne j). set (start := fun t => (mk (sd + Z.of_nat (length rs + 1) + Z.of_nat t)%Z, dn0)).
  cbn [ev_run ev_step obind]. unfold init_rng, as_init. cbn [rng_new g_as a_bufs preinit a_size pick put fst snd Nat.add].
  replace (3 * ne TNormal + 3 * ne TUni) with (3 * (ne TNormal + ne TUni)) by lia.
  destruct (Nat.eqb_spec (3 * (ne TNormal + ne TUni)) 0); [lia|]. rewrite Hmem.
  match goal with |- context[quiesce uni nrm cnt ?s] => set (s0 := s) end.
  assert (N0 : forall t c, nth_error (a_thr s0) t = Some c -> t < T /\ c = mkC (fst (start t)) dn0 None).
  { intros t c H. cbn in H. rewrite nth_error_map in H. destruct (nth_error (seq 0 T) t) as [i|] eqn:Ei; [|discriminate]. injection H as <-.
    assert (Ht : t < T) by (rewrite <- (seq_length T 0); apply nth_error_Some; congruence). split; [exact Ht|].
    apply (nth_error_nth _ _ 0) in Ei. rewrite seq_nth in Ei by exact Ht. subst i. reflexivity. }
  rewrite (quiesce_id T s0) by (try (intros t c Hc0; apply N0 in Hc0; destruct Hc0 as [_ ->]; reflexivity); cbn; rewrite map_length; apply seq_length). cbn [obind].
  match goal with |- context[mkG ?s (g_rngs _)] => set (s1 := s) end. cbn [g_rngs rng_new].
  destruct (run_f uni nrm initA cnt T Hc L ltac:(intros j; specialize (HL j); unfold L; lia) start rs bnd dn0 HP l (mkG s1 (construct_rngs mk (length rs) sd)) [] (fun _ => [])) as (os & g & log & zs & -> & Z & F).
  - cbn [g_as]. constructor.
    + cbn. rewrite map_length. apply seq_length.
    + intros t c H. apply N0 in H. destruct H as [_ ->]. reflexivity.
    + intros t c j n0 H Hp. apply N0 in H. destruct H as [_ ->]. discriminate.
    + reflexivity.
    + intros j. unfold s1. cbn. unfold L. destruct j; cbn [pick fst snd]; destruct (Nat.eqb_spec (3 * ne TNormal) 0), (Nat.eqb_spec (3 * ne TUni) 0); cbn; reflexivity.
    + eexists. split; [reflexivity|]. intros j.
      assert (P0 : pend_sum (a_thr s1) j = 0). { unfold pend_sum, s1. cbn. generalize (seq 0 T). induction l0 as [|a b IH]; [reflexivity|exact IH]. }
      rewrite P0. unfold waiting. cbn [of_task flat_map skipn length].
      destruct (Nat.eqb_spec (L j) 0) as [Z0|Z0]; [destruct j; reflexivity|].
      assert (Lm : length (pick j (firstn (3 * ne TNormal) m, skipn (3 * ne TNormal) m)) = L j) by (destruct j; cbn [pick fst snd]; [rewrite firstn_length|rewrite skipn_length]; unfold L; lia).
      destruct (init_rep (pick j (firstn (3 * ne TNormal) m, skipn (3 * ne TNormal) m))) as [RR _ _]; [lia|]. rewrite Lm in RR. destruct j; exact RR.
  - cbn. unfold construct_rngs. rewrite map_length, seq_length. reflexivity.
  - exact Hl.
  - cbn [app] in F. cbn [obind]. exists os, g, log. split; [reflexivity|]. split.
    + intros t Ht. destruct F as [F1 F2 _ _ _ _]. destruct (nth_error (a_thr (g_as g)) t) as [c|] eqn:Ec; [|apply nth_error_None in Ec; lia]. specialize (F2 t c Ec). unfold start in F2. rewrite F2. reflexivity.
    + intros j. exists (zs j), (waiting log (fun j => [] ++ zs j) j). split; [apply Z|]. apply (fi_log _ _ _ _ _ _ _ _ _ F j).
Qed.
End M.
