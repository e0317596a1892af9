(** Normalisation as a whole; histories. *)
From Coq Require Import Reals Lra Permutation Classical_Prop.
From Verif Require Import Base BaseLemmas Act_Spec TData_Model TData_Spec TData_Proofs2 Nrm_Model Nrm_Spec Nrm_Proofs Nrm_Proofs4 Nrm_Proofs5
  Tf_Model Tf_Spec Tf_Proofs Tf_Proofs2 Tf_Proofs3 Tf_Proofs4.
Local Open Scope nat_scope.

(** what normalisation comes to: result [r], maps [a] and [b] *)
Definition toutcome {Y FS} (F : tfun Y FS) (p : nset) (D : list (list R * Y)) (r : bool) (a b : nat -> R) : Prop :=
  (n_cw p = false -> forall j k, a j = a k /\ b j = b k) /\
  (forall j, j < f_xw F -> (n_dos p = false -> a j = 1%R) /\ (n_doc p = false -> b j = 0%R) /\ ((0 < n_scale p)%R -> (0 < a j)%R)) /\
  (tenough F p D -> positive p ->
    (r = true -> (Forall (met p) (tgroups F p (seen_as a b D)) <-> n_cw p = true \/ ~ tdrifts p (flat_map fst D))) /\
    (Forall (met p) (tgroups F p D) -> r = false /\ forall j, j < f_xw F -> a j = 1%R /\ b j = 0%R) /\
    (r = false -> (forall j, j < f_xw F -> a j = 1%R /\ b j = 0%R) -> Forall (met p) (tgroups F p D)) /\
    (n_tries p = 1 -> r = false) /\
    (ttries p <= n_tries p -> ~ Forall (met p) (tgroups F p D) -> r = true)).

Section P.
Context {Y FS : Type} (F : tfun Y FS) (st : stor) (derive : nat -> nat -> list (list R * Y)) (Q : protocol FS).
Context (C : conforms F st derive Q).
Notation td := (td FS). Notation sample := (list R * Y)%type.
Notation InvP := (InvP F st Q). Notation Inv := (Inv F st Q). Notation W := (f_xw F). Notation s := (f_sibs F).
Notation base := (base F st derive).

Lemma inv_with t h n : Inv t h -> norm_ok F n -> Inv (with_norm t n) h.
Proof. intros [_ H] Hn. split; [exact Hn|]. destruct h as [[fp tb]|]; exact H. Qed.

Lemma final_vals (V : list R) sx : wfs sx -> vals V (NWhole sx) = aff V (sc sx) (ofs sx).
Proof. intros H. rewrite vals_aff. unfold ca, cb, coef. rewrite (eff_wf _ H). reflexivity. Qed.

Lemma wide_pos p ibs fp (D : list sample) V : enough p V -> V = flat_map fst D -> D = base p ibs fp -> 0 < W.
Proof.
  intros He HV HD. pose proof (base_wide F st derive Q C p ibs fp) as HW. rewrite <- HD in HW. destruct (Nat.eq_dec W 0) as [Z|Z]; [|lia]. exfalso.
  apply (enough_nil p V He). rewrite HV. clear - HW Z. induction D as [|r D IH]; [reflexivity|]. inversion HW as [|? ? H1 H2]; subst. cbn [flat_map]. rewrite (IH H2).
  unfold wide in H1. rewrite Z in H1. destruct (fst r); [reflexivity|discriminate].
Qed.
Lemma whole_ok p ibs fp tb t : size_ok F p ibs fp -> InvP t fp tb PIdle -> d_norm t = NNone -> n_cw p = false -> 0 < n_tries p -> is_init F st p t = true -> should_normalize p = true ->
  exists r t', normalize_td F st p ibs t = Some (r, t') /\ Inv t' (Some (fp, tb)) /\ toutcome F p (base p ibs fp) r (ca (d_norm t')) (cb (d_norm t')).
Proof.
  intros Hs HI Hn Hcw Ht Hi Hsn. set (D := base p ibs fp). set (V := flat_map fst D).
  destruct (norm_whole_pure F st derive Q C p ibs fp tb Hs (n_tries p) t scd0 HI) as (t1 & E & I1 & N1 & X1 & K1); [rewrite Hn; exact I|].
  fold D in E, N1. fold V in E, N1. rewrite Hn in E, N1. destruct (wloop p V (n_tries p) NNone scd0) as [[r n'] s'] eqn:El. cbn [fst snd] in E, N1.
  destruct (GI_loop p V (n_tries p) NNone scd0 r n' s' GI0 El) as (G1 & G2 & G3 & G4). cbn [sc bofs scd0] in G2, G3, G4.
  unfold normalize_td. rewrite Hsn, Hi, Hcw. cbn [negb]. rewrite E. cbn [obind].
  assert (Htg : forall n, (forall j k, ca n j = ca n k /\ cb n j = cb n k) -> Forall (met p) (tgroups F p (seen_as (ca n) (cb n) D)) <-> met p (vals V n)).
  { intros n Hc. unfold tgroups. rewrite Hcw. replace (flat_map fst (seen_as (ca n) (cb n) D)) with (vals V n).
    - split; [intros H; inversion H; assumption|auto].
    - unfold vals, V. rewrite <- flat_seen. f_equal. apply seen_as_ext; intros j; apply (Hc 0 j). }
  assert (HtD : Forall (met p) (tgroups F p D) <-> met p V). { unfold tgroups. rewrite Hcw. fold V. split; [intros H; inversion H; assumption|auto]. }
  assert (HtE : tenough F p D -> enough p V). { unfold tenough, tgroups. rewrite Hcw. fold V. intros H. inversion H. assumption. }
  assert (Hsame : forall n, match n with NCols _ => False | _ => True end -> forall j k, ca n j = ca n k /\ cb n j = cb n k).
  { intros n Hc j k. apply same_coef. exact Hc. }
  destruct r; cbn [negb].
  2:{ exists false, t1. split; [reflexivity|]. split; [apply I1|]. rewrite N1 in K1 |- *. destruct (GI_coef n' s' G1) as [Ca Cb]. split; [intros _; apply Hsame; exact K1|].
      split. { intros j _. destruct (Hsame n' K1 j 0) as [-> ->]. rewrite Ca. split; [exact G2|]. split; [intros K; apply Cb; apply G3; exact K|]. intros K. apply G4; [exact K|lra]. }
      intros He Hpos. apply HtE in He. destruct (n_tries p) as [|k] eqn:Etr; [lia|]. destruct (wloop_main p V He Hpos k) as [M1 M2].
      split; [discriminate|]. split; [intros Hm; rewrite (M1 (proj1 HtD Hm)) in El; discriminate|].
      split. { intros _ Hid. apply HtD. apply NNPP. intros Hm. destruct (M2 Hm _ _ _ El) as (_ & _ & _ & M3). apply (M3 eq_refl).
        apply (Hid 0). apply (wide_pos p ibs fp D V He eq_refl eq_refl). }
      split; [reflexivity|]. intros Hk Hm. rewrite HtD in Hm.
      destruct (M2 Hm _ _ _ El) as (_ & _ & M3 & _). apply M3. unfold ttries in Hk. rewrite Hcw in Hk. destruct (n_dos p && n_doc p); [destruct (Req_EM_T _ _); lia|lia]. }
  fold (dirty s'). replace (negb (bsc s') && negb (bofs s')) with (negb (dirty s')) by (unfold dirty; apply negb_orb).
  destruct (dirty s') eqn:Ed; cbn [negb].
  - exists true, (with_norm t1 (NWhole s')). split; [reflexivity|]. split; [apply inv_with; [apply I1|exact I]|]. cbn [d_norm with_norm].
    assert (Ec : forall j, ca (NWhole s') j = sc s' /\ cb (NWhole s') j = ofs s') by (intros j; unfold ca, cb, coef; rewrite (eff_wf _ (proj1 G1)); auto).
    split; [intros _; apply Hsame; exact I|].
    split. { intros j _. destruct (Ec j) as [-> ->]. split; [exact G2|]. split; [intros K; apply (proj1 G1); apply G3; exact K|]. intros K. apply G4; [exact K|lra]. }
    intros He Hpos. apply HtE in He. destruct (n_tries p) as [|k] eqn:Etr; [lia|]. destruct (wloop_main p V He Hpos k) as [M1 M2].
    assert (Hm : ~ met p V) by (intros Hm; rewrite (M1 Hm) in El; injection El as _ <-; discriminate).
    destruct (M2 Hm _ _ _ El) as (M3 & M4 & M5 & _). rewrite HtD. split.
    { intros _. rewrite (Htg (NWhole s') (Hsame (NWhole s') I)), (final_vals V s' (proj1 G1)), Hcw. destruct (M3 eq_refl) as [_ ->]. fold V. split; [auto|]. intros [X|X]; [discriminate|exact X]. }
    split; [contradiction|]. split; [discriminate|]. split; [|auto]. intros K. injection K as ->. exact (M4 eq_refl).
  - destruct (clean_loop p V (n_tries p) NNone scd0 true n' s' GI0 El Ed) as [-> ->]. exists false, t1. split; [reflexivity|]. split; [apply I1|]. rewrite N1.
    split; [intros _; apply Hsame; exact I|]. split; [intros j _; unfold ca, cb; cbn; split; [reflexivity|]; split; [reflexivity|]; lra|].
    intros He Hpos. apply HtE in He. destruct (n_tries p) as [|k] eqn:Etr; [lia|]. destruct (wloop_main p V He Hpos k) as [M1 M2]. split; [discriminate|].
    split; [intros _; split; [reflexivity|]; intros; split; reflexivity|]. split; [intros _ _; apply HtD; apply NNPP; intros Hm; destruct (M2 Hm _ _ _ El) as (M3 & _); destruct (M3 eq_refl) as [X _]; discriminate|].
    split; [reflexivity|]. intros _ Hm. rewrite HtD in Hm.
    destruct (M2 Hm _ _ _ El) as (M3 & _). destruct (M3 eq_refl) as [X _]. discriminate.
Qed.

Lemma cols_ok p ibs fp tb t : size_ok F p ibs fp -> InvP t fp tb PIdle -> d_norm t = NNone -> n_cw p = true -> 0 < n_tries p -> is_init F st p t = true -> should_normalize p = true ->
  exists r t', normalize_td F st p ibs t = Some (r, t') /\ Inv t' (Some (fp, tb)) /\ toutcome F p (base p ibs fp) r (ca (d_norm t')) (cb (d_norm t')).
Proof.
  intros Hs HI Hn Hcw Ht Hi Hsn. set (D := base p ibs fp).
  destruct (norm_cw_ok F st derive Q C p ibs fp tb Hs (n_tries p) t (repeat scd0 W) (repeat false W)) as (r & t1 & s' & E & I1 & X1 & C1 & P1 & R1 & Mn & V1).
  { exact HI. } { rewrite Hn. apply CI0. } { apply repeat_length. } { intros j Hj. rewrite nth_repeat_lt by exact Hj. discriminate. }
  assert (Z0 : forall j, j < W -> nth j (repeat scd0 W) scd0 = scd0) by (intros; apply nth_repeat_lt; assumption).
  set (cl := col F st derive p ibs fp) in *.
  assert (Ecol : forall j, j < W -> cl (repeat scd0 W) j = colOf D j).
  { intros j Hj. unfold cl, col. rewrite (Z0 j Hj). cbn [sc ofs scd0]. rewrite <- (map_id (colOf D j)). unfold D. apply map_ext. intros v. ring. }
  unfold normalize_td. rewrite Hsn, Hi, Hcw. cbn [negb]. rewrite E. cbn [obind].
  assert (HtD : Forall (met p) (tgroups F p D) <-> forall j, j < W -> met p (colOf D j)).
  { unfold tgroups. rewrite Hcw, Forall_map, Forall_forall. split; intros H j Hj; apply H; [apply in_seq; lia|apply in_seq in Hj; lia]. }
  assert (HtE : tenough F p D -> forall j, j < W -> enough p (colOf D j)).
  { unfold tenough, tgroups. rewrite Hcw, Forall_map, Forall_forall. intros H j Hj. apply (H j). apply in_seq. lia. }
  assert (Htg : forall n, CI F n s' -> Forall (met p) (tgroups F p (seen_as (ca n) (cb n) D)) <-> forall j, j < W -> met p (cl s' j)).
  { intros n Hc. unfold tgroups. rewrite Hcw, Forall_map, Forall_forall. assert (K : forall j, j < W -> map (fun s0 : sample => nth j (fst s0) 0%R) (seen_as (ca n) (cb n) D) = cl s' j).
    { intros j Hj. fold (colOf (seen_as (ca n) (cb n) D) j). rewrite (colOf_seen F) by (exact (base_wide F st derive Q C p ibs fp) || exact Hj).
      destruct (CI_coef F n s' j Hc Hj) as [-> ->]. reflexivity. }
    split; intros H j Hj; [rewrite <- (K j Hj); apply H; apply in_seq; lia|]. apply in_seq in Hj. rewrite K by lia. apply H. lia. }
  assert (Hmaps : forall n, CI F n s' -> forall j, j < W -> (n_dos p = false -> ca n j = 1%R) /\ (n_doc p = false -> cb n j = 0%R) /\ ((0 < n_scale p)%R -> (0 < ca n j)%R)).
  { intros n Hc j Hj. destruct (CI_coef F n s' j Hc Hj) as [-> ->]. destruct (P1 j Hj) as (_ & A1 & A2 & A3). rewrite (Z0 j Hj) in A1, A2, A3. cbn [sc ofs scd0] in A1, A2, A3.
    split; [exact A1|]. split; [intros K; apply A2; [exact K|reflexivity]|]. intros K. apply A3; [exact K|lra]. }
  assert (Hrk : tenough F p D -> forall sx j, j < W -> rank p (cl sx j) = 0 <-> met p (cl sx j)).
  { intros He sx j Hj. rewrite rank0. apply settled_iff. apply enough_map. apply (HtE He j Hj). }
  assert (Hbig : forall j, ttries p <= n_tries p -> rank p (cl (repeat scd0 W) j) < n_tries p).
  { intros j K. pose proof (rank_le p (cl (repeat scd0 W) j)). unfold ttries in K. rewrite Hcw in K. destruct (n_dos p && n_doc p); lia. }
  assert (Hdone : tenough F p D -> positive p -> Forall (met p) (tgroups F p D) -> r = true /\ forall j, j < W -> nth j s' scd0 = scd0).
  { intros He Hpos Hm. rewrite HtD in Hm. assert (K : forall j, j < W -> rank p (cl (repeat scd0 W) j) = 0) by (intros j Hj; apply (Hrk He _ j Hj); rewrite Ecol by exact Hj; auto).
    destruct (V1 (HtE He) Hpos) as (V2 & V3); [intros j Hj; rewrite K by exact Hj; exact Ht|exact Ht|]. split; [exact V2|]. intros j Hj.
    rewrite (proj1 (V3 j Hj) (K j Hj)). apply Z0. exact Hj. }
  assert (Hnot : tenough F p D -> ~ Forall (met p) (tgroups F p D) -> exists j, j < W /\ 0 < rank p (cl (repeat scd0 W) j)).
  { intros He Hm. destruct (forallb (fun j => rank p (cl (repeat scd0 W) j) =? 0) (seq 0 W)) eqn:Ef.
    - exfalso. apply Hm. apply HtD. rewrite forallb_forall in Ef. intros j Hj. rewrite <- Ecol by exact Hj. apply (Hrk He _ j Hj). apply Nat.eqb_eq. apply Ef. apply in_seq. lia.
    - assert (Ee : existsb (fun j => negb (rank p (cl (repeat scd0 W) j) =? 0)) (seq 0 W) = true).
      { clear - Ef. induction (seq 0 W) as [|x l IH]; [discriminate|]. cbn [forallb existsb] in *. destruct (_ =? 0); cbn in *; auto. }
      apply existsb_exists in Ee. destruct Ee as (j & Hj & Hr). apply in_seq in Hj. exists j. split; [lia|]. apply negb_true_iff, Nat.eqb_neq in Hr. lia. }
  assert (Lc : length s' = W) by apply C1.
  assert (Hidm : tenough F p D -> positive p -> (forall j, j < W -> ca (d_norm t1) j = 1%R /\ cb (d_norm t1) j = 0%R) -> Forall (met p) (tgroups F p D)).
  { intros He Hpos Hid. apply HtD. intros j Hj. rewrite <- Ecol by exact Hj. apply (Hrk He _ j Hj).
    assert (X : cl s' j = cl (repeat scd0 W) j). { destruct (CI_coef F _ s' j C1 Hj) as [A1 A2]. destruct (Hid j Hj) as [B1 B2]. unfold cl, col. rewrite <- A1, <- A2, B1, B2, (Z0 j Hj). reflexivity. }
    destruct (Mn (HtE He) Hpos j Hj) as [_ X1']. rewrite X in X1'. specialize (X1' Ht). lia. }
  destruct r; cbn [negb].
  2:{ exists false, t1. split; [reflexivity|]. split; [apply I1|]. split; [congruence|]. split; [apply Hmaps; exact C1|]. intros He Hpos. split; [discriminate|].
      split; [intros Hm; destruct (Hdone He Hpos Hm); discriminate|]. split; [auto|]. split; [reflexivity|]. intros K _.
      destruct (V1 (HtE He) Hpos) as (V2 & _); [intros j Hj; apply Hbig; exact K|exact Ht|exact V2]. }
  destruct (forallb (fun s0 => negb (bsc s0) && negb (bofs s0)) s') eqn:Ef.
  - exists false, t1. split; [reflexivity|]. split; [apply I1|]. split; [congruence|]. split; [apply Hmaps; exact C1|]. intros He Hpos. split; [discriminate|].
    rewrite forallb_forall in Ef. assert (Hcl : forall j, j < W -> dirty (nth j s' scd0) = false).
    { intros j Hj. specialize (Ef (nth j s' scd0) (nth_In s' scd0 (eq_ind_r (fun n => j < n) Hj Lc))). unfold dirty. apply andb_prop in Ef. destruct Ef as [E1 E2]. apply negb_true_iff in E1, E2. rewrite E1, E2. reflexivity. }
    split. { intros Hm. split; [reflexivity|]. intros j Hj. destruct (CI_coef F _ s' j C1 Hj) as [-> ->]. destruct (Hdone He Hpos Hm) as [_ K]. rewrite (K j Hj). split; reflexivity. }
    split; [auto|]. split; [reflexivity|]. intros K Hm. destruct (Hnot He Hm) as (j & Hj & Hr). destruct (V1 (HtE He) Hpos) as (_ & V3); [intros i Hi'; apply Hbig; exact K|exact Ht|].
    destruct (V3 j Hj) as [_ V4]. rewrite (Hcl j Hj) in V4. discriminate (V4 Hr).
  - assert (C2 : CI F (NCols s') s'). { split; [exact Lc|]. split; [apply C1|]. split; [exact Lc|]. intros j Hj. split; [apply C1; exact Hj|]. auto. }
    exists true, (with_norm t1 (NCols s')). split; [reflexivity|]. split; [apply inv_with; [apply I1|exact Lc]|]. cbn [d_norm with_norm].
    split; [congruence|]. split; [apply Hmaps; exact C2|]. intros He Hpos.
    split. { intros _. split; [auto|]. intros _. apply (Htg _ C2). intros j Hj. apply (Hrk He s' j Hj). apply (R1 eq_refl j Hj). }
    split. { intros Hm. exfalso. destruct (Hdone He Hpos Hm) as [_ K]. assert (X : forallb (fun s0 => negb (bsc s0) && negb (bofs s0)) s' = true); [|congruence].
      apply forallb_forall. intros x Hx. destruct (In_nth s' x scd0 Hx) as (j & Hj & <-). rewrite K by lia. reflexivity. }
    split; [discriminate|]. split; [|reflexivity]. intros K. exfalso. assert (K1 : forall j, j < W -> rank p (cl (repeat scd0 W) j) = 0) by (intros j Hj; apply (R1 eq_refl j Hj); exact K).
    destruct (V1 (HtE He) Hpos) as (_ & V3); [intros j Hj; rewrite K1 by exact Hj; exact Ht|exact Ht|].
    assert (X : forallb (fun s0 => negb (bsc s0) && negb (bofs s0)) s' = true); [|congruence].
    apply forallb_forall. intros x Hx. destruct (In_nth s' x scd0 Hx) as (j & Hj & <-). rewrite (proj1 (V3 j ltac:(lia)) (K1 j ltac:(lia))), Z0 by lia. reflexivity.
Qed.

Lemma td_ok p ibs fp tb t : size_ok F p ibs fp -> Inv t (Some (fp, tb)) -> d_norm t = NNone -> is_init F st p t = true -> should_normalize p = true ->
  exists r t', normalize_td F st p ibs t = Some (r, t') /\ Inv t' (Some (fp, tb)) /\ toutcome F p (base p ibs fp) r (ca (d_norm t')) (cb (d_norm t')).
Proof.
  intros Hs HI Hn Hi Hsn. assert (Ht : 0 < n_tries p) by (unfold should_normalize in Hsn; apply andb_prop in Hsn; apply Nat.ltb_lt; apply Hsn).
  destruct (n_cw p) eqn:Ecw; [apply (cols_ok p ibs fp tb t)|apply (whole_ok p ibs fp tb t)]; try assumption; split; try exact I; assumption.
Qed.

(** ** normalize_data *)
(** the sizes fit *)
Lemma fit_some t fp tb p ibs : Inv t (Some (fp, tb)) -> tfit F st p ibs (Some (fp, tb)) ->
  is_init F st p t = true /\ size_ok F p ibs fp /\ base p ibs fp = tbase F st derive p ibs (Some (fp, tb)).
Proof.
  intros (_ & H1 & _ & H2 & M & B & H3 & H4 & _) (T1 & T2 & T3). pose proof (cf_sibs _ _ _ _ C) as Hs0. assert (0 < fp) by nia. split; [|split; [|reflexivity]].
  - unfold is_init, is_initialized4inference. rewrite H1, H2. destruct (Nat.eqb_spec fp 0); [lia|]. cbn [orb].
    destruct (Nat.eqb_spec (Z.to_nat (n_bs p)) 0) as [E|E].
    + rewrite Nat.ltb_irrefl. cbn [orb]. replace (fp mod s) with 0; [reflexivity|]. rewrite H3. symmetry. apply Nat.mod_mul. lia.
    + destruct (Nat.ltb_spec fp (Z.to_nat (n_bs p))); [lia|]. rewrite T2. reflexivity.
  - unfold size_ok, asked. destruct (Z.ltb_spec (n_bs p) 0); [split; [lia|]; rewrite H3; apply Nat.mod_mul; lia|].
    destruct (Z.eqb_spec (n_bs p) 0) as [E|E]; [destruct (T3 E) as [T4 T5]; auto|]. split; [lia|exact T2].
Qed.
Lemma fit_none t p ibs fp t1 : Inv t None -> tfit F st p ibs None -> init4inference F st t (Z.of_nat (Z.to_nat (n_bs p))) = (TfSuccess, Z.of_nat fp, t1) ->
  Inv t1 (Some (fp, 0)) /\ d_norm t1 = d_norm t /\ is_init F st p t1 = true /\ size_ok F p ibs fp /\ base p ibs fp = tbase F st derive p ibs None.
Proof.
  intros HI (T1 & T2 & T3) E. destruct (init_inf_ok F st derive Q C t None _ fp t1 HI E) as (I1 & N1 & Efp). pose proof (cf_sibs _ _ _ _ C) as Hs0.
  rewrite Nat2Z.id in Efp. set (big := Nat.max (st_cnt st 0) (st_cnt st 1)) in *.
  assert (Hb : 0 < big). { destruct I1 as (_ & _ & _ & He & _). pose proof (cf_stor _ _ _ _ C He 0 ltac:(lia)). unfold big. lia. }
  destruct (negotiate_ok (Z.to_nat (n_bs p) / s) big Hb) as (G1 & G2 & G3).
  assert (Epos : (0 < n_bs p)%Z -> fp = Z.to_nat (n_bs p)).
  { intros K. pose proof (Nat.div_mod (Z.to_nat (n_bs p)) s ltac:(lia)) as Hdm. rewrite Efp, G2; [rewrite T2 in Hdm; lia|]. nia. }
  assert (Eneg : (n_bs p <= 0)%Z -> fp = s * big).
  { intros K. rewrite Efp, G3; [lia|]. left. replace (Z.to_nat (n_bs p)) with 0 by lia. apply Nat.div_small. lia. }
  assert (Hf : tfit F st p ibs (Some (fp, 0))).
  { split; [|split; [exact T2|]]. { destruct (Z.le_gt_cases (n_bs p) 0) as [K|K]; [rewrite (Eneg K); exact T1|]. rewrite (Epos ltac:(lia)). lia. }
    intros K. rewrite (Eneg ltac:(lia)). apply T3. exact K. }
  destruct (fit_some t1 fp 0 p ibs I1 Hf) as (A1 & A2 & A3). do 4 (split; [assumption|]). rewrite A3. unfold tbase, tsize, asked. fold big.
  destruct (Z.ltb_spec (n_bs p) 0) as [K|K]; [|destruct (n_bs p =? 0)%Z; reflexivity]. rewrite (Eneg ltac:(lia)). reflexivity.
Qed.

Lemma inv_reset t h : Inv t h -> Inv (reset_normalization t) h.
Proof. intros H. apply inv_with; [exact H|exact I]. Qed.
Lemma not_init p t : Inv t None -> is_init F st p t = false.
Proof. intros [_ H]. unfold is_init, is_initialized4inference. rewrite H. rewrite orb_true_r. reflexivity. Qed.
Lemma inf_shape t mf z t' : init4inference F st t mf = (TfSuccess, z, t') -> exists fp, z = Z.of_nat fp.
Proof.
  unfold init4inference. destruct (base_init_checks F st t mf 0) as [[]] ; try discriminate. cbv zeta. destruct (_ <? _)%Z; [discriminate|].
  destruct (f_init F _ _) as [[] f]; intros E; [|discriminate]. injection E as <- _. eexists. reflexivity.
Qed.
Lemma inf_fails t mf e z t' : init4inference F st t mf = (e, z, t') -> d_norm t' = d_norm t.
Proof.
  unfold init4inference, base_init_checks. destruct (_ || _); [intros E; injection E as _ _ <-; reflexivity|]. destruct (bad_size F mf); [intros E; injection E as _ _ <-; reflexivity|].
  destruct (_ || _); [intros E; injection E as _ _ <-; reflexivity|]. cbv zeta. destruct (_ <? _)%Z; [intros E; injection E as _ _ <-; reflexivity|].
  destruct (f_init F _ _) as [[] f]; intros E; injection E as _ _ <-; reflexivity.
Qed.
Lemma inf_left t mf e z t' : d_fp t = 0 -> init4inference F st t mf = (e, z, t') -> is_initialized4inference F st t' 0 = None -> d_fp t' = 0.
Proof.
  intros H0. unfold init4inference, base_init_checks. destruct (st_empty st || negb (st_coherent st)) eqn:Ee; [intros E; injection E as _ _ <-; auto|].
  destruct (bad_size F mf); [intros E; injection E as _ _ <-; auto|].
  change ((0 <? 0)%Z || ((0 <? 0)%Z && bad_size F 0)) with false. cbv zeta. destruct (_ <? _)%Z; [intros E; injection E as _ _ <-; auto|].
  apply orb_false_elim in Ee. destruct Ee as [Ee _]. pose proof (cf_sibs _ _ _ _ C) as Hs0.
  destruct (f_init F _ _) as [ok f]; intros E; injection E as _ _ <-. unfold is_initialized4inference. rewrite Ee. cbn [d_fp with_f with_sizes orb Nat.eqb].
  set (m := negotiate _ _). rewrite Nat.ltb_irrefl, Nat.mod_mul by lia. cbn [Nat.eqb negb]. rewrite !orb_false_r. destruct (Nat.eqb_spec (m * s) 0); [auto|discriminate].
Qed.

Lemma norm_data_ok p ibs mok t h : Inv t h -> tfit F st p ibs h ->
  exists r t', normalize_data F st p ibs mok t = Some (r, t') /\
    (Inv t' h \/ (h = None /\ r = false /\ d_norm t' = NNone /\ (is_initialized4inference F st t' 0 = None -> d_fp t' = 0))) /\
    (should_normalize p = false -> r = true /\ d_norm t' = NNone) /\
    (should_normalize p = true -> h = None -> (fst (fst (init4inference F st (reset_normalization t) (Z.of_nat (Z.to_nat (n_bs p))))) <> TfSuccess \/ mok = false) ->
       r = false /\ d_norm t' = NNone) /\
    (should_normalize p = true -> (h = None -> fst (fst (init4inference F st (reset_normalization t) (Z.of_nat (Z.to_nat (n_bs p))))) = TfSuccess /\ mok = true) ->
       toutcome F p (tbase F st derive p ibs h) r (ca (d_norm t')) (cb (d_norm t')) /\ Inv t' h).
Proof.
  intros HI HF. unfold normalize_data. cbv zeta. pose proof (inv_reset t h HI) as I0. set (t0 := reset_normalization t) in *.
  assert (N0 : d_norm t0 = NNone) by reflexivity.
  destruct (should_normalize p) eqn:Esn; cbn [negb].
  2:{ exists true, t0. split; [reflexivity|]. split; [auto|]. split; [auto|]. split; discriminate. }
  destruct h as [[fp tb]|].
  - destruct (fit_some t0 fp tb p ibs I0 HF) as (A1 & A2 & A3). rewrite A1. cbn [negb andb].
    destruct (td_ok p ibs fp tb t0 A2 I0 N0 A1 Esn) as (r & t' & E & I' & O). rewrite E. cbn [obind]. exists r, t'. split; [reflexivity|]. split; [auto|]. split; [discriminate|].
    split; [discriminate|]. intros _ _. rewrite <- A3. auto.
  - rewrite (not_init p t0 I0). cbn [negb andb]. destruct (init4inference F st t0 (Z.of_nat (Z.to_nat (n_bs p)))) as [[e z] t1] eqn:Ei. cbn [fst].
    pose proof (inf_fails _ _ _ _ _ Ei) as N1. rewrite N0 in N1.
    destruct (match e with TfSuccess => mok | _ => false end) eqn:Eok; cbn [negb].
    + destruct e; try discriminate. subst mok. destruct (inf_shape _ _ _ _ Ei) as [fp ->]. destruct (fit_none t0 p ibs fp t1 I0 HF Ei) as (I1 & _ & A1 & A2 & A3).
      destruct (td_ok p ibs fp 0 t1 A2 I1 N1 A1 Esn) as (r & t' & E & I' & O). rewrite E. cbn [obind]. exists r, (deinit4all F t').
      pose proof (inv_deinit F st Q t' _ I') as I2. split; [reflexivity|]. split; [auto|]. split; [discriminate|].
      split; [intros _ _ [K|K]; [contradiction|discriminate]|]. intros _ _. rewrite <- A3. auto.
    + exists false, t1. split; [reflexivity|]. split; [right; pose proof (inf_left _ _ _ _ _ (proj2 I0) Ei); auto|]. split; [discriminate|]. split; [auto|].
      intros _ K. destruct (K eq_refl) as [-> ->]. discriminate.
Qed.

(** ** Histories *)
Lemma hist_inv t h : thist F st derive t h -> Inv t h.
Proof.
  intros H. induction H as [ex f|t h mem mf mt fp tb mini t' H IH E|t h mf fp t' H IH E|t h H IH|t h H IH|t fp tb os rs t' H IH Ha E|t h p ibs r t' H IH HF E K].
  - split; [exact I|reflexivity].
  - apply (init_train_ok F st derive Q C t h mem mf mt fp tb mini t' IH E).
  - apply (init_inf_ok F st derive Q C t h mf fp t' IH E).
  - apply (inv_deinit F st Q t h IH).
  - apply inv_reset. exact IH.
  - destruct (run_refines F st derive Q C fp tb os t PIdle (conj IH I) Ha) as (rs2 & t2 & ph & E2 & _ & I2 & _). rewrite E in E2. injection E2 as <- <-. apply I2.
  - destruct (norm_data_ok p ibs true t h IH HF) as (r2 & t2 & E2 & [I2|(-> & _ & N2 & N3)] & _); rewrite E in E2; injection E2 as <- <-; [exact I2|].
    split; [rewrite N2; exact I|]. apply N3. apply K. reflexivity.
Qed.
End P.
