(** The loops over the tries. *)
From Coq Require Import Reals Lra Permutation.
From Verif Require Import Base BaseLemmas Workers_Model Act_Spec Loss_Proofs Kern_Model Kern_Spec Kern_Proofs
  Smx_Model Smx_Spec TData_Model TData_Spec TData_Proofs TData_Proofs2 TData_Proofs3 TData_Proofs4 TData_Proofs5
  Nrm_Model Nrm_Spec Nrm_Proofs Nrm_Proofs2 Nrm_Proofs3.
Local Open Scope nat_scope.

Definition whole (x : smx R) (L : nat) : list R := flat_map (fun i => map (xv x i) (seq 0 (sample_size x))) (seq 0 L).
Definition column (x : smx R) (L j : nat) : list R := map (fun i => xv x i j) (seq 0 L).

Lemma mapped_dims a b x x' : mapped a b x x' -> sample_size x' = sample_size x /\ batch_size x' = batch_size x.
Proof.
  intros (E1 & E2 & E3 & E4 & _). unfold sample_size, batch_size, s_rows_nb, s_cols_nb, s_bias_row, s_bias_col. rewrite E1, E2, E3, E4. auto.
Qed.
Lemma mapped_xv a b x x' i j : mapped a b x x' -> i < batch_size x -> j < sample_size x -> xv x' i j = (a j * xv x i j + b j)%R.
Proof. intros (_ & _ & _ & _ & _ & H) Hi Hj. unfold xv at 1. rewrite H by assumption. reflexivity. Qed.
Lemma mapped_trans a b c d x x' x'' : mapped a b x x' -> mapped c d x' x'' -> mapped (fun j => c j * a j)%R (fun j => c j * b j + d j)%R x x''.
Proof.
  intros H1 H2. pose proof (mapped_dims _ _ _ _ H1) as [D1 D2]. pose proof H1 as (E1 & E2 & E3 & E4 & E5 & _). pose proof H2 as (F1 & F2 & F3 & F4 & F5 & F6).
  do 5 (split; [congruence|]). intros i j Hi Hj. rewrite F6 by congruence. rewrite (mapped_xv _ _ _ _ _ _ H1 Hi Hj). f_equal. ring.
Qed.
Lemma mapped_ext a b a' b' x x' : (forall j, j < sample_size x -> a j = a' j) -> (forall j, j < sample_size x -> b j = b' j) -> mapped a b x x' -> mapped a' b' x x'.
Proof.
  intros Ha Hb (E1 & E2 & E3 & E4 & E5 & H). do 5 (split; [assumption|]). intros i j Hi Hj. rewrite <- Ha, <- Hb by assumption. apply H; assumption.
Qed.
Lemma whole_mapped a b x x' L : mapped (fun _ => a) (fun _ => b) x x' -> L <= batch_size x -> whole x' L = map (fun v => a * v + b)%R (whole x L).
Proof.
  intros H HL. unfold whole. destruct (mapped_dims _ _ _ _ H) as [-> _].
  rewrite !flat_map_concat_map, concat_map, map_map. f_equal. apply map_ext_in. intros i Hi. apply in_seq in Hi. rewrite map_map. apply map_ext_in.
  intros j Hj. apply in_seq in Hj. apply (mapped_xv _ _ _ _ _ _ H); lia.
Qed.
Lemma column_mapped a b x x' L j : mapped a b x x' -> L <= batch_size x -> j < sample_size x -> column x' L j = map (fun v => a j * v + b j)%R (column x L j).
Proof.
  intros H HL Hj. unfold column. rewrite map_map. apply map_ext_in. intros i Hi. apply in_seq in Hi. apply (mapped_xv _ _ _ _ _ _ H); lia.
Qed.

Lemma looked_le p N b : looked p N b <= N.
Proof. unfold looked. cbv zeta. destruct (N mod Nat.min b N =? 1), (n_bc p =? 0); lia. Qed.

Section L.
Context {B : Type} (oneB : B).
Notation sets := (sets R B). Notation tds := (tds R B). Notation imath := (imath R B).

Lemma coherent_xdata (S : sets) id : coherent 1%R S -> s_bir (x0 S) = false -> id < 2 -> xdata (set_x S id).
Proof.
  intros HC Hb Hid. destruct (coherent_set 1%R S id HC Hid) as (_ & _ & (W1 & W2 & F1 & O1 & F2 & HW & _) & Hbir & _ & Hs & _).
  split; [exact W1|]. split; [congruence|]. split; [exact F1|]. split; [exact O1|exact HW].
Qed.

(** [S'] is [S] with other values in x *)
Definition kept (S S' : sets) : Prop :=
  coherent 1%R S' /\ s_bir (x0 S') = false /\ y0 S' = y0 S /\ y1 S' = y1 S /\
  batch_size (x0 S') = batch_size (x0 S) /\ batch_size (x1 S') = batch_size (x1 S) /\ sample_size (x0 S') = sample_size (x0 S).
Lemma kept_refl S : coherent 1%R S -> s_bir (x0 S) = false -> kept S S.
Proof. intros. unfold kept. auto 10. Qed.
Lemma kept_trans S S' S'' : kept S S' -> kept S' S'' -> kept S S''.
Proof. intros (A1 & A2 & A3 & A4 & A5 & A6 & A7) (B1 & B2 & B3 & B4 & B5 & B6 & B7). unfold kept. do 2 (split; [assumption|]). repeat (split; [congruence|]). congruence. Qed.
Lemma kept_cnt S S' : kept S S' -> cnt S' 0 = cnt S 0 /\ cnt S' 1 = cnt S 1.
Proof. intros (_ & _ & _ & _ & H1 & H2 & _). split; assumption. Qed.

Lemma with_X_kept (S : sets) id a b m' : coherent 1%R S -> s_bir (x0 S) = false -> id < 2 -> mapped a b (set_x S id) m' -> xdata m' -> kept S (with_X S id m').
Proof.
  intros HC Hb Hid Hm Hx. destruct (mapped_dims _ _ _ _ Hm) as [D1 D2]. pose proof Hx as (X1 & X2 & X3 & X4 & X5).
  destruct HC as ((W1 & W2 & F1 & O1 & F2 & HW & HE) & (W1' & W2' & F1' & O1' & F2' & HW' & HE') & C1 & C2 & C3 & C4 & C5 & C6).
  unfold kept, with_X, coherent, dataset. destruct id as [|[|id]]; [| |lia]; cbn [Nat.eqb x0 x1 y0 y1 set_x] in *.
  - change (set_x S 0) with (x0 S) in *. rewrite D2, D1 in *. intuition congruence.
  - change (set_x S 1) with (x1 S) in *. rewrite D2, D1 in *. intuition congruence.
Qed.

Lemma InvW_kept S S' fp tb (t : tds) : kept S S' -> s_bir (x0 S) = false -> InvW 1%R oneB S fp tb t Idle -> InvW 1%R oneB S' fp tb t Idle.
Proof.
  intros (_ & K1 & K2 & K3 & K4 & K5 & K6) Hb (J1 & J2 & J3 & J4 & J5 & J6 & _).
  assert (Eb : biggest S' = biggest S) by (unfold biggest; congruence).
  unfold InvW, xbuf, ybuf in *. rewrite Eb, K1, K2, K6. rewrite Hb in J5. cbn [in_phase]. auto 10.
Qed.
Lemma InvW_idle S fp tb (t : tds) ph : InvW 1%R oneB S fp tb t ph -> InvW 1%R oneB S fp tb t Idle.
Proof. intros (J1 & J2 & J3 & J4 & J5 & J6 & _). unfold InvW. cbn [in_phase]. auto 10. Qed.

Lemma xbuf_empty (S S' : sets) fp tb mini b b' : biggest S' = biggest S -> s_bir (x0 S') = s_bir (x0 S) ->
  xbuf 1%R S fp tb mini b -> xbuf 1%R S' fp tb mini b' -> empty b' = empty b.
Proof.
  intros E1 E2 [H1 H2] [H3 H4]. rewrite E1, E2 in *.
  destruct (empty b) eqn:Q, (empty b') eqn:Q'; try reflexivity.
  - destruct (H1 (H4 eq_refl)) as (cap & HB & _). rewrite (buf_empty _ _ _ _ _ _ HB) in Q. discriminate.
  - destruct (H3 (H2 eq_refl)) as (cap & HB & _). rewrite (buf_empty _ _ _ _ _ _ HB) in Q'. discriminate.
Qed.
Lemma init_same S S' fp tb (t t' : tds) ph ph' : coherent 1%R S -> kept S S' -> s_bir (x0 S) = false ->
  InvW 1%R oneB S fp tb t ph -> InvW 1%R oneB S' fp tb t' ph' -> t_mini t' = t_mini t ->
  forall b, is_initialized4inference S' t' b = is_initialized4inference S t b.
Proof.
  intros HC HK Hb (J1 & J2 & J3 & J4 & J5 & _) (I1 & I2 & I3 & I4 & I5 & _) Em b. pose proof HK as (HC' & K1 & _ & _ & K2 & K3 & _).
  unfold is_initialized4inference. rewrite (sets_nonempty 1%R S HC), (sets_nonempty 1%R S' HC'), J1, I1.
  rewrite Em in I5. rewrite (xbuf_empty S S' fp tb (t_mini t) (t_bx t) (t_bx t')); [reflexivity| |congruence|exact J5|exact I5].
  unfold biggest. congruence.
Qed.

Lemma fix_X_whole (im : imath) (S : sets) id s : coherent 1%R S -> s_bir (x0 S) = false -> id < 2 -> im_ok im ->
  exists x', fix_trainX_whole im S id s = Some (with_X S id x') /\ mapped (fun _ => fst (eff s)) (fun _ => snd (eff s)) (set_x S id) x' /\ kept S (with_X S id x').
Proof.
  intros HC Hb Hid Him. destruct (coherent_set 1%R S id HC Hid) as (EX & _). pose proof (coherent_xdata S id HC Hb Hid) as Hx.
  destruct (fix_whole_ok im (set_x S id) s Him Hx) as (x' & E & Hm & Hx'). exists x'. unfold fix_trainX_whole. rewrite EX. cbn [obind]. rewrite E. cbn [obind].
  split; [reflexivity|]. split; [exact Hm|]. eapply with_X_kept; eassumption.
Qed.
Lemma fix_X_cw (im : imath) (S : sets) id st : coherent 1%R S -> s_bir (x0 S) = false -> id < 2 -> im_ok im -> length st = sample_size (x0 S) ->
  exists x', fix_trainX_cw im S id st = Some (with_X S id x') /\
    mapped (fun j => fst (eff (nth j st scd0))) (fun j => snd (eff (nth j st scd0))) (set_x S id) x' /\ kept S (with_X S id x').
Proof.
  intros HC Hb Hid Him HL. destruct (coherent_set 1%R S id HC Hid) as (EX & _ & _ & _ & _ & ES & _). pose proof (coherent_xdata S id HC Hb Hid) as Hx.
  destruct (fix_cw_ok im (set_x S id) st Him Hx) as (x' & E & Hm & Hx'); [congruence|]. exists x'. unfold fix_trainX_cw. rewrite EX. cbn [obind]. rewrite E. cbn [obind].
  split; [reflexivity|]. split; [exact Hm|]. eapply with_X_kept; eassumption.
Qed.

Context (p : nset) (imw : nat -> nat -> imath) (imf : nat -> imath) (ibs fp tb : nat).
Context (Hw : forall i k, im_ok (imw i k)) (Hf : forall i, im_ok (imf i)).
Notation bsz := (asked fp ibs (n_bs p)).
Notation Lk S := (looked p (cnt S 0) (asked fp ibs (n_bs p))).

(** what the loops need of the object *)
Definition ready (S : sets) (t : tds) : Prop :=
  coherent 1%R S /\ s_bir (x0 S) = false /\ InvW 1%R oneB S fp tb t Idle /\ 0 < bsz /\ is_initialized4inference S t bsz = Some bsz.
Definition goes (S : sets) (t : tds) (S' : sets) (t' : tds) : Prop :=
  kept S S' /\ InvW 1%R oneB S' fp tb t' Idle /\ t_mini t' = t_mini t /\ t_idx t' = t_idx t /\ x1 S' = x1 S.
Lemma goes_ready S t S' t' : ready S t -> goes S t S' t' -> ready S' t'.
Proof.
  intros (HC & Hb & HI & Hp & Hi) (HK & HI' & Em & Ei & _). pose proof HK as (HC' & Hb' & _). unfold ready. do 3 (split; [assumption|]). split; [exact Hp|].
  rewrite <- Hi. eapply init_same; eassumption.
Qed.
Lemma goes_trans S t S' t' S'' t'' : goes S t S' t' -> goes S' t' S'' t'' -> goes S t S'' t''.
Proof.
  intros (HK & HI & Em & Ei & Ex) (HK' & HI' & Em' & Ei' & Ex'). unfold goes. split; [exact (kept_trans _ _ _ HK HK')|]. split; [exact HI'|].
  repeat (split; [congruence|]). congruence.
Qed.

Definition fine : Prop := (0 < n_scale p)%R /\ (0 < n_stol p)%R /\ (0 < n_ctol p)%R.

Lemma norm_whole_ok : forall n i S t st, ready S t -> wfs st ->
  exists r S' t' st' a b, norm_whole p imw imf ibs n i S t st = Some (r, S', t', st') /\
    goes S t S' t' /\ mapped (fun _ => a) (fun _ => b) (x0 S) (x0 S') /\
    wfs st' /\ sc st' = (a * sc st)%R /\ ofs st' = (a * ofs st + b)%R /\ (dirty st = true -> dirty st' = true) /\
    (n_dos p = false -> a = 1%R) /\ (n_doc p = false -> b = 0%R) /\ ((0 < n_scale p)%R -> (0 < a)%R) /\
    (r = true -> rank p (whole (x0 S') (Lk S)) = 0 /\ (n = 1 -> rank p (whole (x0 S) (Lk S)) = 0)) /\
    (enough p (whole (x0 S) (Lk S)) -> fine -> rank p (whole (x0 S') (Lk S)) <= rank p (whole (x0 S) (Lk S)) /\
      (0 < n -> 0 < rank p (whole (x0 S) (Lk S)) -> rank p (whole (x0 S') (Lk S)) < rank p (whole (x0 S) (Lk S)))) /\
    (enough p (whole (x0 S) (Lk S)) -> fine -> rank p (whole (x0 S) (Lk S)) < n ->
      r = true /\ (rank p (whole (x0 S) (Lk S)) = 0 -> st' = st) /\ (0 < rank p (whole (x0 S) (Lk S)) -> dirty st' = true)).
Proof.
  induction n as [|n IH]; intros i S t st HR Hst; pose proof HR as (HC & Hb & HI & Hp & Hi).
  - exists false, S, t, st, 1%R, 0%R. cbn [norm_whole]. split; [reflexivity|]. split.
    { unfold goes. split; [apply kept_refl; assumption|]. auto. }
    split; [apply mapped_id; exact (coherent_xdata S 0 HC Hb ltac:(lia))|]. split; [exact Hst|]. split; [ring|]. split; [ring|]. split; [auto|]. do 2 (split; [reflexivity|]).
    split; [lra|]. split; [discriminate|]. split; [intros _ _; split; [reflexivity|lia]|]. intros _ _ Q. lia.
  - pose proof (coherent_xdata S 0 HC Hb ltac:(lia)) as Hx. change (set_x S 0) with (x0 S) in Hx.
    destruct (pass_walk oneB feed (fun ids d => d = seen (flat_map (fun i => map (xv (x0 S) i) (seq 0 (sample_size (x0 S)))) ids)) p S fp tb ibs t (imw i) acc0)
      as (k & t1 & d & t2 & E1 & E2 & Ed & HI2 & Em & Ei); try assumption; try reflexivity; [apply Hw| |].
    { intros b ids prev d Hh Hne ->. eexists. split; [apply (feed_ok (x0 S) b ids _ Hx Hh Hne)|]. rewrite flat_map_app. reflexivity. }
    cbn [norm_whole]. rewrite E1. cbn [obind]. rewrite E2. cbn [obind]. fold (whole (x0 S) (Lk S)) in Ed. rewrite settled_near.
    set (l := whole (x0 S) (Lk S)) in *. subst d.
    assert (G : goes S t S t2) by (unfold goes; split; [apply kept_refl; assumption|auto]).
    destruct (bad_stats p (seen l) && n_break p) eqn:Ebad.
    { exists false, S, t2, st, 1%R, 0%R. split; [reflexivity|]. split; [exact G|]. split; [apply mapped_id; exact Hx|]. split; [exact Hst|].
      split; [ring|]. split; [ring|]. split; [auto|]. do 2 (split; [reflexivity|]). split; [lra|]. split; [discriminate|].
      split; intros Q; rewrite (good_stats p l Q) in Ebad; discriminate. }
    pose proof (upd_ok p (seen l) st Hst) as (U1 & U2 & U3 & U4 & U5).
    set (f := fst (eff (pass_stat p (seen l)))) in *. set (g := snd (eff (pass_stat p (seen l)))) in *.
    assert (HF : exists S1, (if do_scale p (seen l) || do_central p (seen l) then fix_trainX_whole (imf i) S train_set_id (pass_stat p (seen l)) else Some S) = Some S1 /\
      goes S t S1 t2 /\ mapped (fun _ => f) (fun _ => g) (x0 S) (x0 S1) /\ (settled p (seen l) = true -> S1 = S)).
    { destruct (do_scale p (seen l) || do_central p (seen l)) eqn:Eo.
      - destruct (fix_X_whole (imf i) S 0 (pass_stat p (seen l)) HC Hb ltac:(lia) (Hf i)) as (x' & E & Hm & HK). change train_set_id with 0. rewrite E.
        eexists. split; [reflexivity|]. split; [|split; [exact Hm|]].
        + split; [exact HK|]. split; [apply (InvW_kept S _ fp tb t2 HK Hb HI2)|]. auto.
        + unfold settled. destruct (do_scale p (seen l)), (do_central p (seen l)); discriminate.
      - exists S. split; [reflexivity|]. split; [exact G|]. split; [|reflexivity]. unfold f, g, eff, pass_stat. cbn [bsc bofs fst snd].
        apply orb_false_elim in Eo. destruct Eo as [-> ->]. apply mapped_id. exact Hx. }
    destruct HF as (S1 & -> & G1 & Hm & Hset). cbn [obind].
    assert (HL : Lk S <= batch_size (x0 S)) by (apply looked_le).
    assert (El : whole (x0 S1) (Lk S) = map (one_pass p l) l) by (apply (whole_mapped f g); assumption).
    destruct (settled p (seen l)) eqn:Es.
    + exists true, S1, t2, (upd_stat p (seen l) st), f, g. split; [reflexivity|]. split; [exact G1|]. split; [exact Hm|]. split; [exact U1|]. split; [exact U2|].
      split; [exact U3|]. split; [intros Q; rewrite U4, Q; reflexivity|]. split; [apply eff_dos|]. split; [apply eff_doc|]. split; [apply eff_pos|].
      split; [intros _; rewrite (Hset eq_refl); split; [|intros _]; apply rank0; exact Es|].
      split; [intros _ _; rewrite (Hset eq_refl); fold l; rewrite (proj2 (rank0 p l) Es); split; [reflexivity|lia]|]. intros _ _ _. split; [reflexivity|]. split; [intros _; apply U5; reflexivity|].
      intros Q. apply rank0 in Es. fold l in Q. lia.
    + destruct (IH (i + 1) S1 t2 (upd_stat p (seen l) st) (goes_ready _ _ _ _ HR G1) U1) as (r & S' & t' & st' & a & b & E & G2 & M2 & W2 & A2 & B2 & D2 & a1 & b0 & ap & Hr & Hmono & Hconv).
      assert (EL : Lk S1 = Lk S) by (destruct (kept_cnt S S1 (proj1 G1)) as [-> _]; reflexivity). rewrite EL in *.
      exists r, S', t', st', (a * f)%R, (a * g + b)%R. split; [exact E|]. split; [exact (goes_trans _ _ _ _ _ _ G1 G2)|].
      split; [exact (mapped_trans _ _ _ _ _ _ _ Hm M2)|]. split; [exact W2|]. split; [rewrite A2, U2; ring|]. split; [rewrite B2, U3; ring|].
      split; [intros Q; apply D2; rewrite U4, Q; reflexivity|].
      split; [intros Q; rewrite (a1 Q); unfold f; rewrite (eff_dos p (seen l) Q); ring|].
      split; [intros Q; rewrite (b0 Q); unfold g; rewrite (eff_doc p (seen l) Q); ring|].
      split; [intros Q; apply Rmult_lt_0_compat; [exact (ap Q)|apply eff_pos; exact Q]|].
      assert (Hpos : 0 < rank p l). { destruct (rank p l) eqn:Q; [|lia]. apply rank0 in Q. congruence. }
      split. { intros Q. split; [apply Hr; exact Q|]. intros Q1. injection Q1 as ->. cbn in E. congruence. } split.
      { intros Hen Hfine. fold l in Hen |- *. pose proof Hfine as (F1 & F2 & F3). pose proof (rank_pass p l Hen F1 F2 F3 Hpos) as Hlt. rewrite El in Hmono.
        destruct (Hmono (enough_map p _ _ Hen) Hfine) as [Hle _]. split; intros; lia. }
      intros Hen Hfine Hrank. fold l in Hen, Hrank |- *.
      pose proof Hfine as (F1 & F2 & F3). pose proof (rank_pass p l Hen F1 F2 F3 Hpos) as Hlt. rewrite El in Hconv.
      destruct Hconv as (C1 & C2 & C3); [apply enough_map; exact Hen|exact Hfine|lia|]. split; [exact C1|]. split; [lia|].
      intros _. apply D2. rewrite U4. cbn [negb]. apply orb_true_r.
Qed.
End L.
