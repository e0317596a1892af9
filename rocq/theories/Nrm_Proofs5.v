(** The loop over the tries, columns apart. *)
From Coq Require Import Reals Lra Permutation.
From Verif Require Import Base BaseLemmas Workers_Model Act_Spec Loss_Proofs Kern_Model Kern_Spec Kern_Proofs
  Smx_Model Smx_Spec TData_Model TData_Spec TData_Proofs TData_Proofs2 TData_Proofs3 TData_Proofs4 TData_Proofs5
  Nrm_Model Nrm_Spec Nrm_Proofs Nrm_Proofs2 Nrm_Proofs3 Nrm_Proofs4.
Local Open Scope nat_scope.

Definition untouched (st it st' it' : list scd) (ok ok' : list bool) j : Prop :=
  nth j st' scd0 = nth j st scd0 /\ nth j it' scd0 = nth j it scd0 /\ nth j ok' false = nth j ok false.
Definition updated (p : nset) (a : list acc) (st it st' it' : list scd) (ok ok' : list bool) j : Prop :=
  nth j ok false = false /\ nth j st' scd0 = upd_stat p (nth j a acc0) (nth j st scd0) /\ nth j it' scd0 = upd_stat p (nth j a acc0) (nth j it scd0) /\
  nth j ok' false = settled p (nth j a acc0).

Lemma norm_cols_ok p : forall a st it ok st' it' ok' all bad, length st = length a -> length it = length a -> length ok = length a ->
  norm_cols p a st it ok = (st', it', ok', all, bad) ->
  length st' = length a /\ length it' = length a /\ length ok' = length a /\
  (forall j, j < length a -> untouched st it st' it' ok ok' j \/ updated p a st it st' it' ok ok' j) /\
  (bad = false -> forall j, j < length a -> nth j ok false = false -> updated p a st it st' it' ok ok' j) /\
  (bad = false -> (all = true <-> forall j, j < length a -> nth j ok' false = true)) /\
  (bad = true -> exists j, j < length a /\ bad_stats p (nth j a acc0) = true).
Proof.
  induction a as [|x a IH]; intros st it ok st' it' ok' all bad H1 H2 H3 E.
  - destruct st, it, ok; try discriminate. cbn in E. injection E as <- <- <- <- <-. cbn [length]. do 3 (split; [reflexivity|]). split; [lia|]. split; [lia|].
    split; [|discriminate]. intros _. split; [lia|reflexivity].
  - destruct st as [|s st], it as [|i it], ok as [|o ok]; try discriminate. cbn [length] in H1, H2, H3. injection H1 as H1. injection H2 as H2. injection H3 as H3.
    cbn [norm_cols] in E. destruct o.
    + destruct (norm_cols p a st it ok) as [[[[st1 it1] ok1] al1] bd1] eqn:E1. injection E as <- <- <- <- <-.
      destruct (IH _ _ _ _ _ _ _ _ H1 H2 H3 E1) as (L1 & L2 & L3 & Ha & Hb & Hc & Hd). cbn [length].
      do 3 (split; [congruence|]). split; [|split; [|split]].
      * intros [|j] Hj; [left; unfold untouched; auto|]. apply (Ha j). lia.
      * intros Q [|j] Hj Ho; [discriminate|]. apply (Hb Q j); [lia|exact Ho].
      * intros Q. rewrite (Hc Q). split; intros K j Hj; [destruct j; [reflexivity|]; apply K; lia|]. apply (K (S j)). lia.
      * intros Q. destruct (Hd Q) as (j & Hj & Hs). exists (S j). split; [lia|exact Hs].
    + rewrite settled_near in E. destruct (bad_stats p x && n_break p) eqn:Eb.
      * injection E as <- <- <- <- <-. cbn [length]. do 3 (split; [congruence|]). split; [intros j Hj; left; unfold untouched; auto|]. split; [discriminate|].
        split; [discriminate|]. intros _. exists 0. split; [lia|]. apply andb_prop in Eb. apply Eb.
      * destruct (norm_cols p a st it ok) as [[[[st1 it1] ok1] al1] bd1] eqn:E1. injection E as <- <- <- <- <-.
        destruct (IH _ _ _ _ _ _ _ _ H1 H2 H3 E1) as (L1 & L2 & L3 & Ha & Hb & Hc & Hd). cbn [length].
        do 3 (split; [congruence|]). split; [|split; [|split]].
        -- intros [|j] Hj; [right; unfold updated; auto|]. apply (Ha j). lia.
        -- intros Q [|j] Hj Ho; [unfold updated; auto|]. apply (Hb Q j); [lia|exact Ho].
        -- intros Q. rewrite andb_true_iff, (Hc Q). split.
           ++ intros [K1 K2] [|j] Hj; [exact K1|]. apply K2. lia.
           ++ intros K. split; [apply (K 0); lia|]. intros j Hj. apply (K (S j)). lia.
        -- intros Q. destruct (Hd Q) as (j & Hj & Hs). exists (S j). split; [lia|exact Hs].
Qed.

Lemma nth_repeat_lt {C} (v d : C) n j : j < n -> nth j (repeat v n) d = v.
Proof. revert j. induction n; intros [|j] H; try lia; [reflexivity|]. cbn. apply IHn. lia. Qed.

Section L.
Context {B : Type} (oneB : B).
Notation sets := (sets R B). Notation tds := (tds R B). Notation imath := (imath R B).
Context (p : nset) (imw : nat -> nat -> imath) (imf : nat -> imath) (ibs fp tb : nat).
Context (Hw : forall i k, im_ok (imw i k)) (Hf : forall i, im_ok (imf i)).
Notation Lk S := (looked p (cnt S 0) (asked fp ibs (n_bs p))).
Notation ready := (ready oneB p ibs fp tb).
Notation goes := (goes oneB fp tb).

Lemma norm_cw_ok : forall n i S t st ok, ready S t -> length st = sample_size (x0 S) -> length ok = sample_size (x0 S) ->
  (forall j, j < sample_size (x0 S) -> wfs (nth j st scd0)) ->
  (forall j, j < sample_size (x0 S) -> nth j ok false = true -> rank p (column (x0 S) (Lk S) j) = 0) ->
  exists r S' t' st' a b, norm_cw p imw imf ibs n i S t st ok = Some (r, S', t', st') /\
    goes S t S' t' /\ mapped a b (x0 S) (x0 S') /\ length st' = sample_size (x0 S) /\
    (forall j, j < sample_size (x0 S) ->
      wfs (nth j st' scd0) /\ sc (nth j st' scd0) = (a j * sc (nth j st scd0))%R /\ ofs (nth j st' scd0) = (a j * ofs (nth j st scd0) + b j)%R /\
      (dirty (nth j st scd0) = true -> dirty (nth j st' scd0) = true)) /\
    (forall j, (n_dos p = false -> a j = 1%R) /\ (n_doc p = false -> b j = 0%R) /\ ((0 < n_scale p)%R -> (0 < a j)%R)) /\
    (r = true -> forall j, j < sample_size (x0 S) -> rank p (column (x0 S') (Lk S) j) = 0 /\ (n = 1 -> rank p (column (x0 S) (Lk S) j) = 0)) /\
    ((forall j, j < sample_size (x0 S) -> enough p (column (x0 S) (Lk S) j)) -> fine p -> forall j, j < sample_size (x0 S) ->
      rank p (column (x0 S') (Lk S) j) <= rank p (column (x0 S) (Lk S) j) /\
      (0 < n -> 0 < rank p (column (x0 S) (Lk S) j) -> rank p (column (x0 S') (Lk S) j) < rank p (column (x0 S) (Lk S) j))) /\
    ((forall j, j < sample_size (x0 S) -> enough p (column (x0 S) (Lk S) j)) -> fine p ->
     (forall j, j < sample_size (x0 S) -> rank p (column (x0 S) (Lk S) j) < n) ->
      r = true /\ forall j, j < sample_size (x0 S) -> (rank p (column (x0 S) (Lk S) j) = 0 -> nth j st' scd0 = nth j st scd0) /\
        (0 < rank p (column (x0 S) (Lk S) j) -> dirty (nth j st' scd0) = true)).
Proof.
  induction n as [|n IH]; intros i S t st ok HR Lst Lok Wst Hok; pose proof HR as (HC & Hb & HI & Hp & Hi);
    pose proof (coherent_xdata S 0 HC Hb ltac:(lia)) as Hx; change (set_x S 0) with (x0 S) in Hx.
  - exists false, S, t, st, (fun _ => 1%R), (fun _ => 0%R). cbn [norm_cw]. split; [reflexivity|]. split.
    { unfold Nrm_Proofs4.goes. split; [apply kept_refl; assumption|]. auto. }
    split; [apply mapped_id; exact Hx|]. split; [exact Lst|].
    split. { intros j Hj. split; [apply Wst; exact Hj|]. split; [ring|]. split; [ring|]. auto. }
    split; [intros j; do 2 (split; [reflexivity|]); lra|]. split; [discriminate|].
    split; [intros _ _ j _; split; [reflexivity|lia]|]. intros _ _ Q.
    assert (0 < sample_size (x0 S)) by apply Hx. specialize (Q 0 H). lia.
  - destruct (pass_walk oneB feed_cw (fun ids d => d = map (fun j => seen (map (fun i => xv (x0 S) i j) ids)) (seq 0 (sample_size (x0 S)))) p S fp tb ibs t (imw i)
        (repeat acc0 (xWidth S)))
      as (k & t1 & d & t2 & E1 & E2 & Ed & HI2 & Em & Ei); try assumption; [apply Hw| | |].
    { intros b ids prev d Hh Hne ->. eexists. split; [apply (feed_cw_ok (x0 S) b ids _ Hx Hh Hne)|]. reflexivity. }
    { unfold xWidth. generalize (sample_size (x0 S)). intros W. generalize 0. induction W; intros c; [reflexivity|]. cbn [repeat seq map]. f_equal. apply IHW. }
    set (W := sample_size (x0 S)) in *. set (L := Lk S) in *.
    cbn [norm_cw]. rewrite E1. cbn [obind]. rewrite E2. cbn [obind]. unfold xWidth. fold W.
    assert (Ha : forall j, j < W -> nth j d acc0 = seen (column (x0 S) L j)).
    { intros j Hj. rewrite Ed. erewrite nth_error_nth; [|apply map_nth_error; apply nth_error_seq; exact Hj]. reflexivity. }
    assert (Ld : length d = W) by (rewrite Ed, map_length, seq_length; reflexivity).
    destruct (norm_cols p d st (repeat scd0 W) ok) as [[[[st1 it1] ok1] all] bad] eqn:En.
    destruct (norm_cols_ok p d st (repeat scd0 W) ok st1 it1 ok1 all bad) as (L1 & L2 & L3 & Na & Nb & Nc & Nd); try assumption;
      try (rewrite ?repeat_length; congruence).
    rewrite Ld in *.
    set (f := fun j => fst (eff (nth j it1 scd0))). set (g := fun j => snd (eff (nth j it1 scd0))).
    destruct (fix_X_cw (imf i) S 0 it1 HC Hb ltac:(lia) (Hf i) L2) as (x' & Ef & Hm & HK). change train_set_id with 0. rewrite Ef. cbn [obind].
    change (set_x S 0) with (x0 S) in Hm. fold f g in Hm. set (S1 := with_X S 0 x') in *. change x' with (x0 S1) in Hm.
    assert (G1 : goes S t S1 t2).
    { split; [exact HK|]. split; [apply (InvW_kept oneB S _ fp tb t2 HK Hb HI2)|]. auto. }
    (* a column in this pass *)
    assert (Hcol : forall j, j < W ->
      wfs (nth j st1 scd0) /\ sc (nth j st1 scd0) = (f j * sc (nth j st scd0))%R /\ ofs (nth j st1 scd0) = (f j * ofs (nth j st scd0) + g j)%R /\
      (dirty (nth j st scd0) = true -> dirty (nth j st1 scd0) = true) /\
      ((f j = 1%R /\ g j = 0%R /\ nth j st1 scd0 = nth j st scd0 /\ nth j ok1 false = nth j ok false) \/
       (nth j ok false = false /\ f j = fst (eff (pass_stat p (seen (column (x0 S) L j)))) /\ g j = snd (eff (pass_stat p (seen (column (x0 S) L j)))) /\
        dirty (nth j st1 scd0) = dirty (nth j st scd0) || negb (settled p (seen (column (x0 S) L j))) /\
        (settled p (seen (column (x0 S) L j)) = true -> nth j st1 scd0 = nth j st scd0) /\
        nth j ok1 false = settled p (seen (column (x0 S) L j))))).
    { intros j Hj. destruct (Na j Hj) as [(U1 & U2 & U3)|(U0 & U1 & U2 & U3)]; rewrite nth_repeat_lt in U2 by exact Hj.
      - assert (Q1 : f j = 1%R) by (unfold f; rewrite U2; reflexivity). assert (Q2 : g j = 0%R) by (unfold g; rewrite U2; reflexivity).
        rewrite U1, Q1, Q2. split; [apply Wst; exact Hj|]. split; [ring|]. split; [ring|]. split; [auto|]. left. auto.
      - rewrite Ha in U1, U2, U3 by exact Hj. pose proof (upd_ok p (seen (column (x0 S) L j)) _ (Wst j Hj)) as (V1 & V2 & V3 & V4 & V5).
        pose proof (upd_ok p (seen (column (x0 S) L j)) scd0 wfs0) as (Y1 & Y2 & Y3 & _).
        assert (Q1 : f j = fst (eff (pass_stat p (seen (column (x0 S) L j))))).
        { unfold f. rewrite U2, (eff_wf _ Y1). cbn [fst]. rewrite Y2. cbn [sc scd0]. ring. }
        assert (Q2 : g j = snd (eff (pass_stat p (seen (column (x0 S) L j))))).
        { unfold g. rewrite U2, (eff_wf _ Y1). cbn [snd]. rewrite Y3. cbn [ofs scd0]. ring. }
        rewrite U1, Q1, Q2. split; [exact V1|]. split; [exact V2|]. split; [exact V3|]. split; [intros Q; rewrite V4, Q; reflexivity|]. right. auto 10. }
    assert (HL : L <= batch_size (x0 S)) by (apply looked_le).
    assert (Hfg : forall j, (n_dos p = false -> f j = 1%R) /\ (n_doc p = false -> g j = 0%R) /\ ((0 < n_scale p)%R -> (0 < f j)%R)).
    { intros j. destruct (Nat.lt_ge_cases j W) as [Hj|Hj].
      - destruct (Hcol j Hj) as (_ & _ & _ & _ & [(-> & -> & _)|(_ & -> & -> & _)]); [do 2 (split; [reflexivity|]); lra|].
        split; [apply eff_dos|]. split; [apply eff_doc|apply eff_pos].
      - unfold f, g. rewrite nth_overflow by lia. cbn. do 2 (split; [reflexivity|]). lra. }
    assert (Hrk : bad = false -> forall j, j < W -> nth j ok1 false = true -> rank p (column (x0 S1) L j) = 0).
    { intros Q j Hj Hok1. rewrite (column_mapped _ _ _ _ L j Hm HL Hj).
      destruct (Hcol j Hj) as (_ & _ & _ & _ & [(-> & -> & _ & Eo)|(_ & Q1 & Q2 & _ & _ & Eo)]).
      - rewrite <- (Hok j Hj) by congruence. f_equal. rewrite <- (map_id (column (x0 S) L j)) at 2. apply map_ext. intros v. ring.
      - rewrite Eo in Hok1. assert (Eone : map (fun v => f j * v + g j)%R (column (x0 S) L j) = column (x0 S) L j).
        { rewrite Q1, Q2. unfold eff, pass_stat. cbn [bsc bofs fst snd]. unfold settled in Hok1.
          destruct (do_scale p (seen (column (x0 S) L j))), (do_central p (seen (column (x0 S) L j))); try discriminate.
          rewrite <- (map_id (column (x0 S) L j)) at 2. apply map_ext. intros v. ring. }
        rewrite Eone. apply rank0. exact Hok1. }
    assert (Hdec : bad = false -> (forall j, j < W -> enough p (column (x0 S) L j)) -> fine p -> forall j, j < W -> rank p (column (x0 S1) L j) <= rank p (column (x0 S) L j) - 1 /\
      (rank p (column (x0 S) L j) = 0 -> nth j st1 scd0 = nth j st scd0) /\ (0 < rank p (column (x0 S) L j) -> dirty (nth j st1 scd0) = true)).
    { intros Qb Hen Hfine j Hj. destruct (nth j ok1 false) eqn:Eo.
      - rewrite (Hrk Qb j Hj Eo). split; [lia|].
        destruct (Hcol j Hj) as (_ & _ & _ & _ & [(_ & _ & X1 & X2)|(_ & _ & _ & X1 & X2 & X3)]).
        + split; [auto|]. intros Q. rewrite (Hok j Hj) in Q by congruence. lia.
        + rewrite X3 in Eo. split; [auto|]. intros Q. apply rank0 in Eo. lia.
      - assert (Eok : nth j ok false = false).
        { destruct (nth j ok false) eqn:Q; [|reflexivity]. destruct (Hcol j Hj) as (_ & _ & _ & _ & [(_ & _ & _ & X2)|(X0 & _)]); congruence. }
        destruct (Nb Qb j Hj Eok) as (_ & U1 & U2 & U3). rewrite (Ha j Hj) in U1, U2, U3. rewrite U3 in Eo. 
        assert (Hpos : 0 < rank p (column (x0 S) L j)). { destruct (rank p (column (x0 S) L j)) eqn:Q; [|lia]. apply rank0 in Q. congruence. }
        pose proof Hfine as (F1 & F2 & F3). pose proof (rank_pass p _ (Hen j Hj) F1 F2 F3 Hpos) as Hlt.
        assert (Ec : column (x0 S1) L j = map (one_pass p (column (x0 S) L j)) (column (x0 S) L j)).
        { rewrite (column_mapped _ _ _ _ L j Hm HL Hj). apply map_ext. intros v. unfold one_pass. rewrite nth_repeat_lt in U2 by exact Hj.
          pose proof (upd_ok p (seen (column (x0 S) L j)) scd0 wfs0) as (Y1 & Y2 & Y3 & _).
          unfold f, g. rewrite U2, (eff_wf _ Y1). cbn [fst snd]. rewrite Y2, Y3. cbn [sc ofs scd0]. ring. }
        rewrite Ec. split; [lia|]. split; [lia|]. intros _. rewrite U1.
        pose proof (upd_ok p (seen (column (x0 S) L j)) _ (Wst j Hj)) as (_ & _ & _ & -> & _). rewrite Eo. cbn [negb]. apply orb_true_r. }
    destruct bad eqn:Ebad.
    { exists false, S1, t2, st1, f, g. split; [reflexivity|]. split; [exact G1|]. split; [exact Hm|]. split; [exact L1|].
      split; [intros j Hj; destruct (Hcol j Hj) as (X1 & X2 & X3 & X4 & _); auto|]. split; [exact Hfg|]. split; [discriminate|].
      split; intros Q; destruct (Nd eq_refl) as (j & Hj & Hs); rewrite Ha in Hs by exact Hj; rewrite (good_stats p _ (Q j Hj)) in Hs; discriminate. }
    destruct all eqn:Eall.
    { exists true, S1, t2, st1, f, g. split; [reflexivity|]. split; [exact G1|]. split; [exact Hm|]. split; [exact L1|].
      split; [intros j Hj; destruct (Hcol j Hj) as (X1 & X2 & X3 & X4 & _); auto|]. split; [exact Hfg|].
      split. { intros _ j Hj. pose proof (proj1 (Nc eq_refl) eq_refl j Hj) as Hok1. split; [apply Hrk; [reflexivity|exact Hj|exact Hok1]|]. intros _.
        destruct (Hcol j Hj) as (_ & _ & _ & _ & [(_ & _ & _ & X2)|(_ & _ & _ & _ & _ & X3)]); [apply (Hok j Hj); congruence|]. apply rank0. congruence. }
      split; [intros Hen Hfine j Hj; destruct (Hdec eq_refl Hen Hfine j Hj) as (X1 & _); split; [lia|]; intros; lia|].
      intros _ _ _. split; [reflexivity|]. intros j Hj. pose proof (proj1 (Nc eq_refl) eq_refl j Hj) as Hok1.
      destruct (Hcol j Hj) as (_ & _ & _ & _ & [(_ & _ & X1 & X2)|(_ & _ & _ & X1 & X2 & X3)]).
      - split; [auto|]. intros Q. rewrite (Hok j Hj) in Q by congruence. lia.
      - rewrite X3 in Hok1. split; [auto|]. intros Q. apply rank0 in Hok1. lia. }
    assert (EW : sample_size (x0 S1) = W) by apply HK.
    assert (EL : Lk S1 = L) by (unfold L; destruct (kept_cnt S S1 HK) as [-> _]; reflexivity).
    destruct (IH (i + 1) S1 t2 st1 ok1 (goes_ready oneB p ibs fp tb _ _ _ _ HR G1)) as (r & S' & t' & st' & a & b & E & G2 & M2 & W2 & A2 & D2 & Hr & Hmono & Hconv);
      rewrite ?EW, ?EL in *; try assumption.
    { intros j Hj. apply (Hcol j Hj). }
    { intros j Hj. apply Hrk; auto. }
    exists r, S', t', st', (fun j => a j * f j)%R, (fun j => a j * g j + b j)%R. split; [exact E|]. split; [exact (goes_trans oneB fp tb _ _ _ _ _ _ G1 G2)|].
    split; [exact (mapped_trans _ _ _ _ _ _ _ Hm M2)|]. split; [exact W2|].
    split. { intros j Hj. destruct (A2 j Hj) as (Y1 & Y2 & Y3 & Y4). destruct (Hcol j Hj) as (X1 & X2 & X3 & X4 & _). split; [exact Y1|].
      split; [rewrite Y2, X2; ring|]. split; [rewrite Y3, X3; ring|]. auto. }
    split. { intros j. destruct (D2 j) as (Y1 & Y2 & Y3). destruct (Hfg j) as (X1 & X2 & X3). split; [intros Q; rewrite (Y1 Q), (X1 Q); ring|].
      split; [intros Q; rewrite (Y2 Q), (X2 Q); ring|]. intros Q. apply Rmult_lt_0_compat; auto. }
    split. { intros Q j Hj. split; [apply Hr; assumption|]. intros Q1. injection Q1 as ->. cbn in E. congruence. }
    assert (Hen1 : (forall j, j < W -> enough p (column (x0 S) L j)) -> forall j, j < W -> enough p (column (x0 S1) L j)).
    { intros Hen j Hj. rewrite (column_mapped _ _ _ _ L j Hm HL Hj). apply enough_map. apply Hen. exact Hj. }
    split. { intros Hen Hfine j Hj. destruct (Hdec eq_refl Hen Hfine j Hj) as (X1 & _). destruct (Hmono (Hen1 Hen) Hfine j Hj) as (X2 & _). split; [lia|]. intros; lia. }
    intros Hen Hfine Hrank.
    assert (Hn1 : 0 < n).
    { destruct n; [|lia]. exfalso. assert (false = true); [|discriminate]. apply (proj2 (Nc eq_refl)). intros j Hj.
      assert (Q : rank p (column (x0 S) L j) = 0) by (specialize (Hrank j Hj); lia).
      destruct (nth j ok1 false) eqn:Eo; [reflexivity|]. exfalso.
      assert (Eok : nth j ok false = false).
      { destruct (nth j ok false) eqn:Q'; [|reflexivity]. destruct (Hcol j Hj) as (_ & _ & _ & _ & [(_ & _ & _ & X2)|(X0 & _)]); congruence. }
      destruct (Nb eq_refl j Hj Eok) as (_ & _ & _ & U3). rewrite (Ha j Hj) in U3. apply rank0 in Q. congruence. }
    destruct Hconv as (C1 & C2).
    + exact (Hen1 Hen).
    + exact Hfine.
    + intros j Hj. destruct (Hdec eq_refl Hen Hfine j Hj) as [X _]. specialize (Hrank j Hj). lia.
    + split; [exact C1|]. intros j Hj. destruct (Hdec eq_refl Hen Hfine j Hj) as (X1 & X2 & X3). destruct (C2 j Hj) as (Z1 & Z2). split.
      * intros Q. rewrite Z1 by lia. apply X2. exact Q.
      * intros Q. apply (A2 j Hj). apply X3. exact Q.
Qed.
End L.
