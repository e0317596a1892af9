(** The loops over the tries. *)
From Coq Require Import Reals Lra Permutation.
From Verif Require Import Base BaseLemmas Act_Model Act_Spec Act_Proofs Loss_Proofs Smx_Model Smx_Spec Kern_Model Kern_Spec
  TData_Model TData_Spec TData_Proofs TData_Proofs2 TData_Proofs3 TData_Proofs4
  Net_Model Net_Spec Net_Proofs Net_Proofs2 Net_Proofs3 Net_Proofs4 Net_Proofs5 Nrm_Model Nrm_Spec Nrm_Proofs Nrm_Proofs2 Nrm_Proofs3 Nrm_Proofs4 Nrm_Proofs5
  Fit_Model Fit_Spec Fit_Proofs Fit_Proofs2 Lsu_Model Lsu_Spec Lsu_Proofs Lsu_Proofs2 Lsu_Proofs3.
Local Open Scope nat_scope.
Notation slice := Net_Model.slice.

Definition wholev (a : act) (inc n : nat) (W : list R) (us : list (list R)) : list R := flat_map (fvals a inc n W us) (seq 0 n).

Lemma slices_all mm n : forall A : list R, length A = mm * n -> flat_map (fun c => slice (mm * c) mm A) (seq 0 n) = A.
Proof.
  induction n as [|n IH]; intros A HA.
  - rewrite Nat.mul_0_r in HA. destruct A; [reflexivity|discriminate].
  - rewrite seq_S, flat_map_app. cbn [flat_map Nat.add]. rewrite app_nil_r. transitivity (firstn (mm * n) A ++ skipn (mm * n) A); [|apply firstn_skipn]. f_equal.
    + rewrite <- (IH (firstn (mm * n) A)) by (rewrite firstn_length; nia). apply flat_map_ext_in. intros c Hc. apply in_seq in Hc.
      apply nth_ext0; [rewrite !slice_length by (rewrite ?firstn_length; nia); reflexivity|]. intros k Hk. rewrite slice_length in Hk by nia.
      rewrite !nth_slice by exact Hk. rewrite nth_firstn_lt by nia. reflexivity.
    + unfold Net_Model.slice. apply firstn_all2. rewrite skipn_length. nia.
Qed.
Lemma shows_whole F us : shows F us -> Permutation (f_A F) (wholev (f_act F) (f_inc F) (f_n F) (f_W F) us).
Proof.
  intros (mm & H1 & H2 & H3). rewrite <- (slices_all mm (f_n F) (f_A F) H1). unfold wholev. apply flat_map_perm_in. intros c Hc. apply in_seq in Hc. apply H3. lia.
Qed.
Lemma fvals_app a inc n W us us' c : fvals a inc n W (us ++ us') c = fvals a inc n W us c ++ fvals a inc n W us' c.
Proof. apply map_app. Qed.
Lemma wholev_app a inc n W us us' : Permutation (wholev a inc n W us ++ wholev a inc n W us') (wholev a inc n W (us ++ us')).
Proof.
  unfold wholev. rewrite <- flat_map_split. apply flat_map_perm_in. intros c _. rewrite fvals_app. apply Permutation_refl.
Qed.
Lemma fvals_rescaled a b n inc W W' us c : rescaled a b n inc W W' -> c < n ->
  fvals Identity inc n W' us c = map (fun v => a c * v + b c)%R (fvals Identity inc n W us c).
Proof. intros H Hc. unfold fvals. rewrite map_map. apply map_ext. intros u. cbn [act_f]. unfold k_identity. apply zed_rescaled; assumption. Qed.
Lemma fvals_same t a b n inc W W' us c : rescaled a b n inc W W' -> c < n -> a c = 1%R -> b c = 0%R -> fvals t inc n W' us c = fvals t inc n W us c.
Proof. intros H Hc E1 E2. unfold fvals. apply map_ext. intros u. rewrite (zed_rescaled a b n inc W W' u c H Hc), E1, E2. f_equal. ring. Qed.
Lemma wholev_rescaled a b n inc W W' us : rescaled (fun _ => a) (fun _ => b) n inc W W' ->
  wholev Identity inc n W' us = map (fun v => a * v + b)%R (wholev Identity inc n W us).
Proof.
  intros H. unfold wholev. rewrite !flat_map_concat_map, concat_map, map_map. f_equal. apply map_ext_in. intros c Hc. apply in_seq in Hc.
  apply (fvals_rescaled _ _ _ _ _ _ _ _ H). lia.
Qed.

(** ** The neurons of a layer apart *)
Lemma lnorm_rows_ok p asc n inc : forall a c ok W W' ok' all bad, length ok = length a -> c + length a <= n -> length W = n * (inc + 1) ->
  lnorm_rows p asc n inc c a ok W = (W', ok', all, bad) ->
  length ok' = length a /\
  exists al be, rescaled al be n inc W W' /\
  (forall j, j < c \/ c + length a <= j -> al j = 1%R /\ be j = 0%R) /\
  (forall j, j < length a ->
    (al (c + j) = 1%R /\ be (c + j) = 0%R /\ nth j ok' false = nth j ok false) \/
    (nth j ok false = false /\ al (c + j) = lf p (nth j a acc0) /\ be (c + j) = lg p asc (nth j a acc0) /\ nth j ok' false = settled p (nth j a acc0) /\
     bad_stats p (nth j a acc0) && n_break p = false)) /\
  (bad = false -> forall j, j < length a -> nth j ok false = false ->
     nth j ok false = false /\ al (c + j) = lf p (nth j a acc0) /\ be (c + j) = lg p asc (nth j a acc0) /\ nth j ok' false = settled p (nth j a acc0) /\
     bad_stats p (nth j a acc0) && n_break p = false) /\
  (bad = false -> (all = true <-> forall j, j < length a -> nth j ok' false = true)) /\
  (bad = true -> exists j, j < length a /\ bad_stats p (nth j a acc0) = true).
Proof.
  induction a as [|y a IH]; intros c ok W W' ok' all bad HO HN HW E.
  - destruct ok; [|discriminate]. cbn in E. injection E as <- <- <- <-. split; [reflexivity|]. exists (fun _ => 1%R), (fun _ => 0%R).
    split; [apply rescaled_id|]. split; [auto|]. split; [intros j Hj; inversion Hj|]. split; [intros _ j Hj; inversion Hj|]. split; [|discriminate].
    intros _. split; [intros _ j Hj; inversion Hj|reflexivity].
  - destruct ok as [|o ok]; [discriminate|]. cbn [length] in HO, HN. injection HO as HO. cbn [lnorm_rows] in E. destruct o.
    + destruct (lnorm_rows p asc n inc (c + 1) a ok W) as [[[W1 ok1] all1] bad1] eqn:E1. injection E as <- <- <- <-.
      destruct (IH (c + 1) ok W W1 ok1 all1 bad1 HO ltac:(lia) HW E1) as (L & al & be & R1 & R2 & R3 & R4 & R5 & R6).
      split; [cbn [length]; congruence|]. exists al, be. split; [exact R1|]. split; [intros j Hj; apply R2; cbn [length] in Hj; lia|]. cbn [length]. split; [|split; [|split]].
      * intros [|j] Hj; [left; rewrite Nat.add_0_r; destruct (R2 c ltac:(lia)) as [Q1 Q2]; auto|]. replace (c + Datatypes.S j) with (c + 1 + j) by lia. apply (R3 j). lia.
      * intros Q [|j] Hj Ho; [discriminate|]. replace (c + Datatypes.S j) with (c + 1 + j) by lia. apply (R4 Q j); [lia|exact Ho].
      * intros Q. rewrite (R5 Q). split; intros K j Hj; [destruct j; [reflexivity|]; apply K; lia|]. apply (K (Datatypes.S j)). lia.
      * intros Q. destruct (R6 Q) as (j & Hj & Hs). exists (Datatypes.S j). split; [lia|exact Hs].
    + rewrite settled_near in E. destruct (bad_stats p y && n_break p) eqn:Eb.
      * injection E as <- <- <- <-. cbn [length]. split; [congruence|]. exists (fun _ => 1%R), (fun _ => 0%R). split; [apply rescaled_id|]. split; [auto|]. split; [intros j Hj; left; auto|].
        split; [discriminate|]. split; [discriminate|]. intros _. exists 0. split; [lia|]. apply andb_prop in Eb. apply Eb.
      * pose proof (norm_row_ok p asc y n inc c W ltac:(lia) HW) as RR. set (W0 := norm_row p asc y n inc c W) in *.
        destruct (lnorm_rows p asc n inc (c + 1) a ok W0) as [[[W1 ok1] all1] bad1] eqn:E1. injection E as <- <- <- <-.
        assert (HW0 : length W0 = n * (inc + 1)) by (rewrite (proj1 RR); exact HW).
        destruct (IH (c + 1) ok W0 W1 ok1 all1 bad1 HO ltac:(lia) HW0 E1) as (L & al & be & R1 & R2 & R3 & R4 & R5 & R6).
        split; [cbn [length]; congruence|]. pose proof (rescaled_trans _ _ _ _ _ _ _ _ _ RR R1) as RT.
        match type of RT with rescaled ?a ?b _ _ _ _ => exists a, b end. split; [exact RT|].
        assert (G0 : al c = 1%R /\ be c = 0%R) by (apply R2; lia). destruct G0 as [G0 G0'].
        assert (G1 : forall j, (c + Datatypes.S j =? c) = false) by (intros j; apply Nat.eqb_neq; lia).
        cbn [length]. split; [|split; [|split; [|split]]].
        -- intros j Hj. destruct (R2 j ltac:(lia)) as [-> ->]. rewrite (proj2 (Nat.eqb_neq j c)) by lia. split; ring.
        -- intros [|j] Hj.
           ++ right. rewrite Nat.add_0_r, Nat.eqb_refl, G0, G0'. cbn [nth]. split; [reflexivity|]. split; [ring|]. split; [ring|]. auto.
           ++ rewrite G1. replace (c + Datatypes.S j) with (c + 1 + j) by lia. cbn [nth].
              destruct (R3 j ltac:(lia)) as [(Q1 & Q2 & Q3)|(Q0 & Q1 & Q2 & Q3 & Q4)]; rewrite Q1, Q2; [left|right].
              ** split; [ring|]. split; [ring|exact Q3].
              ** split; [exact Q0|]. split; [ring|]. split; [ring|]. auto.
        -- intros Q [|j] Hj Ho.
           ++ rewrite Nat.add_0_r, Nat.eqb_refl, G0, G0'. cbn [nth]. split; [reflexivity|]. split; [ring|]. split; [ring|]. auto.
           ++ rewrite G1. replace (c + Datatypes.S j) with (c + 1 + j) by lia. cbn [nth] in Ho |- *.
              destruct (R4 Q j ltac:(lia) Ho) as (Q0 & Q1 & Q2 & Q3 & Q4). rewrite Q1, Q2. split; [exact Q0|]. split; [ring|]. split; [ring|]. auto.
        -- intros Q. rewrite andb_true_iff, (R5 Q). split.
           ++ intros [K1 K2] [|j] Hj; [exact K1|]. apply K2. lia.
           ++ intros K. split; [apply (K 0); lia|]. intros j Hj. apply (K (Datatypes.S j)). lia.
        -- intros Q. destruct (R6 Q) as (j & Hj & Hs). exists (Datatypes.S j). split; [lia|exact Hs].
Qed.

(** ** The loops *)
Section L.
Context (S : sets R R) (HC : coherent 1%R S) (Hb : s_bir (x0 S) = false).
Context (p : nset) (q : lname) (pre : bool) (asc : R) (imw : nat -> nat -> imath R R) (ibs fp tb : nat).
Context (Hw : forall i k, im_ok (imw i k)).
Context (X : net) (F : fc) (HG : good_net (sample_size (x0 S)) X) (HF : layer_of q X = Some F).
Notation n := (f_n F). Notation inc := (f_inc F).
Notation bsz := (asked fp ibs (n_bs p)).
Notation Lk := (looked p (cnt S 0) (asked fp ibs (n_bs p))).
Definition seenby (ids : list nat) : list (list R) := flat_map (fun k => net_inputs q X (sample (x0 S) k)) ids.
Definition fact : act := pact pre (f_act F).
Definition wvals (W : list R) : list R := wholev fact inc n W (seenby (seq 0 Lk)).
Definition cvals (W : list R) (c : nat) : list R := fvals fact inc n W (seenby (seq 0 Lk)) c.
Definition tst (t : tds R R) : Prop := InvW 1%R 1%R S fp tb t Idle /\ 0 < bsz /\ is_initialized4inference S t bsz = Some bsz.
Definition good_stat (a : acc) : Prop := settled p a = true /\ (n_break p = true -> bad_stats p a = false).

Lemma tst_next t t' : tst t -> InvW 1%R 1%R S fp tb t' Idle -> t_mini t' = t_mini t -> tst t'.
Proof.
  intros (H1 & H2 & H3) H4 H5. split; [exact H4|]. split; [exact H2|]. rewrite <- H3. apply (init_same 1%R S S fp tb t t' Idle Idle); try assumption. apply kept_refl; assumption.
Qed.
Lemma lwf : 0 < n /\ 0 < inc /\ length (f_W F) = n * (inc + 1).
Proof. apply (layer_of_wf (sample_size (x0 S)) q X F); [apply HG|exact HF]. Qed.

Lemma looking W b ids : length W = length (f_W F) -> holds 1%R b (x0 S) ids ->
  exists F', look q pre (setw q W X) b = Some F' /\ f_n F' = n /\ f_inc F' = inc /\ f_W F' = W /\ f_act F' = fact /\ shows F' (seenby ids).
Proof.
  intros HW Hh. pose proof (coherent_xdata S 0 HC Hb ltac:(lia)) as (_ & _ & Hbias & _). change (set_x S 0) with (x0 S) in Hbias.
  destruct (look_ok (sample_size (x0 S)) q pre (setw q W X) _ b (x0 S) ids (setw_good _ q W X F HG HF HW) (setw_layer q W X F HF) Hh Hb Hbias eq_refl) as (F' & E & E1 & E2 & E3 & E4 & E5).
  exists F'. split; [exact E|]. do 4 (split; [assumption|]). unfold seenby.
  rewrite (flat_map_ext_in (fun k => net_inputs q X (sample (x0 S) k)) (fun k => net_inputs q (setw q W X) (sample (x0 S) k))); [exact E5|].
  intros k _. symmetry. apply put_w_inputs; [apply HG|apply late_self].
Qed.
Lemma seenby_app a b : seenby (a ++ b) = seenby a ++ seenby b. Proof. apply flat_map_app. Qed.

Lemma pass_whole it t W : tst t -> length W = length (f_W F) ->
  exists k t1 t2, prepare p S t ibs = Some (k, t1) /\ gather (lfeed q pre (setw q W X)) (imw it) S t1 0 k acc0 = Some (seen (wvals W), t2) /\ tst t2.
Proof.
  intros Ht HW. pose proof Ht as (HI & Hp & Hi).
  destruct (pass_walk 1%R (lfeed q pre (setw q W X)) (fun ids d => d = seen (wholev fact inc n W (seenby ids))) p S fp tb ibs t (imw it) acc0)
    as (k & t1 & d & t2 & E1 & E2 & Ed & HI2 & Em & _); try assumption; [apply Hw| | |].
  - intros b ids prev d Hh Hne ->. destruct (looking W b ids HW Hh) as (F' & EL & J1 & J2 & J3 & J4 & J5). unfold lfeed. rewrite EL. cbn [obind].
    eexists. split; [reflexivity|]. rewrite seen_app. apply seen_perm. apply shows_whole in J5. rewrite J1, J2, J3, J4 in J5.
    rewrite seenby_app, <- wholev_app. apply Permutation_app_head. exact J5.
  - unfold wholev. rewrite flat_map_nil; [reflexivity|]. intros c _. reflexivity.
  - exists k, t1, t2. subst d. split; [exact E1|]. split; [exact E2|]. apply (tst_next t); assumption.
Qed.

Lemma lfeed_cols_ok (A : list R) mm W us us' : length A = mm * n -> (forall c, c < n -> Permutation (slice (mm * c) mm A) (fvals fact inc n W us' c)) ->
  forall m c, c + m <= n -> lfeed_cols A mm c (map (fun c => seen (fvals fact inc n W us c)) (seq c m)) = Some (map (fun c => seen (fvals fact inc n W (us ++ us') c)) (seq c m)).
Proof.
  intros HA HP. induction m as [|m IH]; intros c Hc; [reflexivity|]. cbn [seq map lfeed_cols]. unfold read. rewrite (proj2 (Nat.leb_le _ _)) by nia. cbn [guard obind].
  replace (c + 1) with (Datatypes.S c) by lia. rewrite IH by lia. cbn [obind]. rewrite seen_app. do 2 f_equal. apply seen_perm. rewrite fvals_app. apply Permutation_app_head.
  apply (HP c). lia.
Qed.
Lemma pass_cw it t W : tst t -> length W = length (f_W F) ->
  exists k t1 t2, prepare p S t ibs = Some (k, t1) /\
    gather (lfeed_cw q pre (setw q W X)) (imw it) S t1 0 k (repeat acc0 n) = Some (map (fun c => seen (cvals W c)) (seq 0 n), t2) /\ tst t2.
Proof.
  intros Ht HW. pose proof Ht as (HI & Hp & Hi). destruct lwf as (Hn & _ & _).
  destruct (pass_walk 1%R (lfeed_cw q pre (setw q W X)) (fun ids d => d = map (fun c => seen (fvals fact inc n W (seenby ids) c)) (seq 0 n)) p S fp tb ibs t (imw it) (repeat acc0 n))
    as (k & t1 & d & t2 & E1 & E2 & Ed & HI2 & Em & _); try assumption; [apply Hw| | |].
  - intros b ids prev d Hh Hne ->. destruct (looking W b ids HW Hh) as (F' & EL & J1 & J2 & J3 & J4 & (mm & M1 & M2 & M3)). unfold lfeed_cw. rewrite EL. cbn [obind].
    rewrite J1, J2, J3, J4 in *. rewrite M1, Nat.div_mul by lia. eexists. split; [apply (lfeed_cols_ok (f_A F') mm W (seenby prev) (seenby ids) M1 M3); lia|]. rewrite seenby_app. reflexivity.
  - unfold seenby, fvals. cbn [flat_map map]. generalize n. intros m. generalize 0 at 1. induction m; intros c; [reflexivity|]. cbn [repeat seq map]. f_equal. apply IHm.
  - exists k, t1, t2. subst d. split; [exact E1|]. split; [exact E2|]. apply (tst_next t); assumption.
Qed.

Lemma lnorm_whole_ok : forall k it t W, tst t -> length W = length (f_W F) ->
  exists r t' W' a b, lnorm_whole p q pre asc n inc imw ibs S k it t (setw q W X) = Some (r, t', setw q W' X) /\ tst t' /\
    rescaled (fun _ => a) (fun _ => b) n inc W W' /\ (n_dos p = false -> a = 1%R) /\ (n_doc p = false -> b = 0%R) /\ ((0 < n_scale p)%R -> (0 < a)%R) /\
    (r = true -> good_stat (seen (wvals W'))) /\
    (pre = true -> asc = 1%R -> enough p (wvals W) -> fine p -> rank p (wvals W) < k -> r = true).
Proof.
  destruct lwf as (Hn & Hinc & HFW).
  induction k as [|k IH]; intros it t W Ht HW.
  - exists false, t, W, 1%R, 0%R. cbn [lnorm_whole]. split; [reflexivity|]. split; [exact Ht|]. split; [apply rescaled_id|]. do 2 (split; [reflexivity|]). split; [lra|].
    split; [discriminate|]. intros _ _ _ _ Q. lia.
  - destruct (pass_whole it t W Ht HW) as (m & t1 & t2 & E1 & E2 & Ht2). cbn [lnorm_whole]. rewrite E1. cbn [obind]. rewrite E2. cbn [obind].
    set (l := wvals W) in *. rewrite settled_near. destruct (bad_stats p (seen l) && n_break p) eqn:Eb.
    { exists false, t2, W, 1%R, 0%R. split; [reflexivity|]. split; [exact Ht2|]. split; [apply rescaled_id|]. do 2 (split; [reflexivity|]). split; [lra|]. split; [discriminate|].
      intros _ _ Q. rewrite (good_stats p l Q) in Eb. discriminate. }
    assert (HX : (if do_scale p (seen l) || do_central p (seen l) then put_w q (norm_w p asc (seen l) n inc) (setw q W X) else setw q W X) = setw q (norm_w p asc (seen l) n inc W) X).
    { destruct (do_scale p (seen l) || do_central p (seen l)) eqn:Eo.
      - rewrite (put_w_setw q _ (setw q W X) _ (proj2 (setw_good _ q W X F HG HF HW)) (setw_layer q W X F HF)). apply setw_setw.
      - apply orb_false_elim in Eo. destruct Eo as [Q1 Q2]. unfold norm_w. rewrite Q1, Q2. reflexivity. }
    rewrite HX. clear HX. pose proof (norm_w_ok p asc (seen l) n inc W Hn ltac:(congruence)) as RR. set (W1 := norm_w p asc (seen l) n inc W) in *.
    destruct (settled p (seen l)) eqn:Es.
    + exists true, t2, W1, (lf p (seen l)), (lg p asc (seen l)). split; [reflexivity|]. split; [exact Ht2|]. split; [exact RR|]. split; [apply lf_dos|]. split; [apply lg_doc|]. split; [apply lf_pos|].
      split; [|reflexivity]. intros _. destruct (settled_stays p asc (seen l) Es) as [Q1 Q2].
      assert (EQ : wvals W1 = l).
      { unfold l, wvals, wholev. apply flat_map_ext_in. intros c Hc. apply in_seq in Hc. apply (fvals_same _ _ _ _ _ _ _ _ _ RR); [lia|exact Q1|exact Q2]. }
      rewrite EQ. split; [exact Es|]. intros Q. rewrite Q, andb_true_r in Eb. exact Eb.
    + destruct (IH (it + 1) t2 W1 Ht2) as (r & t' & W' & a & b & E & Ht' & R2 & A1 & B1 & P1 & G1 & C1); [rewrite (proj1 RR); exact HW|].
      pose proof (rescaled_trans _ _ _ _ _ _ _ _ _ RR R2) as RT.
      exists r, t', W', (a * lf p (seen l))%R, (a * lg p asc (seen l) + b)%R. split; [exact E|]. split; [exact Ht'|]. split; [exact RT|].
      split; [intros Q; rewrite (A1 Q), (lf_dos p _ Q); ring|]. split; [intros Q; rewrite (B1 Q), (lg_doc p asc _ Q); ring|].
      split; [intros Q; apply Rmult_lt_0_compat; [exact (P1 Q)|apply lf_pos; exact Q]|]. split; [exact G1|].
      intros Hpre Hasc Hen Hfine Hrank. pose proof Hfine as (F1 & F2 & F3).
      assert (Hpos : 0 < rank p l). { destruct (rank p l) eqn:Q; [|lia]. apply rank0 in Q. congruence. }
      assert (EV : wvals W1 = map (one_pass p l) l).
      { unfold l, wvals, fact, pact. rewrite Hpre. rewrite (wholev_rescaled _ _ _ _ _ _ _ RR). apply map_ext. intros v. unfold one_pass.
        rewrite lf_eff, (lg_eff p asc _ Hasc). unfold l, wvals, fact, pact. rewrite Hpre. reflexivity. }
      apply C1; try assumption; rewrite EV; [apply enough_map; exact Hen|]. pose proof (rank_pass p l Hen F1 F2 F3 Hpos). lia.
Qed.

Lemma lnorm_cw_ok : forall k it t W ok, tst t -> length W = length (f_W F) -> length ok = n ->
  (forall j, j < n -> nth j ok false = true -> good_stat (seen (cvals W j))) ->
  exists r t' W' a b, lnorm_cw p q pre asc n inc imw ibs S k it t (setw q W X) ok = Some (r, t', setw q W' X) /\ tst t' /\
    rescaled a b n inc W W' /\ (forall j, (n_dos p = false -> a j = 1%R) /\ (n_doc p = false -> b j = 0%R) /\ ((0 < n_scale p)%R -> (0 < a j)%R)) /\
    (r = true -> forall j, j < n -> good_stat (seen (cvals W' j))) /\
    (pre = true -> asc = 1%R -> (forall j, j < n -> enough p (cvals W j)) -> fine p -> (forall j, j < n -> rank p (cvals W j) < k) -> r = true).
Proof.
  destruct lwf as (Hn & Hinc & HFW).
  induction k as [|k IH]; intros it t W ok Ht HW Lok Hok.
  - exists false, t, W, (fun _ => 1%R), (fun _ => 0%R). cbn [lnorm_cw]. split; [reflexivity|]. split; [exact Ht|]. split; [apply rescaled_id|]. split; [intros j; do 2 (split; [reflexivity|]); lra|].
    split; [discriminate|]. intros _ _ _ _ Q. specialize (Q 0 Hn). lia.
  - destruct (pass_cw it t W Ht HW) as (m & t1 & t2 & E1 & E2 & Ht2). cbn [lnorm_cw]. rewrite E1. cbn [obind]. rewrite E2. cbn [obind].
    rewrite (setw_layer q W X F HF). cbn [obind f_W]. set (d := map (fun c => seen (cvals W c)) (seq 0 n)) in *.
    assert (Ld : length d = n) by (unfold d; rewrite map_length, seq_length; reflexivity).
    assert (Hd : forall j, j < n -> nth j d acc0 = seen (cvals W j)).
    { intros j Hj. unfold d. erewrite nth_error_nth; [|apply map_nth_error; apply nth_error_seq; exact Hj]. reflexivity. }
    destruct (lnorm_rows p asc n inc 0 d ok W) as [[[W1 ok1] all] bad] eqn:En.
    destruct (lnorm_rows_ok p asc n inc d 0 ok W W1 ok1 all bad ltac:(congruence) ltac:(lia) ltac:(congruence) En) as (L1 & al & be & RR & Rout & Ra & Rb & Rc & Rd).
    rewrite Ld in *. cbn [Nat.add] in Ra, Rb. change (put_w q (fun _ => W1) (setw q W X)) with (setw q W1 (setw q W X)). rewrite setw_setw.
    assert (Hfg : forall j, (n_dos p = false -> al j = 1%R) /\ (n_doc p = false -> be j = 0%R) /\ ((0 < n_scale p)%R -> (0 < al j)%R)).
    { intros j. destruct (Nat.lt_ge_cases j n) as [Hj|Hj].
      - destruct (Ra j Hj) as [(-> & -> & _)|(_ & -> & -> & _)]; [do 2 (split; [reflexivity|]); lra|]. split; [apply lf_dos|]. split; [apply lg_doc|apply lf_pos].
      - destruct (Rout j ltac:(lia)) as [-> ->]. do 2 (split; [reflexivity|]). lra. }
    assert (Hg1 : forall j, j < n -> nth j ok1 false = true -> good_stat (seen (cvals W1 j))).
    { intros j Hj Ho. destruct (Ra j Hj) as [(Q1 & Q2 & Q3)|(Q0 & Q1 & Q2 & Q3 & Q4)].
      - unfold cvals. rewrite (fvals_same _ _ _ _ _ _ _ _ _ RR Hj Q1 Q2). apply Hok; [exact Hj|congruence].
      - rewrite Hd in * by exact Hj. rewrite Q3 in Ho. destruct (settled_stays p asc _ Ho) as [Z1 Z2].
        unfold cvals at 1. rewrite (fvals_same _ _ _ _ _ _ _ _ _ RR Hj ltac:(congruence) ltac:(congruence)). split; [exact Ho|]. intros Q. rewrite Q, andb_true_r in Q4. exact Q4. }
    destruct bad eqn:Ebad.
    { exists false, t2, W1, al, be. split; [reflexivity|]. split; [exact Ht2|]. split; [exact RR|]. split; [exact Hfg|]. split; [discriminate|].
      intros _ _ Q. destruct (Rd eq_refl) as (j & Hj & Hs). rewrite Hd in Hs by exact Hj. rewrite (good_stats p _ (Q j Hj)) in Hs. discriminate. }
    destruct all eqn:Eall.
    { exists true, t2, W1, al, be. split; [reflexivity|]. split; [exact Ht2|]. split; [exact RR|]. split; [exact Hfg|]. split; [|reflexivity].
      intros _ j Hj. apply (Hg1 j Hj). apply (proj1 (Rc eq_refl) eq_refl j Hj). }
    destruct (IH (it + 1) t2 W1 ok1 Ht2) as (r & t' & W' & a & b & E & Ht' & R2 & AB & G1 & C1); [rewrite (proj1 RR); exact HW|exact L1|exact Hg1|].
    pose proof (rescaled_trans _ _ _ _ _ _ _ _ _ RR R2) as RT. exists r, t', W', (fun j => a j * al j)%R, (fun j => a j * be j + b j)%R.
    split; [exact E|]. split; [exact Ht'|]. split; [exact RT|]. split.
    { intros j. destruct (AB j) as (Y1 & Y2 & Y3). destruct (Hfg j) as (X1 & X2 & X3). split; [intros Q; rewrite (Y1 Q), (X1 Q); ring|].
      split; [intros Q; rewrite (Y2 Q), (X2 Q); ring|]. intros Q. apply Rmult_lt_0_compat; auto. }
    split; [exact G1|]. intros Hpre Hasc Hen Hfine Hrank. pose proof Hfine as (F1 & F2 & F3).
    assert (EV : forall j, j < n -> cvals W1 j = map (fun v => al j * v + be j)%R (cvals W j)).
    { intros j Hj. unfold cvals, fact, pact. rewrite Hpre. apply (fvals_rescaled _ _ _ _ _ _ _ _ RR Hj). }
    assert (Hdec : forall j, j < n -> nth j ok1 false = false -> 0 < rank p (cvals W j) /\ rank p (cvals W1 j) < rank p (cvals W j)).
    { intros j Hj Ho. assert (Ho0 : nth j ok false = false).
      { destruct (Ra j Hj) as [(_ & _ & Q3)|(Q0 & _)]; congruence. }
      destruct (Rb eq_refl j Hj Ho0) as (_ & Q1 & Q2 & Q3 & _). rewrite Hd in * by exact Hj.
      assert (Hpos : 0 < rank p (cvals W j)). { destruct (rank p (cvals W j)) eqn:Q; [|lia]. apply rank0 in Q. congruence. }
      split; [exact Hpos|]. rewrite EV, Q1, Q2, lf_eff, (lg_eff p asc _ Hasc) by exact Hj. apply (rank_pass p (cvals W j) (Hen j Hj) F1 F2 F3 Hpos). }
    assert (Hk : 0 < k).
    { destruct k; [|lia]. exfalso. assert (false = true); [|discriminate]. apply (proj2 (Rc eq_refl)). intros j Hj. destruct (nth j ok1 false) eqn:Eo; [reflexivity|].
      destruct (Hdec j Hj Eo). specialize (Hrank j Hj). lia. }
    apply C1; try assumption.
    + intros j Hj. rewrite EV by exact Hj. apply enough_map. apply Hen. exact Hj.
    + intros j Hj. destruct (nth j ok1 false) eqn:Eo.
      * destruct (Hg1 j Hj Eo) as [Q _]. apply rank0 in Q. lia.
      * destruct (Hdec j Hj Eo). specialize (Hrank j Hj). lia.
Qed.
End L.
