(** One layer; all layers. *)
From Coq Require Import Reals Lra Permutation.
From Verif Require Import Base BaseLemmas Act_Model Act_Spec Act_Proofs Loss_Proofs Smx_Model Smx_Spec Kern_Model Kern_Spec
  TData_Model TData_Spec TData_Proofs TData_Proofs2 TData_Proofs3 TData_Proofs4 TData_Proofs5
  Net_Model Net_Spec Net_Proofs Net_Proofs2 Net_Proofs3 Net_Proofs4 Net_Proofs5 Nrm_Model Nrm_Spec Nrm_Proofs Nrm_Proofs2 Nrm_Proofs3 Nrm_Proofs4 Nrm_Proofs5 Nrm_Proofs7
  Fit_Model Fit_Spec Fit_Proofs Fit_Proofs2 Lsu_Model Lsu_Spec Lsu_Proofs Lsu_Proofs2 Lsu_Proofs3 Lsu_Proofs4.
Local Open Scope nat_scope.

Definition unit_q (q : lname) (F : fc) (W : list R) : unit_ := mkU q (f_act F) (f_inc F) (f_n F) W.

(** ** Attempts *)
Lemma attempts_ok E q X len (st : tds R R -> Prop) f (T P : list R -> Prop) (Q : list R -> list R -> Prop) :
  (forall rt t W, st t -> length W = len -> exists r t' W', f rt t (setw q W X) = Some (r, t', setw q W' X) /\ st t' /\ length W' = len /\
     (r = true -> P W') /\ (T W -> r = true) /\ Q W W') ->
  (forall rt, length (le_new E q rt) = len) ->
  forall k rt t W, st t -> length W = len -> exists r t' W', attempts E q f k rt t (setw q W X) = Some (r, t', setw q W' X) /\ st t' /\ length W' = len /\
     (r = true -> P W') /\ (T W -> 0 < k -> r = true /\ Q W W').
Proof.
  intros Hf Hnew. induction k as [|k IH]; intros rt t W Ht HW.
  - exists false, t, W. split; [reflexivity|]. do 2 (split; [assumption|]). split; [discriminate|]. lia.
  - destruct (Hf rt t W Ht HW) as (r & t1 & W1 & E1 & Ht1 & L1 & P1 & T1 & Q1). cbn [attempts]. rewrite E1. cbn [obind]. destruct r.
    + exists true, t1, W1. split; [reflexivity|]. do 2 (split; [assumption|]). split; [exact P1|]. auto.
    + assert (EX : exists W2, (if 0 <? k then put_w q (fun _ => le_new E q rt) (setw q W1 X) else setw q W1 X) = setw q W2 X /\ length W2 = len).
      { destruct (0 <? k); [|eauto]. exists (le_new E q rt). split; [|apply Hnew]. change (setw q (le_new E q rt) (setw q W1 X) = setw q (le_new E q rt) X). apply setw_setw. }
      destruct EX as (W2 & -> & L2). destruct (IH (rt + 1) t1 W2 Ht1 L2) as (r & t2 & W3 & E2 & Ht2 & L3 & P3 & _). exists r, t2, W3.
      split; [exact E2|]. do 2 (split; [assumption|]). split; [exact P3|]. intros HT. specialize (T1 HT). discriminate.
Qed.

Section R.
Context (S : sets R R) (HC : coherent 1%R S) (Hb : s_bir (x0 S) = false) (H2 : 2 <= cnt S 0).
Context (E : lenv) (HE : env_ok E) (cfg : lname -> lset).

Definition INV (t : tds R R) : Prop := (forall b, is_initialized4inference S t b = None) \/ exists fp tb, InvW 1%R 1%R S fp tb t Idle.

Lemma nz_pos b : 0 < nz_batch (cnt S 0) b <= cnt S 0.
Proof. unfold nz_batch. destruct (Nat.eqb_spec b 0); lia. Qed.
Lemma prep_ok q t bs : INV t -> 0 < bs <= cnt S 0 ->
  exists t' fp tb, prep E q S t bs = Some t' /\ InvW 1%R 1%R S fp tb t' Idle /\ is_initialized4inference S t' bs = Some bs.
Proof.
  intros HI Hbs. destruct HE as (_ & Hmx & Hmy & Hm). unfold prep. destruct (is_initialized4inference S t bs) as [m|] eqn:Ei.
  - rewrite (Hm q). cbn [guard obind]. destruct HI as [HI|(fp & tb & HI)]; [congruence|]. exists t, fp, tb. split; [reflexivity|]. split; [exact HI|].
    rewrite Ei. f_equal. apply (inf_some S t bs m); [lia|exact Ei].
  - destruct (init4inf_ok 1%R (le_mx E q) (le_my E q) S t bs HC) as (e & t1 & E1 & HS & HF). rewrite E1. cbn [obind].
    assert (e = Success) as ->. { destruct e; try reflexivity; destruct HF as [Q|Q]; try discriminate; [destruct (Hmx q Q)|destruct (Hmy q Q)|destruct (Hmx q Q)|destruct (Hmy q Q)| | | |]; try (destruct (Hmx q Q)); try (destruct (Hmy q Q)). }
    cbn [obind]. rewrite (Hm q). cbn [guard obind]. destruct (HS eq_refl) as [HW _].
    assert (EW : want bs (biggest S) = bs).
    { unfold want. rewrite biggest_cnt. destruct (Nat.eqb_spec bs 0); [lia|]. destruct (Nat.ltb_spec (Nat.max (cnt S 0) (cnt S 1)) bs); [lia|]. reflexivity. }
    rewrite EW in HW. exists t1, bs, 0. split; [reflexivity|]. split; [exact HW|]. apply (inf_self 1%R S bs 0 t1 Idle HC HW).
Qed.

(** settings as used *)
Definition eset (ls : lset) (bs : nat) : nset :=
  let p := l_n ls in mkNS (n_scale p) (n_central p) (n_stol p) (n_ctol p) (n_tries p) (n_dos p) (n_doc p) (n_break p) (Z.of_nat bs) (n_bc p) (n_cw p) true.
Lemma asked_eset fp ls bs : 0 < bs -> asked fp bs (n_bs (eset ls bs)) = bs.
Proof. intros H. unfold asked, eset. cbn [n_bs]. rewrite (proj2 (Z.ltb_ge _ _)) by lia. rewrite (proj2 (Z.eqb_neq _ _)) by lia. lia. Qed.
Lemma looked_eset ls : looked (eset ls (nz_batch (cnt S 0) (l_bs ls))) (cnt S 0) (nz_batch (cnt S 0) (l_bs ls)) = llooked S ls.
Proof.
  unfold llooked, looked, nz_batch, eset. cbn [n_bc]. destruct (l_bs ls =? 0); [reflexivity|]. replace (Nat.min (Nat.min (l_bs ls) (cnt S 0)) (cnt S 0)) with (Nat.min (l_bs ls) (cnt S 0)) by lia. reflexivity.
Qed.
Lemma good_lmet ls bs l : good_stat (eset ls bs) (seen l) -> n_break (l_n ls) = true \/ 2 <= length l -> lmet ls l.
Proof.
  intros [H1 H3] H. assert (HL : enough (eset ls bs) l).
  { unfold enough. cbn [eset n_adj Nat.b2n]. destruct H as [H|H]; [|lia]. specialize (H3 H). unfold bad_stats in H3. apply orb_false_elim in H3. destruct H3 as [_ H3].
    destruct (Nat.le_gt_cases (length l) 1) as [Q|Q]; [|lia]. rewrite (scale_none _ l) in H3 by exact Q. discriminate. }
  apply (settled_iff (eset ls bs) l HL) in H1. exact H1.
Qed.

Section Q.
Context (q : lname) (X : net) (F : fc) (HG : good_net (sample_size (x0 S)) X) (HF : layer_of q X = Some F).
Notation ls := (cfg q). Notation bs := (nz_batch (cnt S 0) (l_bs (cfg q))).
Notation p := (eset (cfg q) (nz_batch (cnt S 0) (l_bs (cfg q)))).

Lemma net_inputs_same W v : net_inputs q (setw q W X) v = net_inputs q X v.
Proof. apply put_w_inputs; [apply HG|apply late_self]. Qed.
Lemma some_inputs v : net_inputs q X v <> [].
Proof.
  destruct HG as [(H1 & _) HN]. pose proof (layer_of_in q X F HF) as HI. destruct q as [id|]; [|discriminate]. destruct HI as [<- HI]. cbn [net_inputs]. unfold nfcl in HI.
  destruct (n_hid X) as [s|]; [|destruct HI]. apply inputs_some; [apply H1|]. unfold sids. apply in_map, HI.
Qed.
Lemma seenby_len l : length l <= length (seenby S q X l).
Proof.
  unfold seenby. induction l as [|k l IH]; [auto|]. cbn [flat_map length]. rewrite app_length. pose proof (some_inputs (sample (x0 S) k)). destruct (net_inputs q X (sample (x0 S) k)); [congruence|]. cbn [length]. lia.
Qed.
Lemma values_fvals W i c : values (l_pre ls) (setw q W X) (unit_q q F W) (sample (x0 S) i) c = fvals (fact (l_pre ls) F) (f_inc F) (f_n F) W (net_inputs q X (sample (x0 S) i)) c.
Proof.
  unfold values, fvals, fact, pact, unit_q. cbn [u_q u_n u_inc u_W u_act]. rewrite net_inputs_same. apply map_ext. intros v. destruct (l_pre ls); reflexivity.
Qed.
Lemma values_col W L c : flat_map (fun i => values (l_pre ls) (setw q W X) (unit_q q F W) (sample (x0 S) i) c) (seq 0 L) =
  fvals (fact (l_pre ls) F) (f_inc F) (f_n F) W (seenby S q X (seq 0 L)) c.
Proof.
  rewrite (flat_map_ext_in _ _ _ (fun i _ => values_fvals W i c)). unfold seenby, fvals. induction (seq 0 L) as [|i l IH]; [reflexivity|]. cbn [flat_map]. rewrite map_app, <- IH. reflexivity.
Qed.
Lemma values_whole W L : Permutation (flat_map (fun i => flat_map (values (l_pre ls) (setw q W X) (unit_q q F W) (sample (x0 S) i)) (seq 0 (f_n F))) (seq 0 L))
  (wholev (fact (l_pre ls) F) (f_inc F) (f_n F) W (seenby S q X (seq 0 L))).
Proof.
  rewrite (flat_map_swap (fun i c => values (l_pre ls) (setw q W X) (unit_q q F W) (sample (x0 S) i) c)). unfold wholev. apply Permutation_refl'. apply flat_map_ext_in. intros c _. apply values_col.
Qed.

(** what may happen to the weights *)
Definition outcome (W W' : list R) : Prop :=
  exists a b, rescaled a b (f_n F) (f_inc F) W W' /\
    (forall c, (n_dos (l_n ls) = false -> a c = 1%R) /\ (n_doc (l_n ls) = false -> b c = 0%R) /\ ((0 < n_scale (l_n ls))%R -> (0 < a c)%R)) /\
    (n_cw (l_n ls) = false -> forall c d, a c = a d /\ b c = b d).

Lemma process_ok bad t : INV t -> (forall rt, length (le_new E q rt) = length (f_W F)) ->
  exists ok t' W', process E cfg S (cnt S 0) q bad t X = Some (match ok, bad with false, None => Some q | _, _ => bad end, t', setw q W' X) /\ INV t' /\
    length W' = length (f_W F) /\ (~ lasked ls -> W' = f_W F) /\ (ok = false -> lasked ls) /\
    (ok = true -> lasked ls -> normalized S ls (setw q W' X) (unit_q q F W')) /\
    (reachable S ls -> ok = true /\ (lasked ls -> outcome (f_W F) W')).
Proof.
  intros Ht Hnew. unfold process. destruct ((negb (n_doc (l_n ls)) && negb (n_dos (l_n ls))) || (n_tries (l_n ls) =? 0)) eqn:Ea.
  - assert (NA : ~ lasked ls).
    { intros [Q1 Q2]. apply orb_prop in Ea. destruct Ea as [Ea|Ea]; [|apply Nat.eqb_eq in Ea; lia]. apply andb_prop in Ea. destruct Ea as [A1 A2].
      destruct (n_doc (l_n ls)); [discriminate|]. destruct (n_dos (l_n ls)); [discriminate|]. destruct Q1; discriminate. }
    exists true, t, (f_W F). rewrite (setw_self q X F (proj2 HG) HF). split; [reflexivity|]. split; [exact Ht|]. split; [reflexivity|]. split; [reflexivity|]. split; [discriminate|]. tauto.
  - assert (YA : lasked ls).
    { apply orb_false_elim in Ea. destruct Ea as [Ea Eb]. apply Nat.eqb_neq in Eb. unfold lasked. split; [|lia]. destruct (n_doc (l_n ls)); [auto|]. destruct (n_dos (l_n ls)); [auto|discriminate]. }
    rewrite HF. cbn [obind]. pose proof (nz_pos (l_bs ls)) as Hbs. destruct (prep_ok q t bs Ht Hbs) as (t1 & fp & tb & Ep & HI & Hi). rewrite Ep. cbn [obind].
    change (mkNS (n_scale (l_n ls)) (n_central (l_n ls)) (n_stol (l_n ls)) (n_ctol (l_n ls)) (n_tries (l_n ls)) (n_dos (l_n ls)) (n_doc (l_n ls)) (n_break (l_n ls)) (Z.of_nat bs) (n_bc (l_n ls)) (n_cw (l_n ls)) true) with p.
    set (asc := if l_pre ls then 1%R else act_scaling (f_act F)).
    assert (HT : tst S p bs fp tb t1).
    { unfold tst. rewrite (asked_eset fp ls bs) by lia. split; [exact HI|]. split; [lia|exact Hi]. }
    set (T := fun W : list R => reachable S ls /\ length W = length (f_W F)). 
    set (P := fun W' : list R => normalized S ls (setw q W' X) (unit_q q F W')).
    assert (EL : looked p (cnt S 0) (asked fp bs (n_bs p)) = llooked S ls).
    { rewrite (asked_eset fp ls bs) by lia. apply looked_eset. }
    destruct HE as (Him & _).
    assert (Hf : forall rt t W, tst S p bs fp tb t -> length W = length (f_W F) -> exists r t' W',
      (if n_cw p then lnorm_cw p q (l_pre ls) asc (f_n F) (f_inc F) (le_im E q rt) bs S (n_tries p) 0 t (setw q W X) (repeat false (f_n F))
       else lnorm_whole p q (l_pre ls) asc (f_n F) (f_inc F) (le_im E q rt) bs S (n_tries p) 0 t (setw q W X)) = Some (r, t', setw q W' X) /\ tst S p bs fp tb t' /\
      length W' = length (f_W F) /\ (r = true -> P W') /\ (T W -> r = true) /\ outcome W W').
    { intros rt t0 W Ht0 HW. unfold P, normalized, lgroups. destruct (n_cw p) eqn:Ecw.
      - assert (Ecw' : n_cw (l_n ls) = true) by exact Ecw.
        destruct (lnorm_cw_ok S HC Hb p q (l_pre ls) asc (le_im E q rt) bs fp tb (fun a b => Him q rt a b) X F HG HF (n_tries p) 0 t0 W (repeat false (f_n F)) Ht0 HW (repeat_length _ _))
          as (r & t' & W' & a & b & Er & Ht' & RR & AB & G1 & C1).
        { intros j Hj Q. rewrite nth_repeat_lt in Q by exact Hj. discriminate. }
        exists r, t', W'. split; [exact Er|]. split; [exact Ht'|]. split; [rewrite (proj1 RR); exact HW|]. split; [|split].
        + intros Q. rewrite Ecw'. apply Forall_forall. intros l Hl. apply in_map_iff in Hl. destruct Hl as (c & <- & Hc). apply in_seq in Hc. cbn [unit_q u_n] in Hc.
          rewrite values_col. apply (good_lmet ls bs). specialize (G1 Q c ltac:(lia)). unfold cvals in G1. rewrite EL in G1. exact G1.
        + intros [(R1 & R2 & R3 & R4 & R5) _]. apply C1; [exact R1|unfold asc; rewrite R1; reflexivity| |exact R2|].
          * intros j Hj. unfold enough, cvals, fvals. rewrite map_length, EL. cbn [eset n_adj Nat.b2n]. pose proof (seenby_len (seq 0 (llooked S ls))). rewrite seq_length in H. lia.
          * intros j Hj. pose proof (rank_le p (cvals S p q (l_pre ls) bs fp X F W j)) as Q. unfold enough_tries in R3. cbn [eset n_dos n_doc n_tries] in Q |- *.
            destruct (n_dos (l_n ls) && n_doc (l_n ls)); lia.
        + exists a, b. split; [exact RR|]. split; [exact AB|]. congruence.
      - assert (Ecw' : n_cw (l_n ls) = false) by exact Ecw.
        destruct (lnorm_whole_ok S HC Hb p q (l_pre ls) asc (le_im E q rt) bs fp tb (fun a b => Him q rt a b) X F HG HF (n_tries p) 0 t0 W Ht0 HW)
          as (r & t' & W' & a & b & Er & Ht' & RR & A1 & B1 & P1 & G1 & C1).
        exists r, t', W'. split; [exact Er|]. split; [exact Ht'|]. split; [rewrite (proj1 RR); exact HW|]. split; [|split].
        + intros Q. rewrite Ecw'. constructor; [|constructor]. cbn [unit_q u_n]. apply (good_lmet ls bs). rewrite (seen_perm _ _ (values_whole W' (llooked S ls))).
          specialize (G1 Q). unfold wvals in G1. rewrite EL in G1. exact G1.
        + intros [(R1 & R2 & R3 & R4 & R5) _]. apply C1; [exact R1|unfold asc; rewrite R1; reflexivity| |exact R2|].
          * unfold enough, wvals, wholev. rewrite EL. cbn [eset n_adj Nat.b2n]. destruct (lwf S q X F HG HF) as (Hn & _ & _).
            destruct (f_n F) as [|m] eqn:Em; [lia|]. cbn [seq flat_map]. rewrite app_length. unfold fvals at 1. rewrite map_length.
            pose proof (seenby_len (seq 0 (llooked S ls))). rewrite seq_length in H. lia.
          * pose proof (rank_le p (wvals S p q (l_pre ls) bs fp X F W)) as Q. unfold enough_tries in R3. cbn [eset n_dos n_doc n_tries] in Q |- *.
            destruct (n_dos (l_n ls) && n_doc (l_n ls)); lia.
        + exists (fun _ => a), (fun _ => b). split; [exact RR|]. split; [auto|]. auto. }
    destruct (attempts_ok E q X (length (f_W F)) (tst S p bs fp tb) (fun rt t x =>
      if n_cw p then lnorm_cw p q (l_pre ls) asc (f_n F) (f_inc F) (le_im E q rt) bs S (n_tries p) 0 t x (repeat false (f_n F))
      else lnorm_whole p q (l_pre ls) asc (f_n F) (f_inc F) (le_im E q rt) bs S (n_tries p) 0 t x) T P outcome Hf Hnew (l_re ls) 0 t1 (f_W F) HT eq_refl) as (r & t2 & W2 & Ea2 & Ht2 & L2 & P2 & T2).
    rewrite (setw_self q X F (proj2 HG) HF) in Ea2. rewrite Ea2. cbn [obind]. exists r, t2, W2. split; [reflexivity|]. split; [right; exists fp, tb; apply Ht2|]. split; [exact L2|].
    split; [tauto|]. split; [intros _; exact YA|]. split; [intros Q _; exact (P2 Q)|]. intros HR. assert (R4 : 0 < l_re ls) by (destruct HR as (? & ? & ? & ? & ?); assumption). destruct (T2 (conj HR eq_refl) R4) as [Q1 Q2]. auto.
Qed.
End Q.
End R.
