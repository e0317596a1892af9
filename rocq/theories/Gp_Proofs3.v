(** What a gated pack computes. *)
From Coq Require Import Reals Lra Bool.
From Coquelicot Require Import Coquelicot.
From Verif Require Import Base BaseLemmas Act_Model Act_Spec Act_Proofs Loss_Proofs Net_Model Net_Spec Net_Proofs Net_Proofs2 Net_Proofs3 Net_Proofs4 Gp_Model Gp_Spec Gp_Proofs Gp_Proofs2.
Local Open Scope nat_scope.

Lemma table_length m n f : length (table m n f) = m * n.
Proof. unfold table. rewrite map_length, seq_length. reflexivity. Qed.
Lemma table_at m n f r c : r < m -> c < n -> nth (c * m + r) (table m n f) 0%R = f r c.
Proof. intros Hr Hc. unfold table. rewrite nth_map_seq by (apply split_lt; assumption). destruct (dm _ _ c Hr) as [-> ->]. reflexivity. Qed.
Lemma table_eq m n f (l : list R) : length l = m * n -> (forall r c, r < m -> c < n -> nth (c * m + r) l 0%R = f r c) -> l = table m n f.
Proof.
  intros Hl H. apply nth_ext0; [rewrite table_length; exact Hl|]. rewrite Hl. intros q Hq.
  assert (Hm : m <> 0) by (intros ->; lia).
  assert (Eq : q = q / m * m + q mod m) by (rewrite (Nat.mul_comm (q / m)); apply Nat.div_mod; exact Hm).
  assert (H1 : q mod m < m) by (apply Nat.mod_upper_bound; exact Hm). assert (H2 : q / m < n) by (apply Nat.div_lt_upper_bound; lia).
  rewrite Eq, H, table_at by assumption. reflexivity.
Qed.
Lemma rnz_spec v : rnz v = true <-> v <> 0%R.
Proof. unfold rnz. destruct (Req_EM_T v 0); split; congruence. Qed.

Lemma alone_fval m inc B o c l : lok inc (o, c, l) -> length B = m * inc -> alone m B (o, c, l) = fval m (slice (m * o) (m * c) B) l.
Proof.
  intros (L1 & L2 & L3) HB. cbn [fst snd] in L1, L2, L3. destruct fprop_ok as (FP & _). unfold alone.
  destruct (FP l m (slice (m * o) (m * c) B) L1) as (l' & -> & F1 & F2); [rewrite slice_length by nia; rewrite L2; reflexivity|].
  rewrite (proj1 acts_ready _ _ _ F2), (proj1 fval_same _ _ F1). reflexivity.
Qed.

(** what is stored for one inner layer: its activations times the gate *)
Lemma fill_gated m inc Gt B k i o c l : length Gt = m * k -> i < k -> length B = m * inc -> lok inc (o, c, l) ->
  (forall r, r < m -> nth (m * i + r) Gt 0%R = 0%R \/ nth (m * i + r) Gt 0%R = 1%R) ->
  fill m (neurons l) (gcol m Gt i) (fval (nopen m Gt i) (seen m Gt B i o c) l) =
  table m (neurons l) (fun r j => (nth (m * i + r) Gt 0 * nth (m * j + r) (alone m B (o, c, l)) 0)%R).
Proof.
  intros HG Hi HB Hok Hb. apply table_eq; [apply fill_length|]. intros r j Hr Hj. rewrite fill_at by assumption.
  assert (Eg : nth r (gcol m Gt i) 0%R = nth (m * i + r) Gt 0%R) by (apply nth_slice; exact Hr). rewrite Eg.
  destruct (Hb r Hr) as [E|E]; rewrite E.
  - unfold rnz. destruct (Req_EM_T 0 0); [ring|congruence].
  - unfold rnz. destruct (Req_EM_T 1 0); [lra|].
    rewrite (alone_fval m inc) by assumption. destruct Hok as (L1 & L2 & L3). cbn [fst snd] in L1, L2, L3.
    assert (Hlen := gcol_length m Gt i k HG Hi).
    unfold nopen, seen. rewrite <- L2 at 1. rewrite (proj1 fval_rows l m).
    + destruct (place_nth (gcol m Gt i) r) as [P1 P2]; [lia|rewrite Eg, E; apply rnz_spec; lra|].
      rewrite extract_at by assumption. rewrite P2. rewrite <- L2 at 1. rewrite Rmult_1_l. f_equal; [lia|]. rewrite L2. reflexivity.
    + exact L1.
    + rewrite L2. apply slice_length. nia.
    + intros r' Hr'. apply open_rows_lt in Hr'. rewrite Hlen in Hr'. exact Hr'.
Qed.

Lemma gvals_gated m inc Gt B (gt : nat -> nat -> R) k : length Gt = m * k -> length B = m * inc ->
  (forall i r, i < k -> r < m -> nth (m * i + r) Gt 0%R = gt i r) -> (forall i r, i < k -> r < m -> gt i r = 0%R \/ gt i r = 1%R) ->
  forall ls i, Forall (lok inc) ls -> i + length ls = k ->
  gvals m Gt B i ls = flat_map (fun p => table m (neurons (snd (snd p))) (fun r c => (gt (fst p) r * nth (m * c + r) (alone m B (snd p)) 0)%R))
    (combine (seq i (length ls)) ls).
Proof.
  intros HG HB Hg Hb. induction ls as [|[[o c] l] ls IH]; intros i Hls Hi; [reflexivity|].
  inversion Hls as [|? ? Hok Hls']; subst. cbn [length seq combine flat_map gvals fst snd] in *. rewrite IH by (try assumption; lia).
  replace (i + 1) with (S i) by lia. f_equal.
  rewrite (fill_gated m inc Gt B (i + S (length ls))) by (try assumption; try lia; intros r Hr; rewrite Hg by (assumption || lia); apply Hb; (assumption || lia)).
  unfold table. apply map_ext_in. intros q Hq. apply in_seq in Hq. rewrite Hg; [reflexivity|lia|].
  apply Nat.mod_upper_bound. intros ->. lia.
Qed.

(** ** Structure is kept *)
Lemma lsame_neurons ls ls' : Forall2 lsame ls ls' -> lneurons ls' = lneurons ls.
Proof. induction 1 as [|q q' ls ls' [_ H] _ IH]; [reflexivity|]. cbn [lneurons fold_right]. fold (lneurons ls') (lneurons ls). rewrite IH, (proj1 same_neurons _ _ H). reflexivity. Qed.
Lemma lsame_count ls ls' : Forall2 lsame ls ls' -> lcount ls' = lcount ls.
Proof. induction 1 as [|q q' ls ls' [H _] _ IH]; [reflexivity|]. cbn [lcount fold_right]. fold (lcount ls') (lcount ls). rewrite IH, H. reflexivity. Qed.
Lemma lsame_length ls ls' : Forall2 lsame ls ls' -> length ls' = length ls.
Proof. induction 1; cbn; congruence. Qed.
Lemma lsame_ok inc ls ls' : Forall2 lsame ls ls' -> Forall (lok inc) ls -> Forall (lok inc) ls'.
Proof.
  induction 1 as [|q q' ls ls' [H1 H2] _ IH]; intros H; [constructor|]. inversion H as [|? ? (W1 & W2 & W3) H3]; subst. constructor; [|apply IH; assumption].
  split; [apply (proj1 same_wf _ _ H2); exact W1|]. rewrite (proj1 same_incoming _ _ H2), H1. split; assumption.
Qed.
Lemma lsame_cap M ls ls' : Forall2 lsame ls ls' ->
  fold_right (fun q n => Nat.max (max_dLdA M (snd q)) n) 0 ls' = fold_right (fun q n => Nat.max (max_dLdA M (snd q)) n) 0 ls /\
  fold_right (fun q n => Nat.max (incoming (snd q)) n) 0 ls' = fold_right (fun q n => Nat.max (incoming (snd q)) n) 0 ls.
Proof.
  induction 1 as [|q q' ls ls' [H1 H2] _ [I1 I2]]; [split; reflexivity|]. cbn [fold_right].
  rewrite I1, I2, (proj1 same_max _ _ H2), (proj1 same_incoming _ _ H2). split; reflexivity.
Qed.
Lemma lsame_inited M ls ls' : Forall2 lsame ls ls' -> Forall (fun q => inited M (snd q)) ls -> Forall (fun q => inited M (snd q)) ls'.
Proof.
  induction 1 as [|q q' ls ls' [_ H] _ IH]; intros HI; [constructor|]. inversion HI; subst. constructor; [|apply IH; assumption].
  apply (proj1 same_inited _ _ H). assumption.
Qed.
Lemma lsame_in ls ls' : Forall2 lsame ls ls' -> forall q, In q ls -> exists q', In q' ls' /\ fst q' = fst q.
Proof.
  induction 1 as [|q q' ls ls' [H _] _ IH]; intros p [] ; [subst p; exists q'; split; [left; reflexivity|exact H]|].
  destruct (IH p H0) as (p' & P1 & P2). exists p'. split; [right; exact P1|exact P2].
Qed.

(** ** The whole pack *)
Definition gates (m : nat) (B : list R) (x : gpack) : list R := table m (length (g_lay x)) (fun r i => gate m B x i r).
Lemma gates_length m B x : length (gates m B x) = m * length (g_lay x).
Proof. apply table_length. Qed.
Lemma gates_at m B x i r : i < length (g_lay x) -> r < m -> nth (m * i + r) (gates m B x) 0%R = gate m B x i r.
Proof. intros Hi Hr. unfold gates. rewrite (Nat.mul_comm m i). apply (table_at m _ (fun r i => gate m B x i r)); assumption. Qed.

Lemma nth_map0 (f : R -> R) l q : q < length l -> nth q (map f l) 0%R = f (nth q l 0%R).
Proof. intros H. rewrite (nth_indep _ 0%R (f 0%R)) by (rewrite map_length; exact H). apply map_nth. Qed.

Lemma pack_acts_length m B x M : g_wf x -> g_inited M x -> length B = m * g_inc x -> length (pack_acts m B x) = m * g_neurons x.
Proof.
  intros (W & _) _ HB. unfold pack_acts, g_neurons, gneurons. rewrite !app_length, table_length.
  assert (E : length (gated m B x) = m * lneurons (g_lay x)).
  { unfold gated. generalize 0 as s. generalize (gate m B x) as gt. intros gt. clear. induction (g_lay x) as [|q ls IH]; intros s; [cbn; lia|].
    cbn [length seq combine flat_map lneurons fold_right fst snd]. fold (lneurons ls). rewrite app_length, table_length. rewrite IH. lia. }
  rewrite E. destruct (g_add x); rewrite ?table_length; cbn [length]; lia.
Qed.

Lemma g_fprop_ok m M B x : g_wf x -> g_inited M x -> binary m B x -> length B = m * g_inc x -> m <= M ->
  exists x', g_fprop m (biased m B) x = Some x' /\ g_A x' = pack_acts m B x /\
    g_inc x' = g_inc x /\ g_gofs x' = g_gofs x /\ g_bin x' = g_bin x /\ g_add x' = g_add x /\ g_max x' = g_max x /\
    g_b1 x' = g_b1 x /\ g_b2 x' = g_b2 x /\ length (g_prev x') = length (g_prev x) /\
    Forall2 lsame (g_lay x) (g_lay x') /\ held m M (gates m B x) B 0 0 (g_lay x') (g_rows x') (g_prev x').
Proof.
  intros (W1 & W2 & W3 & W4) (I1 & I2 & I3 & I4 & I5 & I6) Hb HB HM. set (k := length (g_lay x)) in *.
  unfold g_fprop. fold k. rewrite biased_length, HB. replace (m * g_inc x + m) with (m * (g_inc x + 1)) by lia.
  rewrite Nat.eqb_refl, (proj2 (Nat.leb_le _ _) W2). cbn [andb guard obind].
  set (A0 := firstn (m * g_neurons x) (g_A x ++ repeat 0%R (m * g_neurons x))).
  assert (LA0 : length A0 = m * g_neurons x) by (unfold A0; rewrite firstn_length, app_length, repeat_length; lia).
  rewrite slice_biased by nia.
  set (src := slice (m * g_gofs x) (m * k) B). assert (Lsrc : length src = m * k) by (apply slice_length; nia).
  set (gt := match g_bin x with None => src | Some f => map (fun v => if gtb v f then 1%R else 0%R) src end).
  assert (Egt : gt = gates m B x).
  { apply table_eq; fold k.
    - unfold gt. destruct (g_bin x); rewrite ?map_length; exact Lsrc.
    - intros r i Hr Hi. assert (Hq : i * m + r < m * k) by (apply split_lt; assumption).
      assert (Es : nth (i * m + r) src 0%R = nth (m * (g_gofs x + i) + r) B 0%R) by (unfold src; rewrite nth_slice by exact Hq; f_equal; lia).
      unfold gt, gate, gate_of. destruct (g_bin x); [|exact Es].
      rewrite (nth_map0 (fun v => if gtb v r0 then 1%R else 0%R)) by (rewrite Lsrc; exact Hq). rewrite Es. unfold gtb. destruct (Rlt_dec r0 _); reflexivity. }
  clearbody gt. subst gt. assert (Lg : length (gates m B x) = m * k) by apply gates_length.
  assert (Hk : m * gneurons k (g_add x) + m * lneurons (g_lay x) = m * g_neurons x) by (unfold g_neurons; fold k; lia).
  assert (Hk2 : m * k <= m * gneurons k (g_add x)) by (unfold gneurons; destruct (g_add x); nia).
  rewrite store_ok by (rewrite Lg, LA0; lia). cbn [obind].
  set (A1 := overwrite 0 (gates m B x) A0). assert (LA1 : length A1 = m * g_neurons x) by (unfold A1; rewrite overwrite_length; rewrite ?Lg; lia).
  assert (EA1 : forall q, q < m * k -> nth q A1 0%R = nth q (gates m B x) 0%R).
  { intros q Hq. unfold A1. apply (nth_overwrite_in 0); lia. }
  set (compl := table m k (fun r i => (1 - gate m B x i r)%R)).
  assert (Ecompl : map (fun v => (1 - v)%R) (gates m B x) = compl).
  { apply table_eq; [rewrite map_length; exact Lg|]. intros r i Hr Hi. assert (Hq : i * m + r < m * k) by (apply split_lt; assumption).
    rewrite (nth_map0 (fun v => (1 - v)%R)) by (rewrite Lg; exact Hq). rewrite (Nat.mul_comm i m), gates_at by assumption. reflexivity. }
  rewrite Ecompl.
  assert (Hst : exists A2, (if g_add x then store (m * k) compl A1 else Some A1) = Some A2 /\ length A2 = m * g_neurons x /\
    (forall q, q < m * k -> nth q A2 0%R = nth q (gates m B x) 0%R) /\ (g_add x = true -> forall q, q < m * k -> nth (m * k + q) A2 0%R = nth q compl 0%R)).
  { destruct (g_add x) eqn:Ea.
    - unfold gneurons in Hk. assert (Lc : length compl = m * k) by apply table_length.
      rewrite store_ok by (rewrite Lc, LA1; nia). eexists. split; [reflexivity|]. split; [rewrite overwrite_length; rewrite ?Lc; nia|]. split.
      + intros q Hq. rewrite nth_overwrite_out by (rewrite ?Lc; nia). apply EA1. exact Hq.
      + intros _ q Hq. apply nth_overwrite_in; rewrite ?Lc; nia.
    - exists A1. split; [reflexivity|]. split; [exact LA1|]. split; [exact EA1|discriminate]. }
  destruct Hst as (A2 & -> & LA2 & EA2 & EC2). cbn [obind]. rewrite I2.
  assert (HO : Forall (lok (g_inc x)) (g_lay x)) by exact W1.
  destruct (gl_fprop_ok m M (g_inc x) (gates m B x) B k Lg HB HM (g_lay x) 0 (gneurons k (g_add x)) 0 A2 (g_prev x)) as
    (ls' & ns & A' & V' & -> & R1 & R2 & R3 & R4 & R5 & R6 & R7).
  - exact HO.
  - reflexivity.
  - exact Hk2.
  - rewrite LA2. lia.
  - exact EA2.
  - exact I3.
  - cbn [obind]. eexists. split; [reflexivity|]. cbn [g_A g_inc g_gofs g_bin g_add g_max g_b1 g_b2 g_prev g_lay g_rows].
    split; [|repeat split; assumption].
    assert (EG : gvals m (gates m B x) B 0 (g_lay x) = gated m B x).
    { unfold gated. fold k. rewrite (gvals_gated m (g_inc x) (gates m B x) B (gate m B x) k); [reflexivity|exact Lg|exact HB| |exact Hb|exact HO|reflexivity].
      intros i r Hi Hr. apply gates_at; assumption. }
    rewrite EG in R7.
    assert (LG : length (gated m B x) = m * lneurons (g_lay x)) by (rewrite <- R7; apply slice_length; rewrite R1, LA2; lia).
    unfold pack_acts. fold (gates m B x). fold k. fold compl.
    apply nth_ext0.
    + rewrite R1, LA2, !app_length, Lg, LG. unfold compl. unfold gneurons in Hk. destruct (g_add x); rewrite ?table_length; cbn [length]; lia.
    + rewrite R1, LA2. intros q Hq.
      destruct (Nat.lt_ge_cases q (m * k)) as [H|H]; [rewrite app_nth1 by lia; rewrite R3 by lia; apply EA2; exact H|].
      rewrite app_nth2 by lia. rewrite Lg.
      destruct (Nat.lt_ge_cases q (m * gneurons k (g_add x))) as [H'|H'].
      * unfold gneurons in H'. destruct (g_add x) eqn:Ea; [|lia]. rewrite R3 by (unfold gneurons; nia).
        assert (Lc : length compl = m * k) by apply table_length.
        rewrite app_nth1 by (rewrite Lc; lia). rewrite <- (EC2 eq_refl) by lia. f_equal. lia.
      * assert (Lc : length (if g_add x then compl else []) = m * gneurons k (g_add x) - m * k).
        { unfold compl, gneurons. destruct (g_add x); rewrite ?table_length; cbn [length]; lia. }
        rewrite app_nth2 by lia. rewrite Lc, <- R7. rewrite nth_slice by lia. f_equal. lia.
Qed.

Lemma g_fprop_kept M x x' : g_wf x -> g_inited M x -> length (g_prev x') = length (g_prev x) ->
  g_inc x' = g_inc x -> g_gofs x' = g_gofs x -> g_max x' = g_max x -> g_b1 x' = g_b1 x -> g_b2 x' = g_b2 x ->
  Forall2 lsame (g_lay x) (g_lay x') -> g_wf x' /\ g_inited M x'.
Proof.
  intros (W1 & W2 & W3 & W4) (I1 & I2 & I3 & I4 & I5 & I6) E1 E2 E3 E4 E5 E6 HS. split.
  - unfold g_wf. rewrite E2, E3, (lsame_length _ _ HS). split; [apply (lsame_ok _ _ _ HS W1)|]. split; [exact W2|]. split.
    + intros E. apply lsame_length in HS. rewrite E in HS. apply W3. destruct (g_lay x); [reflexivity|discriminate].
    + intros col Hc. destruct (W4 col Hc) as [H|(q & Q1 & Q2)]; [left; exact H|right]. destruct (lsame_in _ _ HS q Q1) as (q' & P1 & P2).
      exists q'. split; [exact P1|]. rewrite P2. exact Q2.
  - unfold g_inited, no_overlap, g_cap. destruct (lsame_cap M _ _ HS) as [C1 C2].
    rewrite E1, E2, E4, E5, E6, (lsame_length _ _ HS), (lsame_count _ _ HS), C1, C2.
    repeat split; try assumption. apply (lsame_inited M _ _ HS I6).
Qed.

Lemma pack_forward m M B x : g_wf x -> g_inited M x -> binary m B x -> length B = m * g_inc x -> m <= M ->
  exists x', g_fprop m (biased m B) x = Some x' /\ g_A x' = pack_acts m B x /\ g_wf x' /\ g_inited M x'.
Proof.
  intros W I Hb HB HM. destruct (g_fprop_ok m M B x W I Hb HB HM) as (x' & F & FA & E2 & E3 & _ & _ & E4 & E5 & E6 & E1 & HS & _).
  exists x'. split; [exact F|]. split; [exact FA|]. apply (g_fprop_kept M x x'); assumption.
Qed.
