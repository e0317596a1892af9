(** Forward propagation through a gated pack. *)
From Coq Require Import Reals Lra Bool.
From Coquelicot Require Import Coquelicot.
From Verif Require Import Base BaseLemmas Act_Model Act_Spec Act_Proofs Loss_Proofs Net_Model Net_Spec Net_Proofs Net_Proofs2 Net_Proofs3 Net_Proofs4 Gp_Model Gp_Spec Gp_Proofs.
Local Open Scope nat_scope.

Lemma store_ok i (w s : list R) : i + length w <= length s -> store i w s = Some (overwrite i w s).
Proof. intros H. unfold store. rewrite (proj2 (Nat.leb_le _ _) H). reflexivity. Qed.
Lemma guard_le a b : a <= b -> guard (a <=? b) = Some tt.
Proof. intros H. rewrite (proj2 (Nat.leb_le _ _) H). reflexivity. Qed.
Lemma guard_eq a b : a = b -> guard (a =? b) = Some tt.
Proof. intros H. rewrite (proj2 (Nat.eqb_eq _ _) H). reflexivity. Qed.

(** outside of what is written nothing changes *)
Lemma slice_ext i n (a b : list R) : i + n <= length a -> i + n <= length b -> (forall q, i <= q < i + n -> nth q a 0%R = nth q b 0%R) -> slice i n a = slice i n b.
Proof.
  intros Ha Hb H. apply nth_ext0; rewrite !slice_length by assumption; [reflexivity|]. intros q Hq. rewrite !nth_slice by exact Hq. apply H. lia.
Qed.
Lemma nth_overwrite_out i (w l : list R) q : i + length w <= length l -> q < i \/ i + length w <= q -> nth q (overwrite i w l) 0%R = nth q l 0%R.
Proof.
  intros H Hq. rewrite nth_overwrite by exact H. destruct (Nat.leb_spec i q); [|reflexivity]. destruct (Nat.ltb_spec q (i + length w)); [lia|reflexivity].
Qed.
Lemma nth_overwrite_in i (w l : list R) q : i + length w <= length l -> q < length w -> nth (i + q) (overwrite i w l) 0%R = nth q w 0%R.
Proof.
  intros H Hq. rewrite nth_overwrite by exact H. rewrite (proj2 (Nat.leb_le _ _)) by lia. rewrite (proj2 (Nat.ltb_lt _ _)) by lia. cbn [andb]. f_equal. lia.
Qed.
Lemma slice_overwrite i (w l : list R) : i + length w <= length l -> slice i (length w) (overwrite i w l) = w.
Proof.
  intros H. apply nth_ext0; rewrite slice_length by (rewrite overwrite_length; assumption); [reflexivity|]. intros q Hq. rewrite nth_slice by exact Hq.
  apply nth_overwrite_in; assumption.
Qed.
Lemma slice_overwrite' i n (w l : list R) : length w = n -> i + n <= length l -> slice i n (overwrite i w l) = w.
Proof. intros <- H. apply slice_overwrite. exact H. Qed.
Lemma overwrite_back i (w l : list R) : i + length w <= length l -> overwrite i (slice i (length w) l) (overwrite i w l) = l.
Proof.
  intros H. assert (LS : length (slice i (length w) l) = length w) by (apply slice_length; exact H).
  assert (LO : length (overwrite i w l) = length l) by (apply overwrite_length; exact H).
  apply nth_ext0; [rewrite overwrite_length; rewrite ?LS, LO; [reflexivity|exact H]|].
  intros q Hq. rewrite nth_overwrite by (rewrite LS, LO; exact H). rewrite LS.
  destruct (Nat.leb_spec i q); cbn [andb]; [|apply nth_overwrite_out; [exact H|lia]].
  destruct (Nat.ltb_spec q (i + length w)); [|apply nth_overwrite_out; [exact H|lia]]. rewrite nth_slice by lia. f_equal. lia.
Qed.

Lemma same_refl : (forall l, same l l) /\ (forall s, ssame s s) /\ (forall h, hsame h h).
Proof. apply layers_ind; intros; cbn; repeat split; auto. Qed.

Section Pass.
Context (m M inc : nat) (Gt B : list R).

(** the gate and the samples of one layer *)
Definition gcol (i : nat) : list R := slice (m * i) m Gt.
Definition seen (i o c : nat) : list R := extract m c (open_rows (gcol i)) (slice (m * o) (m * c) B).
Definition nopen (i : nat) : nat := length (open_rows (gcol i)).

Fixpoint gvals (i : nat) (ls : list glay) : list R :=
  match ls with
  | [] => []
  | (o, c, l) :: ls => fill m (neurons l) (gcol i) (fval (nopen i) (seen i o c) l) ++ gvals (i + 1) ls
  end.

Fixpoint held (i base : nat) (ls : list glay) (ns : list nat) (V : list R) : Prop :=
  match ls, ns with
  | (o, c, l) :: ls, n :: ns => n = nopen i /\
      (0 < n -> slice base (n * c) V = seen i o c /\ (n * (c + 1) <= M * c -> slice (base + n * c) n V = repeat 1%R n) /\ ready n (seen i o c) l) /\
      held (i + 1) (base + M * c) ls ns V
  | [], [] => True
  | _, _ => False
  end.

Definition lok (q : glay) : Prop := wf (snd q) /\ incoming (snd q) = snd (fst q) /\ fst (fst q) + snd (fst q) <= inc.
Definition lsame (q q' : glay) : Prop := fst q' = fst q /\ same (snd q) (snd q').

Lemma gcol_length i k : length Gt = m * k -> i < k -> length (gcol i) = m.
Proof. intros H Hi. apply slice_length. nia. Qed.
Lemma nopen_le i k : length Gt = m * k -> i < k -> nopen i <= m.
Proof. intros H Hi. unfold nopen. pose proof (open_rows_le (gcol i)) as L. rewrite (gcol_length i k H Hi) in L. exact L. Qed.
Lemma seen_length i o c : length (seen i o c) = nopen i * c.
Proof. apply extract_length. Qed.
Lemma fill_closed n i k V : length Gt = m * k -> i < k -> nopen i = 0 -> fill m n (gcol i) V = repeat 0%R (m * n).
Proof.
  intros H Hi H0. assert (HG := gcol_length i k H Hi). unfold fill. transitivity (map (fun _ => 0%R) (seq 0 (m * n))).
  - apply map_ext_in. intros q Hq. apply in_seq in Hq. destruct (rnz (nth (q mod m) (gcol i) 0%R)) eqn:E; [|reflexivity].
    assert (Hm : q mod m < m) by (apply Nat.mod_upper_bound; lia).
    destruct (place_nth (gcol i) (q mod m)) as [P _]; [lia|exact E|]. unfold nopen in H0. lia.
  - generalize 0 as s. induction (m * n) as [|u IH]; intros s; [reflexivity|]. cbn [seq map repeat]. f_equal. apply IH.
Qed.

Lemma gl_fprop_ok k : length Gt = m * k -> length B = m * inc -> m <= M ->
  forall ls i ofs base A V, Forall lok ls -> i + length ls = k -> m * k <= m * ofs -> length A = m * (ofs + lneurons ls) ->
    (forall q, q < m * k -> nth q A 0%R = nth q Gt 0%R) -> length V = base + M * (lcount ls + 1) ->
  exists ls' ns A' V', gl_fprop m M inc (biased m B) i ofs base ls A V = Some (ls', ns, A', V') /\
    length A' = length A /\ length V' = length V /\ (forall q, q < m * ofs -> nth q A' 0%R = nth q A 0%R) /\
    (forall q, q < base -> nth q V' 0%R = nth q V 0%R) /\ Forall2 lsame ls ls' /\ held i base ls' ns V' /\
    slice (m * ofs) (m * lneurons ls) A' = gvals i ls.
Proof.
  intros HG HB HM. destruct fprop_ok as (FP & _). destruct fval_length as (FL & _). destruct acts_ready as (AR & _). destruct fval_same as (FS & _).
  destruct same_neurons as (SN & _).
  induction ls as [|[[o c] l] ls IH]; intros i ofs base A V Hls Hi Ho HA HAg HV.
  - exists [], [], A, V. cbn [gl_fprop held gvals lneurons fold_right]. rewrite Nat.mul_0_r. repeat split; constructor.
  - cbn [lneurons lcount fold_right snd fst length] in *. fold (lneurons ls) in *. fold (lcount ls) in *.
    inversion Hls as [|? ? (L1 & L2 & L3) Hls']; subst. cbn [fst snd] in L1, L2, L3.
    assert (Eg : slice (m * i) m A = gcol i) by (apply slice_ext; [nia|nia|intros q Hq; apply HAg; nia]).
    cbn [gl_fprop]. rewrite Eg. fold (nopen i).
    assert (Hn := nopen_le i _ HG ltac:(lia)). rewrite guard_le by lia. cbn [obind].
    assert (Hrows : forall r, In r (open_rows (gcol i)) -> r < m)
      by (intros r Hr; apply open_rows_lt in Hr; rewrite (gcol_length i _ HG) in Hr by lia; exact Hr).
    assert (Hstep : exists l' A1 V1, (if 0 <? nopen i then
                 do _ <- guard (o + c <=? inc);
                 do V <- store base (extract m c (open_rows (gcol i)) (slice (m * o) (m * c) (biased m B))) V;
                 do V <- store (base + nopen i * c) (repeat 1%R (nopen i)) V;
                 do l' <- fprop (nopen i) (slice base (nopen i * (c + 1)) V) l;
                 do A <- store (m * ofs) (fill m (neurons l) (gcol i) (acts l')) A;
                 Some (l', A, V)
               else
                 do A <- store (m * ofs) (repeat 0%R (m * neurons l)) A;
                 Some (l, A, V)) = Some (l', A1, V1) /\ same l l' /\ length A1 = length A /\ length V1 = length V /\
        (forall q, q < m * ofs -> nth q A1 0%R = nth q A 0%R) /\ (forall q, q < base -> nth q V1 0%R = nth q V 0%R) /\
        slice (m * ofs) (m * neurons l) A1 = fill m (neurons l) (gcol i) (fval (nopen i) (seen i o c) l) /\
        (0 < nopen i -> slice base (nopen i * c) V1 = seen i o c /\ slice (base + nopen i * c) (nopen i) V1 = repeat 1%R (nopen i) /\ ready (nopen i) (seen i o c) l')).
    { destruct (Nat.ltb_spec 0 (nopen i)) as [Hp|Hp].
      - rewrite guard_le by exact L3. cbn [obind].
        rewrite slice_biased by nia. fold (seen i o c).
        assert (LS := seen_length i o c). rewrite store_ok by (rewrite LS; nia). cbn [obind].
        set (V1 := overwrite base (seen i o c) V). assert (LV1 : length V1 = length V) by (apply overwrite_length; rewrite LS; nia).
        rewrite store_ok by (rewrite repeat_length, LV1; nia). cbn [obind].
        set (V2 := overwrite (base + nopen i * c) (repeat 1%R (nopen i)) V1).
        assert (LV2 : length V2 = length V) by (unfold V2; rewrite overwrite_length, LV1; [reflexivity|rewrite repeat_length, LV1; nia]).
        assert (EV : slice base (nopen i * c) V2 = seen i o c).
        { rewrite <- LS. rewrite <- (slice_overwrite base (seen i o c) V) at 2 by (rewrite LS; nia). fold V1.
          apply slice_ext; [nia|nia|]. intros q Hq. apply nth_overwrite_out; [rewrite repeat_length, LV1; nia|lia]. }
        assert (E1 : slice (base + nopen i * c) (nopen i) V2 = repeat 1%R (nopen i)).
        { rewrite <- (slice_overwrite (base + nopen i * c) (repeat 1%R (nopen i)) V1) by (rewrite repeat_length, LV1; nia). rewrite repeat_length. reflexivity. }
        assert (EB : slice base (nopen i * (c + 1)) V2 = biased (nopen i) (seen i o c)).
        { unfold biased. rewrite <- EV, <- E1. apply nth_ext0; [rewrite app_length, !slice_length by nia; nia|].
          intros q Hq. rewrite slice_length in Hq by nia. rewrite nth_slice by exact Hq.
          destruct (Nat.lt_ge_cases q (nopen i * c)) as [H|H].
          - rewrite app_nth1 by (rewrite slice_length by nia; exact H). rewrite nth_slice by exact H. reflexivity.
          - rewrite app_nth2 by (rewrite slice_length by nia; exact H). rewrite slice_length by nia. rewrite nth_slice by nia. f_equal. lia. }
        rewrite EB. destruct (FP l (nopen i) (seen i o c) L1) as (l' & F1 & F2 & F3); [rewrite LS, L2; reflexivity|].
        rewrite F1. cbn [obind]. rewrite store_ok by (rewrite fill_length; nia). cbn [obind].
        eexists _, _, _. split; [reflexivity|]. split; [exact F2|]. split; [apply overwrite_length; rewrite fill_length; nia|]. split; [exact LV2|].
        split; [intros q Hq; apply nth_overwrite_out; [rewrite fill_length; nia|lia]|].
        split; [intros q Hq; unfold V2; rewrite nth_overwrite_out; [|rewrite repeat_length, LV1; nia|lia]; apply nth_overwrite_out; [rewrite LS; nia|lia]|].
        split; [|intros _; auto]. rewrite (AR _ _ _ F3), (FS _ _ F2).
        apply slice_overwrite'; [apply fill_length|nia].
      - rewrite store_ok by (rewrite repeat_length; nia). cbn [obind].
        eexists _, _, _. split; [reflexivity|]. split; [apply (proj1 same_refl)|]. split; [apply overwrite_length; rewrite repeat_length; nia|]. split; [reflexivity|].
        split; [intros q Hq; apply nth_overwrite_out; [rewrite repeat_length; nia|lia]|]. split; [reflexivity|].
        split; [|lia]. rewrite (fill_closed _ i _ _ HG) by lia.
        apply slice_overwrite'; [apply repeat_length|nia]. }
    destruct Hstep as (l' & A1 & V1 & -> & T1 & T2 & T3 & T4 & T5 & T6 & T7). cbn [obind].
    destruct (IH (i + 1) (ofs + neurons l) (base + M * c) A1 V1) as (ls' & ns & A' & V' & -> & I1 & I2 & I3 & I4 & I5 & I6 & I7).
    + exact Hls'.
    + lia.
    + nia.
    + rewrite T2, HA. f_equal. lia.
    + intros q Hq. rewrite T4 by nia. apply HAg. exact Hq.
    + rewrite T3, HV. lia.
    + cbn [obind]. exists ((o, c, l') :: ls'), (nopen i :: ns), A', V'. split; [reflexivity|]. split; [congruence|]. split; [congruence|].
      split; [intros q Hq; rewrite I3 by nia; apply T4; exact Hq|]. split; [intros q Hq; rewrite I4 by lia; apply T5; exact Hq|].
      split; [constructor; [split; [reflexivity|exact T1]|exact I5]|]. split.
      * cbn [held]. split; [reflexivity|]. split; [|exact I6]. intros Hp. destruct (T7 Hp) as (H1 & H2 & H3). split; [|split; [|exact H3]].
        -- rewrite <- H1. apply slice_ext; [nia|nia|]. intros q Hq. apply I4. nia.
        -- intros Hle. rewrite <- H2. apply slice_ext; [nia|nia|]. intros q Hq. apply I4. nia.
      * cbn [gvals]. rewrite <- I7, <- T6. apply nth_ext0; [rewrite app_length, !slice_length by nia; nia|].
        intros q Hq. rewrite slice_length in Hq by nia. rewrite nth_slice by exact Hq.
        destruct (Nat.lt_ge_cases q (m * neurons l)) as [H|H].
        -- rewrite app_nth1 by (rewrite slice_length by nia; exact H). rewrite nth_slice by exact H. apply I3. nia.
        -- rewrite app_nth2 by (rewrite slice_length by nia; exact H). rewrite slice_length by nia. rewrite nth_slice by nia. f_equal. nia.
Qed.
End Pass.
