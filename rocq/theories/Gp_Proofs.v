(** Rows by mask, and layers on some of the rows. *)
From Coq Require Import Reals Lra Bool.
From Coquelicot Require Import Coquelicot.
From Verif Require Import Base BaseLemmas Act_Model Act_Spec Act_Proofs Loss_Proofs Net_Model Net_Spec Net_Proofs Net_Proofs2 Net_Proofs3 Gp_Model Gp_Spec.
Local Open Scope nat_scope.

(** ** Extraction *)
Lemma extract_length m n rs V : length (extract m n rs V) = length rs * n.
Proof. unfold extract. rewrite map_length, seq_length. reflexivity. Qed.
Lemma extract_at m n rs V j i : i < length rs -> j < n -> nth (j * length rs + i) (extract m n rs V) 0%R = nth (j * m + nth i rs 0) V 0%R.
Proof.
  intros Hi Hj. unfold extract. rewrite nth_map_seq by (apply split_lt; assumption). destruct (dm _ _ j Hi) as [-> ->]. reflexivity.
Qed.
Lemma extract_ext m n rs V V' : (forall r, In r rs -> r < m) -> (forall q, q < m * n -> nth q V 0%R = nth q V' 0%R) -> extract m n rs V = extract m n rs V'.
Proof.
  intros Hr H. unfold extract. apply map_ext_in. intros q Hq. apply in_seq in Hq.
  assert (Hl : length rs <> 0) by (intros E; rewrite E in Hq; lia).
  assert (Hm : nth (q mod length rs) rs 0 < m) by (apply Hr, nth_In, Nat.mod_upper_bound; exact Hl).
  assert (Hj : q / length rs < n) by (apply Nat.div_lt_upper_bound; lia). apply H. nia.
Qed.
Lemma extract_slice m n rs V o c : (forall r, In r rs -> r < m) -> o + c <= n -> m * n <= length V ->
  extract m c rs (slice (m * o) (m * c) V) = slice (length rs * o) (length rs * c) (extract m n rs V).
Proof.
  intros Hr H HV. apply nth_ext0.
  - rewrite extract_length, slice_length; [reflexivity|]. rewrite extract_length. nia.
  - rewrite extract_length. intros q Hq. rewrite nth_slice by exact Hq.
    assert (Hl : length rs <> 0) by (intros E; rewrite E in Hq; lia).
    assert (Hi : q mod length rs < length rs) by (apply Nat.mod_upper_bound; exact Hl).
    assert (Hj : q / length rs < c) by (apply Nat.div_lt_upper_bound; lia).
    assert (Hm : nth (q mod length rs) rs 0 < m) by (apply Hr, nth_In; exact Hi).
    assert (Eq : q = q / length rs * length rs + q mod length rs) by (rewrite (Nat.mul_comm (q / length rs)); apply Nat.div_mod; exact Hl).
    rewrite Eq at 1. rewrite extract_at by assumption. rewrite nth_slice by nia.
    replace (length rs * o + q) with ((o + q / length rs) * length rs + q mod length rs) by lia.
    rewrite extract_at by lia. f_equal. lia.
Qed.
Lemma extract_biased m n rs B : (forall r, In r rs -> r < m) -> length B = m * n -> extract m n rs (biased m B) = extract m n rs B.
Proof. intros Hr HB. apply extract_ext; [exact Hr|]. intros q Hq. apply nth_biased. lia. Qed.

(** rows of the tall matrix of a tiled layer *)
Definition tall_rows (m k : nat) (rs : list nat) : list nat := flat_map (fun t => map (fun r => t * m + r) rs) (seq 0 k).
Lemma tall_rows_length m k rs : length (tall_rows m k rs) = k * length rs.
Proof.
  unfold tall_rows. generalize 0 as s. induction k as [|k IH]; intros s; [reflexivity|]. cbn [seq flat_map]. rewrite app_length, map_length, IH. reflexivity.
Qed.
Lemma tall_rows_nth m k rs t i : t < k -> i < length rs -> nth (t * length rs + i) (tall_rows m k rs) 0 = t * m + nth i rs 0.
Proof.
  intros Ht Hi. unfold tall_rows.
  assert (G : forall s, nth (t * length rs + i) (flat_map (fun t => map (fun r => t * m + r) rs) (seq s k)) 0 = (s + t) * m + nth i rs 0).
  { revert t Ht. induction k as [|k IH]; intros t Ht s; [lia|]. cbn [seq flat_map]. destruct t as [|t].
    - cbn [Nat.mul Nat.add]. rewrite app_nth1 by (rewrite map_length; exact Hi). rewrite (nth_indep _ 0 (s * m + 0)) by (rewrite map_length; exact Hi).
      rewrite (map_nth (fun r => s * m + r)). f_equal. lia.
    - rewrite app_nth2 by (rewrite map_length; lia). rewrite map_length. replace (S t * length rs + i - length rs) with (t * length rs + i) by lia.
      rewrite IH by lia. f_equal. lia. }
  rewrite G. reflexivity.
Qed.
Lemma tall_rows_lt m k rs : (forall r, In r rs -> r < m) -> forall r, In r (tall_rows m k rs) -> r < k * m.
Proof.
  intros H r Hr. apply in_flat_map in Hr. destruct Hr as (t & Ht & Hr). apply in_seq in Ht. apply in_map_iff in Hr. destruct Hr as (r0 & <- & Hr).
  specialize (H r0 Hr). nia.
Qed.

Lemma roll_rows m n k rs B : (forall r, In r rs -> r < m) ->
  roll (length rs) n k (extract m (k * n) rs B) = extract (k * m) n (tall_rows m k rs) (roll m n k B).
Proof.
  intros Hr. apply nth_ext0; [rewrite roll_length, extract_length, tall_rows_length; reflexivity|].
  rewrite roll_length. intros q Hq. rewrite nth_roll by exact Hq. destruct (tall_split _ _ _ _ Hq) as (t & j & i & Ht & Hj & Hi & ->).
  assert (Hm : nth i rs 0 < m) by (apply Hr, nth_In; exact Hi).
  rewrite ridx_at by lia. rewrite extract_at by nia.
  replace (j * (k * length rs) + (t * length rs + i)) with (j * length (tall_rows m k rs) + (t * length rs + i)) by (rewrite tall_rows_length; reflexivity).
  rewrite extract_at; [|rewrite tall_rows_length; nia|exact Hj]. rewrite tall_rows_nth by assumption.
  rewrite nth_roll by (apply tall_lt; assumption). rewrite ridx_at by lia. reflexivity.
Qed.
Lemma unroll_rows m n k rs B : (forall r, In r rs -> r < m) ->
  unroll (length rs) n k (extract (k * m) n (tall_rows m k rs) B) = extract m (k * n) rs (unroll m n k B).
Proof.
  intros Hr. apply nth_ext0; [rewrite unroll_length, extract_length; reflexivity|].
  rewrite unroll_length. intros q Hq. rewrite nth_unroll by exact Hq. destruct (wide_split _ _ _ _ Hq) as (t & j & i & Ht & Hj & Hi & ->).
  assert (Hm : nth i rs 0 < m) by (apply Hr, nth_In; exact Hi).
  rewrite uidx_at by assumption. rewrite extract_at by nia.
  replace (j * (k * length rs) + (t * length rs + i)) with (j * length (tall_rows m k rs) + (t * length rs + i)) by (rewrite tall_rows_length; reflexivity).
  rewrite extract_at; [|rewrite tall_rows_length; nia|exact Hj]. rewrite tall_rows_nth by assumption.
  rewrite nth_unroll by (apply wide_lt; assumption). rewrite uidx_at by assumption. reflexivity.
Qed.

(** ** Layers treat the rows of a batch independently *)
Lemma fval_rows :
  (forall l m B rs, wf l -> length B = m * incoming l -> (forall r, In r rs -> r < m) ->
     fval (length rs) (extract m (incoming l) rs B) l = extract m (neurons l) rs (fval m B l)) /\
  (forall s m B rs, swf s -> length B = m * sincoming s -> (forall r, In r rs -> r < m) ->
     sval (length rs) (extract m (sincoming s) rs B) s = extract m (sneurons s) rs (sval m B s)) /\
  (forall h m B rs inc, hwf inc h -> length B = m * inc -> (forall r, In r rs -> r < m) ->
     hval (length rs) (extract m inc rs B) h = extract m (hneurons h) rs (hval m B h)).
Proof.
  destruct fval_length as (L1 & L2 & L3). apply layers_ind.
  - intros id a inc n W G A m B rs (W1 & W2 & W3 & W4) HB Hr. cbn [incoming neurons fval] in *.
    apply nth_ext0; [rewrite map_length, gemm_length, extract_length; reflexivity|]. rewrite map_length, gemm_length. intros q Hq.
    assert (Hl : length rs <> 0) by (intros E; rewrite E in Hq; lia).
    assert (Hi : q mod length rs < length rs) by (apply Nat.mod_upper_bound; exact Hl).
    assert (Hj : q / length rs < n) by (apply Nat.div_lt_upper_bound; lia).
    assert (Eq : q = q / length rs * length rs + q mod length rs) by (rewrite (Nat.mul_comm (q / length rs)); apply Nat.div_mod; exact Hl).
    set (i := q mod length rs) in *. set (j := q / length rs) in *. clearbody i j. subst q.
    assert (Hm : nth i rs 0 < m) by (apply Hr, nth_In; exact Hi).
    rewrite (nth_indep _ 0%R (act_f a 0%R)) by (rewrite map_length, gemm_length; exact Hq). rewrite map_nth.
    rewrite extract_at by assumption.
    rewrite (nth_indep (map _ _) 0%R (act_f a 0%R)) by (rewrite map_length, gemm_length; apply split_lt; assumption). rewrite map_nth. f_equal.
    rewrite !gemm_nth by assumption. f_equal. apply bs_ext. intros k Hk. f_equal.
    assert (LE : length (extract m inc rs B) = length rs * inc) by apply extract_length.
    destruct (Nat.eq_dec k inc) as [->|Hn].
    + rewrite !nth_bias; [reflexivity|..]; rewrite ?LE, ?HB; nia.
    + rewrite !nth_biased by (rewrite ?LE, ?HB; nia). rewrite Nat.add_comm. rewrite extract_at by lia. f_equal. lia.
  - intros n A m B rs _ _ _. reflexivity.
  - intros s IH m B rs Hw HB Hr. cbn [incoming fval wf] in *. rewrite IH by assumption. destruct s; reflexivity.
  - intros inc h IH b1 b2 m B rs [_ Hw] HB Hr. cbn [incoming neurons fval] in *. apply IH; assumption.
  - intros k l IH inn A m B rs [Hk Hw] HB Hr. cbn [incoming neurons fval] in *.
    rewrite roll_rows by exact Hr. rewrite <- (tall_rows_length m).
    rewrite IH; [|exact Hw|apply roll_length|apply tall_rows_lt; exact Hr].
    rewrite <- unroll_rows by exact Hr. reflexivity.
  - intros l IH m B rs Hw HB Hr. cbn. apply IH; assumption.
  - intros l IH b IHb m B rs (W1 & W2 & W3) HB Hr. cbn [sincoming sneurons sval] in *. rewrite IHb by assumption.
    rewrite <- W3. apply IH; [exact W1|rewrite L2 by assumption; rewrite W3; reflexivity|exact Hr].
  - intros m B rs inc _ _ _. cbn [hval hneurons]. unfold extract. rewrite Nat.mul_0_r. reflexivity.
  - intros o c l IH h IHh m B rs inc (W1 & W2 & W3 & W4) HB Hr. cbn [hval hneurons].
    rewrite (IHh m B rs inc) by assumption. rewrite <- (extract_slice m inc rs B o c) by (try assumption; lia).
    assert (LS : length (slice (m * o) (m * c) B) = m * incoming l) by (rewrite W2; apply slice_length; rewrite HB; nia).
    rewrite <- W2 at 1. rewrite IH by (try assumption; rewrite W2 in *; assumption).
    assert (LF : length (fval m (slice (m * o) (m * c) B) l) = m * neurons l) by (apply L1; assumption).
    apply nth_ext0; [rewrite app_length, !extract_length; lia|]. rewrite app_length, !extract_length. intros q Hq.
    assert (Hl : length rs <> 0) by (intros E; rewrite E in Hq; lia).
    assert (Hi : q mod length rs < length rs) by (apply Nat.mod_upper_bound; exact Hl).
    assert (Hj : q / length rs < neurons l + hneurons h) by (apply Nat.div_lt_upper_bound; lia).
    assert (Eq : q = q / length rs * length rs + q mod length rs) by (rewrite (Nat.mul_comm (q / length rs)); apply Nat.div_mod; exact Hl).
    set (i := q mod length rs) in *. set (j := q / length rs) in *. clearbody i j. subst q.
    assert (Hm : nth i rs 0 < m) by (apply Hr, nth_In; exact Hi).
    rewrite extract_at by assumption. destruct (Nat.lt_ge_cases j (neurons l)) as [H|H].
    + rewrite app_nth1 by (rewrite extract_length; nia). rewrite extract_at by assumption. rewrite app_nth1 by (rewrite LF; nia). reflexivity.
    + rewrite app_nth2 by (rewrite extract_length; nia). rewrite extract_length.
      replace (j * length rs + i - length rs * neurons l) with ((j - neurons l) * length rs + i) by nia. rewrite extract_at by lia.
      rewrite app_nth2 by (rewrite LF; nia). rewrite LF. f_equal. nia.
Qed.

(** ** The open rows *)
Lemma open_rows_app g v : open_rows (g ++ [v]) = open_rows g ++ (if rnz v then [length g] else []).
Proof.
  unfold open_rows. rewrite app_length. cbn [length]. rewrite seq_app, filter_app. cbn [seq filter Nat.add]. f_equal.
  - apply filter_ext_in. intros r Hr. apply in_seq in Hr. rewrite app_nth1 by lia. reflexivity.
  - rewrite app_nth2, Nat.sub_diag by lia. reflexivity.
Qed.
Lemma open_rows_lt g r : In r (open_rows g) -> r < length g.
Proof. unfold open_rows. intros H. apply filter_In in H. destruct H as [H _]. apply in_seq in H. lia. Qed.
Lemma open_rows_le g : length (open_rows g) <= length g.
Proof.
  induction g as [|v g IH] using rev_ind; [reflexivity|]. rewrite open_rows_app, !app_length. cbn [length]. destruct (rnz v); cbn [length]; lia.
Qed.
Lemma place_app g v r : r < length g -> place (g ++ [v]) r = place g r.
Proof. intros H. unfold place. rewrite firstn_app. replace (r - length g) with 0 by lia. rewrite app_nil_r. reflexivity. Qed.
Lemma place_end g v : place (g ++ [v]) (length g) = length (open_rows g).
Proof. unfold place. rewrite firstn_app, firstn_all, Nat.sub_diag, app_nil_r. reflexivity. Qed.
Lemma place_nth g r : r < length g -> rnz (nth r g 0%R) = true -> place g r < length (open_rows g) /\ nth (place g r) (open_rows g) 0 = r.
Proof.
  induction g as [|v g IH] using rev_ind; [cbn; lia|]. rewrite app_length. cbn [length]. intros Hr Hv. rewrite open_rows_app.
  destruct (Nat.lt_ge_cases r (length g)) as [H|H].
  - rewrite app_nth1 in Hv by exact H. rewrite place_app by exact H. destruct (IH H Hv) as [I1 I2]. rewrite app_length. split; [lia|]. rewrite app_nth1 by exact I1. exact I2.
  - assert (r = length g) by lia. subst r. rewrite app_nth2, Nat.sub_diag in Hv by lia. cbn [nth] in Hv. rewrite Hv, place_end, app_length. cbn [length]. split; [lia|].
    rewrite app_nth2, Nat.sub_diag by lia. reflexivity.
Qed.
Lemma sum_open g (F : nat -> nat -> R) :
  bs (length g) (fun r => if rnz (nth r g 0%R) then F r (place g r) else 0%R) = bs (length (open_rows g)) (fun j => F (nth j (open_rows g) 0) j).
Proof.
  induction g as [|v g IH] using rev_ind; [reflexivity|]. rewrite app_length, open_rows_app. cbn [length]. rewrite Nat.add_1_r. cbn [bs].
  rewrite app_nth2, Nat.sub_diag by lia. cbn [nth]. rewrite place_end.
  rewrite (bs_ext (length g) _ (fun r => if rnz (nth r g 0%R) then F r (place g r) else 0%R)).
  2: { intros r Hr. rewrite app_nth1, place_app by exact Hr. reflexivity. }
  rewrite IH. destruct (rnz v).
  - rewrite app_length. cbn [length]. rewrite Nat.add_1_r. cbn [bs]. rewrite app_nth2, Nat.sub_diag by lia. cbn [nth]. f_equal.
    apply bs_ext. intros j Hj. rewrite app_nth1 by exact Hj. reflexivity.
  - rewrite app_nil_r. ring.
Qed.

Lemma fill_length m n g V : length (fill m n g V) = m * n.
Proof. unfold fill. rewrite map_length, seq_length. reflexivity. Qed.
Lemma fill_at m n g V j r : r < m -> j < n ->
  nth (j * m + r) (fill m n g V) 0%R = if rnz (nth r g 0%R) then nth (j * length (open_rows g) + place g r) V 0%R else 0%R.
Proof. intros Hr Hj. unfold fill. rewrite nth_map_seq by (apply split_lt; assumption). destruct (dm _ _ j Hr) as [-> ->]. reflexivity. Qed.

(** filling is the adjoint of extracting *)
Lemma fill_sum m n g (D : list R) (h : nat -> R) : length g = m ->
  bs (m * n) (fun q => nth q D 0 * (if rnz (nth (q mod m) g 0%R) then h (q / m * length (open_rows g) + place g (q mod m))%nat else 0))%R =
  bs (length (open_rows g) * n) (fun q => nth q (extract m n (open_rows g) D) 0 * h q)%R.
Proof.
  intros Hg. rewrite !bs_dbl. apply bs_ext. intros j Hj.
  rewrite (bs_ext m _ (fun r => if rnz (nth r g 0%R) then nth (j * m + r) D 0 * h (j * length (open_rows g) + place g r)%nat else 0)%R).
  2: { intros r Hr. destruct (dm _ _ j Hr) as [-> ->]. destruct (rnz (nth r g 0%R)); ring. }
  rewrite <- Hg at 1. rewrite (sum_open g (fun r p => nth (j * m + r) D 0 * h (j * length (open_rows g) + p)%nat)%R).
  apply bs_ext. intros i Hi. rewrite extract_at by assumption. reflexivity.
Qed.
Lemma fill_sum' m n g (V : list R) (dB : nat -> R) : length g = m ->
  bs (m * n) (fun q => nth q (fill m n g V) 0 * dB q)%R =
  bs (length (open_rows g) * n) (fun q => nth q V 0 * dB (q / length (open_rows g) * m + nth (q mod length (open_rows g)) (open_rows g) 0)%nat)%R.
Proof.
  intros Hg. rewrite !bs_dbl. apply bs_ext. intros j Hj.
  rewrite (bs_ext m _ (fun r => if rnz (nth r g 0%R) then nth (j * length (open_rows g) + place g r) V 0 * dB (j * m + r)%nat else 0)%R).
  2: { intros r Hr. rewrite fill_at by assumption. destruct (rnz (nth r g 0%R)); ring. }
  rewrite <- Hg at 1. rewrite (sum_open g (fun r p => nth (j * length (open_rows g) + p) V 0 * dB (j * m + r)%nat)%R).
  apply bs_ext. intros i Hi. destruct (dm _ _ j Hi) as [-> ->]. reflexivity.
Qed.
