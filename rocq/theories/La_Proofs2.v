(** The kernels used by the penalties. *)
From Coq Require Import Reals Lra Bool.
From Verif Require Import Base BaseLemmas Workers_Model Kern_Model Kern_Spec Kern_Proofs Ew_Model Ew_Spec Ew_Proofs
  Act_Spec Loss_Proofs Sum_Model Sum_Spec Sum_Proofs Norm_Model Opt_Model Tri_Spec Net_Proofs Rng_Proofs La_Model La_Spec La_Proofs.
Local Open Scope R_scope.

Lemma bget_n (l : list R) i : (i < length l)%nat -> bget l i = Some (nth i l 0).
Proof. apply bget_elem. Qed.
Lemma bget_eq_nth (l l' : list R) i j : bget l i = bget l' j -> nth i l 0 = nth j l' 0.
Proof.
  unfold bget. intros H. rewrite <- !nth_default_eq. unfold nth_default. rewrite H. reflexivity.
Qed.

(** the first [n] elements are given by [f], the others as before *)
Definition upto (n : nat) (f : nat -> R) (D D' : list R) : Prop :=
  length D' = length D /\ (forall i, (i < n)%nat -> nth i D' 0 = f i) /\
  forall i, (n <= i)%nat -> nth i D' 0 = nth i D 0.

Section K.
Context (th : lthr) (pool : list prange).

Lemma by_thr_tiles thr n cnt : (0 < cnt)%nat -> tiles (by_thr pool thr n cnt) cnt.
Proof. intros H. unfold by_thr. destruct (n <? thr)%nat; [apply whole_tiles, H|apply run_ranges_tiles, H]. Qed.

Lemma ew_upto thr n (f : nat -> R -> option R) (g : nat -> R) D : (0 < n)%nat -> (n <= length D)%nat ->
  (forall i, (i < n)%nat -> f i (nth i D 0) = Some (g i)) ->
  computes (ew (by_thr pool thr n n) f D) D (upto n g D).
Proof.
  intros H0 HD Hf. eapply computes_weaken; [|apply (ew_correct _ n)].
  - intros D' HL [H1 H2]. split; [exact HL|]. split.
    + intros i Hi. destruct (H1 i (nth i D 0) Hi (bget_n D i ltac:(lia))) as [E _].
      rewrite Hf in E by exact Hi. rewrite bget_n in E by lia. injection E as E. exact E.
    + intros i Hi. apply bget_eq_nth, H2, Hi.
  - apply by_thr_tiles, H0.
  - exact HD.
  - intros i v Hi Hv. rewrite bget_n in Hv by lia. injection Hv as <-. rewrite Hf by exact Hi. discriminate.
Qed.

Lemma copy_ok n A B : (n <= length A)%nat -> (n <= length B)%nat ->
  computes (copy n A B) A (upto n (fun i => nth i B 0) A).
Proof.
  intros HA HB. unfold copy. rewrite memcpy_closed by (cbn; lia). cbn [obind].
  eapply computes_weaken; [|apply (computes_single _ A n n 1 (fun i _ => bget B i))].
  - intros A' HL [H1 H2]. split; [exact HL|]. split.
    + intros i Hi. destruct (H1 i 0%nat Hi ltac:(lia)) as [E _].
      rewrite Nat.mul_0_r, Nat.add_0_r in E. apply bget_eq_nth, E.
    + intros i Hi. apply bget_eq_nth, H2. intros i' j Hi' Hj. replace j with 0%nat by lia. lia.
  - lia.
  - intros i j Hi Hj. replace j with 0%nat by lia. split; [lia|]. rewrite bget_n by lia. discriminate.
  - intros a v. rewrite in_mc. split.
    + intros (i & Hi & -> & Hv). exists i, 0%nat. repeat split; [exact Hi|lia|lia|exact Hv].
    + intros (i & j & Hi & Hj & -> & Hv). exists i. replace j with 0%nat by lia. repeat split; [exact Hi|lia|exact Hv].
Qed.

(** ** Columnwise kernels *)
Lemma column_writes rows c (d : list R) (g : R -> R) : (rows * c + rows <= length d)%nat ->
  wfor 0 rows (fun i (_ : unit) => do x <- bget d (i + rows * c); Some (tt, [((i + rows * c)%nat, g x)])) tt =
  Some (tt, flat_map (fun i => [((i + rows * c)%nat, g (nth (i + rows * c) d 0))]) (seq 0 rows)).
Proof.
  intros H. rewrite (wfor_closed' 0 rows _ tt (fun _ => tt) (fun i => [((i + rows * c)%nat, g (nth (i + rows * c) d 0))])); [reflexivity|reflexivity|].
  intros i Hi. rewrite bget_n by lia. reflexivity.
Qed.

Lemma in_columns rows lo n (g : nat -> nat -> R) a v :
  In (a, v) (flat_map (fun c => flat_map (fun i => [((i + rows * c)%nat, g i c)]) (seq 0 rows)) (seq lo n)) <->
  exists i j, (i < rows)%nat /\ a = (i + rows * j)%nat /\ g i j = v /\ (lo <= j < lo + n)%nat.
Proof.
  rewrite in_flat_map. split.
  - intros (c & Hc & H). apply in_flat_map in H. destruct H as (i & Hi & [H|[]]). injection H as <- <-.
    apply in_seq in Hc. apply in_seq in Hi. exists i, c. repeat split; lia.
  - intros (i & j & Hi & -> & <- & Hj). exists j. split; [apply in_seq; lia|]. apply in_flat_map. exists i.
    split; [apply in_seq; lia|]. left. reflexivity.
Qed.

Lemma block_upto rows cols (g : nat -> nat -> R) D D' : (rows * cols <= length D)%nat -> length D' = length D ->
  holds_block rows rows cols (fun i j => Some (g i j)) D D' ->
  length D' = length D /\ (forall i j, (i < rows)%nat -> (j < cols)%nat -> nth (i + rows * j) D' 0 = g i j) /\
  (forall a, (rows * cols <= a)%nat -> nth a D' 0 = nth a D 0).
Proof.
  intros HD HL [H1 H2]. split; [exact HL|]. split.
  - intros i j Hi Hj. destruct (H1 i j Hi Hj) as [E _]. rewrite bget_n in E by nia. injection E as E. exact E.
  - intros a Ha. apply bget_eq_nth, H2. intros i j Hi Hj. nia.
Qed.

Lemma cw_ok thr rows cols (kern : prange -> option (list (wr R))) (g : nat -> nat -> R) D :
  (0 < rows)%nat -> (0 < cols)%nat -> (rows * cols <= length D)%nat ->
  (forall p, (0 < r_cnt p)%nat -> (r_ofs p + r_cnt p <= cols)%nat ->
     kern p = Some (flat_map (fun c => flat_map (fun i => [((i + rows * c)%nat, g i c)]) (seq 0 rows)) (seq (r_ofs p) (r_cnt p)))) ->
  computes (par kern (by_thr pool thr (rows * cols) cols)) D (fun D' => length D' = length D /\
    (forall i j, (i < rows)%nat -> (j < cols)%nat -> nth (i + rows * j) D' 0 = g i j) /\
    (forall a, (rows * cols <= a)%nat -> nth a D' 0 = nth a D 0)).
Proof.
  intros Hr Hc HD Hk. eapply computes_weaken; [intros D' HL; apply block_upto; [exact HD|exact HL]|].
  apply (computes_block _ _ cols D rows rows cols (fun i j => Some (g i j)) (fun _ j => j)).
  - apply by_thr_tiles, Hc.
  - lia.
  - intros i j Hi Hj. split; [nia|]. split; [exact Hj|discriminate].
  - intros p _ H0 H1. eexists. split; [apply Hk; assumption|]. intros a v. rewrite in_columns. split.
    + intros (i & j & Hi & Ha & <- & Hj). exists i, j. repeat split; (assumption || lia).
    + intros (i & j & Hi & Hj & Ha & Hv & Ho). injection Hv as Hv. exists i, j. repeat split; (assumption || lia).
Qed.

Lemma demean_ok ns rows cols D : (0 < rows)%nat -> (0 < cols)%nat -> (rows * cols <= length D)%nat ->
  computes (mcwDeMean th pool ns rows cols D) D (fun D' => length D' = length D /\
    (forall i j, (i < rows)%nat -> (j < cols)%nat -> nth (i + rows * j) D' 0 = nth (i + rows * j) D 0 - mean_of rows D j) /\
    (forall a, (rows * cols <= a)%nat -> nth a D' 0 = nth a D 0)).
Proof.
  intros Hr Hc HD. unfold mcwDeMean.
  apply (cw_ok _ rows cols _ (fun i j => nth (i + rows * j) D 0 - mean_of rows D j)); try assumption.
  intros p H0 H1. unfold imcwDeMean_st.
  rewrite (wfor_closed' (r_ofs p) (r_cnt p) _ tt (fun _ => tt)
    (fun c => flat_map (fun i => [((i + rows * c)%nat, nth (i + rows * c) D 0 - mean_of rows D c)]) (seq 0 rows))); [reflexivity|reflexivity|].
  intros c Hcc. assert (Hcr : (rows * c + rows <= length D)%nat) by nia.
  rewrite vec_sum_ok by exact Hcr. cbn [obind]. unfold rdiv.
  destruct (Req_EM_T (INR rows) 0) as [E|E]; [exfalso; revert E; apply INR_pos, Hr|]. cbn [obind].
  rewrite (column_writes rows c D (fun x => x - _)) by exact Hcr. cbn [obind].
  do 2 f_equal. apply flat_map_ext. intros i. do 3 f_equal. unfold mean_of, total. unfold Rdiv. rewrite Rmult_comm. do 2 f_equal.
  rewrite <- (seq_shift0 (fun q => nth q D 0)). apply map_ext. intros r. f_equal. lia.
Qed.

Lemma muldiag_ok rows cols D B : (0 < rows)%nat -> (0 < cols)%nat -> (rows * cols <= length D)%nat -> (cols * cols <= length B)%nat ->
  computes (mcwMulDiag_ip th pool rows cols D B cols) D (fun D' => length D' = length D /\
    (forall i j, (i < rows)%nat -> (j < cols)%nat -> nth (i + rows * j) D' 0 = nth (i + rows * j) D 0 * nth (j + cols * j) B 0) /\
    (forall a, (rows * cols <= a)%nat -> nth a D' 0 = nth a D 0)).
Proof.
  intros Hr Hc HD HB. unfold mcwMulDiag_ip.
  apply (cw_ok _ rows cols _ (fun i j => nth (i + rows * j) D 0 * nth (j + cols * j) B 0)); try assumption.
  intros p H0 H1. unfold imcwMulDiag_st.
  rewrite (wfor_closed' (r_ofs p) (r_cnt p) _ _ (fun c => (c + cols * c)%nat)
    (fun c => flat_map (fun i => [((i + rows * c)%nat, nth (i + rows * c) D 0 * nth (c + cols * c) B 0)]) (seq 0 rows))); [reflexivity|lia|].
  intros c Hcc. assert (Hcr : (rows * c + rows <= length D)%nat) by nia.
  rewrite bget_n by nia. cbn [obind]. rewrite (column_writes rows c D (fun x => x * _)) by exact Hcr. cbn [obind].
  do 2 f_equal. nia.
Qed.
End K.

(** ** BLAS *)
Lemma divmod ld i j : (i < ld)%nat -> ((i + ld * j) mod ld = i /\ (i + ld * j) / ld = j)%nat.
Proof.
  intros H. rewrite (Nat.mul_comm ld j). rewrite Nat.mod_add, Nat.div_add by lia.
  rewrite Nat.mod_small, Nat.div_small by lia. split; lia.
Qed.
Lemma fold_bs n f : fold_right Rplus 0 (map f (seq 0 n)) = bs n f.
Proof. apply bs_rsum. Qed.

Lemma syrk_ok lower n k alpha A C : (k * n <= length A)%nat -> (n * n <= length C)%nat ->
  exists C', syrk_tn lower n k alpha A C = Some C' /\ length C' = length C /\
    forall i j, (i < n)%nat -> (j < n)%nat -> in_tri lower i j = true ->
      nth (i + n * j) C' 0 = alpha * bs k (fun r => nth (r + k * i) A 0 * nth (r + k * j) A 0).
Proof.
  intros HA HC. unfold syrk_tn, guard.
  rewrite (proj2 (Nat.leb_le _ _) HA), (proj2 (Nat.leb_le _ _) HC). cbn [andb obind].
  eexists. split; [reflexivity|]. split; [rewrite app_length, map_length, seq_length, skipn_length; lia|].
  intros i j Hi Hj HT. assert (Hq : (i + n * j < n * n)%nat) by nia.
  rewrite app_nth1 by (rewrite map_length, seq_length; exact Hq).
  rewrite nth_map_seq by exact Hq. destruct (divmod n i j Hi) as [-> ->]. rewrite HT, fold_bs. reflexivity.
Qed.

Lemma symm_ok lower m n alpha A B beta C : (n * n <= length A)%nat -> (m * n <= length B)%nat -> (m * n <= length C)%nat ->
  exists C', symm_r lower m n alpha A B beta C = Some C' /\ length C' = length C /\
    forall i j, (i < m)%nat -> (j < n)%nat ->
      nth (i + m * j) C' 0 = alpha * bs n (fun k => nth (i + m * k) B 0 * symm_elem lower n A k j) + beta * nth (i + m * j) C 0.
Proof.
  intros HA HB HC. unfold symm_r, guard.
  rewrite (proj2 (Nat.leb_le _ _) HA), (proj2 (Nat.leb_le _ _) HB), (proj2 (Nat.leb_le _ _) HC). cbn [andb obind].
  eexists. split; [reflexivity|]. split; [rewrite app_length, map_length, seq_length, skipn_length; lia|].
  intros i j Hi Hj. assert (Hq : (i + m * j < m * n)%nat) by nia.
  rewrite app_nth1 by (rewrite map_length, seq_length; exact Hq).
  rewrite nth_map_seq by exact Hq. destruct (divmod m i j Hi) as [-> ->]. rewrite fold_bs. reflexivity.
Qed.

(** ** A triangle of a symmetric matrix *)
Lemma sumR_flat {X} (g : X -> list R) l : sumR (flat_map g l) = sumR (map (fun x => sumR (g x)) l).
Proof. induction l as [|x l IH]; [reflexivity|]. cbn [flat_map map]. rewrite sumR_app, IH. reflexivity. Qed.

Lemma bs_tail n k f : (k <= n)%nat -> sumR (map f (seq k (n - k))) = bs n (fun i => if (k <=? i)%nat then f i else 0).
Proof.
  intros H. replace n with (k + (n - k))%nat at 2 by lia. rewrite bs_app, bs_0.
  2: { intros i Hi. destruct (Nat.leb_spec k i); [lia|reflexivity]. }
  rewrite <- (seq_shift0 f k (n - k)), bs_sumR, Rplus_0_l. apply bs_ext. intros i Hi.
  destruct (Nat.leb_spec k (k + i)); [reflexivity|lia].
Qed.
Lemma bs_head n k f : (k <= n)%nat -> sumR (map f (seq 0 k)) = bs n (fun i => if (i <? k)%nat then f i else 0).
Proof.
  intros H. replace n with (k + (n - k))%nat by lia. rewrite bs_app, bs_sumR.
  rewrite (bs_0 (n - k)), Rplus_0_r.
  2: { intros i Hi. destruct (Nat.ltb_spec (k + i) k); [lia|reflexivity]. }
  apply bs_ext. intros i Hi. destruct (Nat.ltb_spec i k); [reflexivity|lia].
Qed.

Lemma triangle_half lower n f : (forall i j, f i j = f j i) ->
  triangle_total lower n f = / 2 * bs n (fun i => bs n (fun j => if Nat.eqb i j then 0 else f i j)).
Proof.
  intros Hs.
  assert (E : triangle_total lower n f = bs n (fun c => bs n (fun r => if (if lower then c <? r else r <? c)%nat then f r c else 0))).
  { unfold triangle_total, triangle. 
    assert (G : forall l : list nat, sumR (map (fun rc => f (fst rc) (snd rc)) (flat_map (fun c => map (fun r => (r, c)) (column_rows lower n c)) l)) =
       sumR (map (fun c => sumR (map (fun r => f r c) (column_rows lower n c))) l)).
    { induction l as [|c l IH]; [reflexivity|]. cbn [flat_map map]. rewrite map_app, sumR_app, IH, map_map. reflexivity. }
    rewrite G, bs_sumR. apply bs_ext. intros c Hc. unfold column_rows. destruct lower.
    - rewrite (bs_tail n (c + 1) (fun r => f r c)) by lia. apply bs_ext. intros r Hr.
      destruct (Nat.leb_spec (c + 1) r), (Nat.ltb_spec c r); (reflexivity || lia).
    - rewrite (bs_head n c (fun r => f r c)) by lia. reflexivity. }
  rewrite E.
  rewrite (bs_ext n (fun i => bs n (fun j => if Nat.eqb i j then 0 else f i j))
    (fun i => bs n (fun j => if (j <? i)%nat then f j i else 0) + bs n (fun j => if (i <? j)%nat then f j i else 0))).
  2: { intros i Hi. rewrite <- bs_plus. apply bs_ext. intros j Hj. rewrite (Hs j i).
       destruct (Nat.eqb_spec i j), (Nat.ltb_spec j i), (Nat.ltb_spec i j); (lia || ring). }
  rewrite bs_plus.
  assert (E2 : bs n (fun i => bs n (fun j => if (j <? i)%nat then f j i else 0)) = bs n (fun i => bs n (fun j => if (i <? j)%nat then f j i else 0))).
  { rewrite bs_swap. apply bs_ext. intros j Hj. apply bs_ext. intros i Hi. rewrite (Hs i j). reflexivity. }
  destruct lower; [rewrite E2|rewrite <- E2]; field.
Qed.
