(** Proofs about the elementwise and columnwise kernels of [Rw_Model]. *)
From Coq Require Import Reals Lra Bool.
From Verif Require Import Base BaseLemmas Workers_Model Kern_Model Kern_Spec Kern_Proofs
  Act_Spec Loss_Proofs Sum_Model Sum_Spec Sum_Proofs Norm_Model Opt_Model Tri_Spec Net_Proofs Rng_Proofs La_Model La_Spec La_Proofs La_Proofs2
  Sfm_Model Rw_Model Rw_Spec.
Local Open Scope R_scope.

(** ** Constants *)
Lemma vC_closed f d p k : (p + k <= length d)%nat ->
  vC f d p (p + k) = Some (flat_map (fun i => [((p + i)%nat, f (nth (p + i) d 0))]) (seq 0 k)).
Proof.
  intros H. unfold vC.
  rewrite (ptr_loop_closed' k p _ 1 _ _ (fun _ => tt) (fun i => [((p + i)%nat, f (nth (p + i) d 0))]));
    [reflexivity|reflexivity|lia|lia|].
  intros i Hi. rewrite Nat.mul_1_r, bget_n by lia. reflexivity.
Qed.

Lemma in_run (g : nat -> R) p k a v :
  In (a, v) (flat_map (fun i => [((p + i)%nat, g (p + i)%nat)]) (seq 0 k)) <-> (p <= a < p + k)%nat /\ v = g a.
Proof.
  rewrite in_flat_map. split.
  - intros (i & Hi & [H|[]]). injection H as <- <-. apply in_seq in Hi. split; [lia|reflexivity].
  - intros [Ha ->]. exists (a - p)%nat. split; [apply in_seq; lia|]. left.
    replace (p + (a - p))%nat with a by lia. reflexivity.
Qed.

(** the part of the matrix which is adjusted *)
Definition adj_rows (ib : bool) (m : mtx R) := if ib && m_bir m && m_bias m then (m_rows m - 1)%nat else m_rows m.
Definition adj_cols (ib : bool) (m : mtx R) := if ib && negb (m_bir m) && m_bias m then (m_cols m - 1)%nat else m_cols m.

Lemma evC_block thr pool f ib m : alloc m -> (0 < m_rows m)%nat -> (0 < adj_cols ib m)%nat ->
  computes (evC thr pool f ib m) (m_data m)
    (holds_block (m_rows m) (adj_rows ib m) (adj_cols ib m) (fun i j => Some (f (nth (i + m_rows m * j) (m_data m) 0))) (m_data m)).
Proof.
  intros HA Hr Hc. unfold alloc, numel in HA. unfold evC, adj_rows, adj_cols, universal_range, ievC_st in *.
  destruct (ib && m_bir m && m_bias m) eqn:E.
  - apply andb_true_iff in E. destruct E as [E Eb]. apply andb_true_iff in E. destruct E as [-> E].
    rewrite E in *. cbn [andb negb] in *.
    apply (computes_block _ _ (m_cols m) _ (m_rows m) (m_rows m - 1) (m_cols m) _ (fun _ j => j)).
    + apply by_thr_tiles, Hc.
    + lia.
    + intros i j Hi Hj. split; [nia|]. split; [exact Hj|discriminate].
    + intros p _ H0 H1. unfold col_ofs, ldim.
      rewrite (ptr_loop_closed' (r_cnt p) _ _ _ _ _ (fun _ => tt)
        (fun c => flat_map (fun i => [((m_rows m * (r_ofs p + c) + i)%nat, f (nth (m_rows m * (r_ofs p + c) + i) (m_data m) 0))]) (seq 0 (m_rows m - 1))));
        [|reflexivity|lia|nia|].
      * cbn [obind]. eexists. split; [reflexivity|]. intros a v. rewrite in_flat_map. split.
        -- intros (c & Hcc & H). apply in_seq in Hcc. apply (in_run (fun a => f (nth a (m_data m) 0))) in H. destruct H as [Ha ->].
           exists (a - m_rows m * (r_ofs p + c))%nat, (r_ofs p + c)%nat.
           replace (a - m_rows m * (r_ofs p + c) + m_rows m * (r_ofs p + c))%nat with a by lia.
           repeat split; lia.
        -- intros (i & j & Hi & Hj & -> & Hv & Ho). injection Hv as <-. exists (j - r_ofs p)%nat. split; [apply in_seq; lia|].
           apply (in_run (fun a => f (nth a (m_data m) 0))). replace (r_ofs p + (j - r_ofs p))%nat with j by lia. split; [lia|reflexivity].
      * intros c Hcc. replace (m_rows m * r_ofs p + c * (m_rows m - 1 + 1))%nat with (m_rows m * (r_ofs p + c))%nat by nia.
        rewrite vC_closed by nia. reflexivity.
  - set (c' := if ib && negb (m_bir m) && m_bias m then (m_cols m - 1)%nat else m_cols m) in *.
    assert (Ec : (if m_bir m then numel m else rows_ib ib m * cols_ib ib m)%nat = (m_rows m * c')%nat).
    { unfold numel, rows_ib, cols_ib, has_bias_row, has_bias_col, c'. destruct ib, (m_bir m), (m_bias m); cbn in *; try discriminate E; rewrite ?Nat.sub_0_r; reflexivity. }
    assert (Hc' : (c' <= m_cols m)%nat) by (unfold c'; destruct (_ && _); lia).
    rewrite Ec.
    apply (computes_block _ _ (m_rows m * c') _ (m_rows m) (m_rows m) c' _ (fun i j => i + m_rows m * j)%nat).
    + apply by_thr_tiles. nia.
    + lia.
    + intros i j Hi Hj. split; [nia|]. split; [nia|discriminate].
    + intros p _ H0 H1. rewrite vC_closed by nia. eexists. split; [reflexivity|]. intros a v.
      rewrite (in_run (fun a => f (nth a (m_data m) 0))). split.
      * intros [Ha ->]. exists (a mod m_rows m)%nat, (a / m_rows m)%nat.
        assert (Ea : (a mod m_rows m + m_rows m * (a / m_rows m) = a)%nat) by (pose proof (Nat.div_mod a (m_rows m) ltac:(lia)); lia).
        rewrite Ea. split; [apply Nat.mod_upper_bound; lia|]. split; [apply Nat.div_lt_upper_bound; lia|]. repeat split; lia.
      * intros (i & j & Hi & Hj & -> & Hv & Ho). injection Hv as <-. split; [lia|reflexivity].
Qed.

Lemma evC_ok thr pool f ib m : has_elements m ->
  computes (evC thr pool f ib m) (m_data m) (adjusted f ib m).
Proof.
  intros (HA & i0 & j0 & Hi0 & Hj0 & Hb0).
  assert (Hc : (0 < adj_cols ib m)%nat).
  { unfold adj_cols. destruct ib, (m_bir m) eqn:E, (m_bias m) eqn:Eb; cbn; try lia.
    destruct (Nat.eq_dec (m_cols m) 1); [|lia]. exfalso. apply Hb0. split; [exact Eb|]. rewrite E. lia. }
  eapply computes_weaken; [|apply evC_block; [exact HA|lia|exact Hc]].
  intros d' HL [H1 H2]. unfold alloc, numel in HA. split; [exact HL|]. split; [|split].
  - intros i j Hi Hj Hn. destruct (H1 i j) as [E _].
    + unfold adj_rows. destruct (ib && m_bir m && m_bias m) eqn:E; [|exact Hi].
      apply andb_true_iff in E. destruct E as [E Eb]. apply andb_true_iff in E. destruct E as [-> E].
      destruct Hn as [Hn|Hn]; [discriminate|]. destruct (Nat.eq_dec i (m_rows m - 1)) as [Q|Q]; [|lia].
      exfalso. apply Hn. split; [exact Eb|]. rewrite E. exact Q.
    + unfold adj_cols. destruct (ib && negb (m_bir m) && m_bias m) eqn:E; [|exact Hj].
      apply andb_true_iff in E. destruct E as [E Eb]. apply andb_true_iff in E. destruct E as [-> E].
      destruct Hn as [Hn|Hn]; [discriminate|]. destruct (Nat.eq_dec j (m_cols m - 1)) as [Q|Q]; [|lia].
      exfalso. apply Hn. split; [exact Eb|]. destruct (m_bir m); [discriminate|exact Q].
    + rewrite bget_n in E by (rewrite HL; nia). injection E as E. exact E.
  - intros i j Hi Hj -> [Eb Hb]. apply bget_eq_nth, H2. intros i' j' Hi' Hj' E. unfold adj_rows, adj_cols in *.
    rewrite Eb in *. destruct (m_bir m); cbn [andb negb] in *;
      destruct (addr_inj (m_rows m) i j i' j' ltac:(lia) ltac:(lia) E); lia.
  - intros a Ha. apply bget_eq_nth, H2. intros i' j' Hi' Hj' E. unfold adj_rows, adj_cols in *.
    assert (i' < m_rows m)%nat by (destruct (_ && _) in Hi'; lia). assert (j' < m_cols m)%nat by (destruct (_ && _) in Hj'; lia). nia.
Qed.

(** ** Columns *)
Section K.
Context (thr : nat) (pool : list prange).

Lemma mean_ok ns rows cols A (V : list R) : (0 < rows)%nat -> (0 < cols)%nat -> (rows * cols <= length A)%nat -> (cols <= length V)%nat ->
  computes (mcwMean thr pool ns rows cols A) V (fun V' => length V' = length V /\
    (forall j, (j < cols)%nat -> nth j V' 0 = mean_of rows A j) /\
    (forall a, (cols <= a)%nat -> nth a V' 0 = nth a V 0)).
Proof.
  intros Hr Hc HA HV. unfold mcwMean.
  eapply computes_weaken; [|apply (computes_block _ _ cols V 1 1 cols (fun _ j => Some (mean_of rows A j)) (fun _ j => j))].
  - intros V' HL [H1 H2]. split; [exact HL|]. split.
    + intros j Hj. destruct (H1 0%nat j ltac:(lia) Hj) as [E _].
      rewrite Nat.mul_1_l, Nat.add_0_l in E. rewrite bget_n in E by lia. injection E as E. exact E.
    + intros a Ha. apply bget_eq_nth, H2. intros i j Hi Hj. lia.
  - apply by_thr_tiles, Hc.
  - lia.
  - intros i j Hi Hj. split; [lia|]. split; [exact Hj|discriminate].
  - intros p _ H0 H1. unfold imcwMean_st.
    rewrite (wfor_closed' (r_ofs p) (r_cnt p) _ tt (fun _ => tt) (fun c => [(c, mean_of rows A c)])); [|reflexivity|].
    + cbn [obind]. eexists. split; [reflexivity|]. intros a v. rewrite in_flat_map. split.
      * intros (c & Hcc & [H|[]]). injection H as <- <-. apply in_seq in Hcc. exists 0%nat, c. repeat split; lia.
      * intros (i & j & Hi & Hj & -> & Hv & Ho). injection Hv as <-. exists j. split; [apply in_seq; lia|]. left.
        f_equal. lia.
    + intros c Hcc. assert (Hcr : (rows * c + rows <= length A)%nat) by nia.
      rewrite vec_sum_ok by exact Hcr. cbn [obind]. unfold rdiv.
      destruct (Req_EM_T (INR rows) 0) as [E|E]; [exfalso; revert E; apply INR_pos, Hr|]. cbn [obind].
      do 4 f_equal. unfold mean_of, total, Rdiv. rewrite Rmult_comm. f_equal. f_equal.
      rewrite <- (seq_shift0 (fun q => nth q A 0)). apply map_ext. intros r. f_equal. lia.
Qed.

Lemma sub_ok vec rows cols D : (0 < rows)%nat -> (0 < cols)%nat -> (rows * cols <= length D)%nat -> (cols <= length vec)%nat ->
  computes (mcwSub_ip thr pool vec rows cols D) D (fun D' => length D' = length D /\
    (forall i j, (i < rows)%nat -> (j < cols)%nat -> nth (i + rows * j) D' 0 = nth (i + rows * j) D 0 - nth j vec 0) /\
    (forall a, (rows * cols <= a)%nat -> nth a D' 0 = nth a D 0)).
Proof.
  intros Hr Hc HD HV. unfold mcwSub_ip.
  apply (cw_ok pool thr rows cols _ (fun i j => nth (i + rows * j) D 0 - nth j vec 0)); try assumption.
  intros p H0 H1. unfold imcwSub_st.
  rewrite (wfor_closed' (r_ofs p) (r_cnt p) _ _ (fun c => c)
    (fun c => flat_map (fun i => [((i + rows * c)%nat, nth (i + rows * c) D 0 - nth c vec 0)]) (seq 0 rows))); [reflexivity|reflexivity|].
  intros c Hcc. assert (Hcr : (rows * c + rows <= length D)%nat) by nia.
  rewrite bget_n by lia. cbn [obind]. rewrite (column_writes rows c D (fun x => x - _)) by exact Hcr. reflexivity.
Qed.

Definition differs (cp v : R) : bool := if Req_EM_T v cp then false else true.
Definition nz (cp : R) rows D c := filter (differs cp) (column rows D c).

Lemma column_part rows D c : (rows * c + rows <= length D)%nat -> firstn rows (skipn (rows * c) D) = column rows D c.
Proof.
  intros H. rewrite (part_of_list D 0) by exact H. unfold column.
  rewrite <- (seq_shift0 (fun q => nth q D 0)). apply map_ext. intros r. f_equal. lia.
Qed.

Lemma sum_nz_ok ns cp D rows c : (rows * c + rows <= length D)%nat ->
  sum_nz ns cp D (rows * c) rows = Some (sumR (nz cp rows D c), length (nz cp rows D c)).
Proof.
  intros H. unfold sum_nz, vec_apply_func, nz. pose proof (sumnz_ok cp D (rows * c) rows 0 0 H) as E.
  rewrite column_part in E by exact H. rewrite Rplus_0_l, Nat.add_0_l in E. fold (differs cp) in E.
  destruct ns; [|exact E]. rewrite kahannz_loop, E. reflexivity.
Qed.

Definition shift_of cp rows D c : R := sumR (nz cp rows D c) / INR (length (nz cp rows D c)) - cp.

Lemma demean_nz_elems ns cp rows cols D : (0 < rows)%nat -> (0 < cols)%nat -> (rows * cols <= length D)%nat ->
  computes (mcwDeMeanNZ thr pool ns cp rows cols D) D (fun D' => length D' = length D /\
    (forall i j, (i < rows)%nat -> (j < cols)%nat -> nth (i + rows * j) D' 0 =
       if Req_EM_T (nth (i + rows * j) D 0) cp then cp else nth (i + rows * j) D 0 - shift_of cp rows D j) /\
    (forall a, (rows * cols <= a)%nat -> nth a D' 0 = nth a D 0)).
Proof.
  intros Hr Hc HD. unfold mcwDeMeanNZ.
  apply (cw_ok pool thr rows cols _ (fun i j => if Req_EM_T (nth (i + rows * j) D 0) cp then cp else nth (i + rows * j) D 0 - shift_of cp rows D j)); try assumption.
  intros p H0 H1. unfold imcwDeMeanNZ_st.
  rewrite (wfor_closed' (r_ofs p) (r_cnt p) _ tt (fun _ => tt)
    (fun c => flat_map (fun i => [((i + rows * c)%nat, if Req_EM_T (nth (i + rows * c) D 0) cp then cp else nth (i + rows * c) D 0 - shift_of cp rows D c)]) (seq 0 rows))); [reflexivity|reflexivity|].
  intros c Hcc. assert (Hcr : (rows * c + rows <= length D)%nat) by nia.
  rewrite sum_nz_ok by exact Hcr. cbn [obind].
  rewrite (wfor_closed' 0 rows _ tt (fun _ => tt)
    (fun i => [((i + rows * c)%nat, if Req_EM_T (nth (i + rows * c) D 0) cp then cp else nth (i + rows * c) D 0 - shift_of cp rows D c)])); [reflexivity|reflexivity|].
  intros i Hi. rewrite bget_n by lia. cbn [obind].
  destruct (Req_EM_T (nth (i + rows * c) D 0) cp) as [E|E]; [reflexivity|].
  assert (Hin : In (nth (i + rows * c) D 0) (nz cp rows D c)).
  { unfold nz. apply filter_In. split; [apply in_map_iff; exists i; split; [reflexivity|apply in_seq; lia]|].
    unfold differs. destruct (Req_EM_T _ cp); [contradiction|reflexivity]. }
  assert (Hl : (0 < length (nz cp rows D c))%nat) by (destruct (nz cp rows D c); [destruct Hin|cbn; lia]).
  unfold rdiv. destruct (Req_EM_T (INR (length (nz cp rows D c))) 0) as [Q|Q]; [exfalso; revert Q; apply INR_pos, Hl|].
  reflexivity.
Qed.

Lemma sum_filter cp s l : sumR (map (fun x => if Req_EM_T x cp then 0 else x - s - cp) l) =
  sumR (filter (differs cp) l) - INR (length (filter (differs cp) l)) * (s + cp).
Proof.
  induction l as [|x l IH]; [cbn; unfold sumR; cbn; ring|].
  change (sumR (map ?f (x :: l))) with (f x + sumR (map f l)). rewrite IH. cbn [filter]. unfold differs at 3 6.
  destruct (Req_EM_T x cp); cbn [length]; [ring|]. rewrite S_INR. change (sumR (x :: ?l')) with (x + sumR l'). ring.
Qed.

Lemma demean_nz_ok ns cp rows cols D : (0 < rows)%nat -> (0 < cols)%nat -> (rows * cols <= length D)%nat ->
  computes (mcwDeMeanNZ thr pool ns cp rows cols D) D (fun D' => length D' = length D /\
    (forall j, (j < cols)%nat -> centred_nz cp rows D D' j) /\
    (forall a, (rows * cols <= a)%nat -> nth a D' 0 = nth a D 0)).
Proof.
  intros Hr Hc HD. eapply computes_weaken; [|apply demean_nz_elems; eassumption].
  intros D' _ (HL & H1 & H2). split; [exact HL|]. split; [|exact H2].
  intros j Hj. exists (shift_of cp rows D j). split; [intros i Hi; apply H1; assumption|].
  unfold total. transitivity (sumR (map (fun x => if Req_EM_T x cp then 0 else x - shift_of cp rows D j - cp) (column rows D j))).
  - unfold column. rewrite map_map. f_equal. apply map_ext_in. intros i Hi. apply in_seq in Hi.
    rewrite H1 by lia. destruct (Req_EM_T _ cp); reflexivity.
  - rewrite sum_filter. fold (nz cp rows D j). unfold shift_of. set (n := length (nz cp rows D j)).
    destruct (Nat.eq_dec n 0) as [E|E].
    + rewrite E. assert (nz cp rows D j = []) as -> by (unfold n in E; destruct (nz cp rows D j); [reflexivity|discriminate]).
      cbn. unfold sumR. cbn. ring.
    + pose proof (INR_pos n ltac:(lia)). field. assumption.
Qed.


(** the means, subtracted *)
Lemma sub_means_ok vec rows cols D : (0 < rows)%nat -> (0 < cols)%nat -> (rows * cols <= length D)%nat -> (cols <= length vec)%nat ->
  (forall j, (j < cols)%nat -> nth j vec 0 = mean_of rows D j) ->
  computes (mcwSub_ip thr pool vec rows cols D) D (fun D' =>
    forall j, (j < cols)%nat -> total rows (fun i => nth (i + rows * j) D' 0) = 0).
Proof.
  intros Hr Hc HD HV HM. eapply computes_weaken; [|apply sub_ok; eassumption].
  intros D' _ (_ & H & _) j Hj. unfold total.
  transitivity (sumR (map (fun i => nth (i + rows * j) D 0 - mean_of rows D j) (seq 0 rows))).
  - f_equal. apply map_ext_in. intros i Hi. apply in_seq in Hi. rewrite H, HM by lia. reflexivity.
  - assert (E : forall (f : nat -> R) k l, sumR (map (fun i => f i - k) l) = sumR (map f l) - INR (length l) * k).
    { intros f k l. induction l as [|x l IH]; [cbn; unfold sumR; cbn; ring|].
      cbn [map]. change (sumR (?y :: ?l')) with (y + sumR l'). rewrite IH. cbn [length]. rewrite S_INR. ring. }
    rewrite E, seq_length. unfold mean_of, total. pose proof (INR_pos rows Hr). field. assumption.
Qed.
End K.
