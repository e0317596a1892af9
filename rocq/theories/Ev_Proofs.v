(** The kernels of the evaluators. *)
From Coq Require Import Permutation.
From Verif Require Import Base BaseLemmas Workers_Model Kern_Model Kern_Spec Kern_Proofs IdxMax_Model IdxMax_Spec IdxMax_Proofs
  Smx_Model Smx_Spec TData_Model TData_Spec TData_Proofs Ev_Model Ev_Spec.

Section P.
Context {B : Type} (gt : B -> B -> bool) (th : thrs).
Notation mth := (mth B).
Implicit Types (k : mth) (src : mtx B).

Definition bz (frac : B) (l : list B) (i : nat) : nat := match bget l i with Some v => binz gt frac v | None => 0 end.

Lemma bin_copy_closed frac src pD pS n : pS + n <= length (m_data src) ->
  bin_copy gt frac src pD pS n = Some (map (fun r => (pD + r, bz frac (m_data src) (pS + r))) (seq 0 n)).
Proof.
  intros H. unfold bin_copy.
  rewrite (wfor_closed' 0 n _ tt (fun _ => tt) (fun r => [(pD + r, bz frac (m_data src) (pS + r))])); [| reflexivity |].
  - cbn [obind]. apply f_equal. induction (seq 0 n) as [|r l IH]; [reflexivity|]. cbn [flat_map map app]. rewrite IH. reflexivity.
  - intros i Hi. unfold bz. destruct (bget (m_data src) (pS + i)) as [v|] eqn:E; [reflexivity|].
    destruct (bget_lt (m_data src) (pS + i)) as (v & E'); [lia|]. congruence.
Qed.

Lemma in_copy frac l pD pS n a v :
  In (a, v) (map (fun r => (pD + r, bz frac l (pS + r))) (seq 0 n)) <-> exists r, r < n /\ a = pD + r /\ v = bz frac l (pS + r).
Proof.
  rewrite in_map_iff. split.
  - intros (r & E & Hr). apply in_seq in Hr. injection E as <- <-. exists r. split; [lia|auto].
  - intros (r & Hr & -> & ->). exists r. split; [reflexivity|]. apply in_seq. lia.
Qed.

Lemma mod_div R r c : r < R -> (c * R + r) / R = c /\ (c * R + r) mod R = r.
Proof.
  intros H. rewrite Nat.div_add_l by lia. rewrite Nat.div_small by lia. split; [lia|].
  rewrite Nat.add_comm, Nat.mod_add by lia. apply Nat.mod_small. exact H.
Qed.

(** the writes of one range *)
Lemma binb_st_closed frac dRows start src er :
  0 < m_rows src -> m_rows src <= dRows -> r_ofs er + r_cnt er <= length (m_data src) ->
  exists w, iewBinarizeBatch_st gt frac dRows start src er = Some w /\
    forall a v, In (a, v) w <-> exists e, r_ofs er <= e < r_ofs er + r_cnt er /\
      a = start + e mod m_rows src + dRows * (e / m_rows src) /\ v = bz frac (m_data src) e.
Proof.
  intros HR HD HL. unfold iewBinarizeBatch_st. destruct (Nat.ltb_spec 0 (m_rows src)); [|lia]. cbn [guard obind].
  set (R := m_rows src) in *. set (o := r_ofs er) in *. set (c := r_cnt er) in *. unfold col_ofs, ldim. fold R.
  pose proof (Nat.div_mod o R) as Ho. pose proof (Nat.mod_upper_bound o R) as Hor.
  pose proof (Nat.div_mod (o + c) R) as He. pose proof (Nat.mod_upper_bound (o + c) R) as Her.
  set (bC := o / R) in *. set (bR := o mod R) in *. set (eC := (o + c) / R) in *. set (eR := (o + c) mod R) in *.
  assert (Ho' : o = bC * R + bR) by lia. assert (He' : o + c = eC * R + eR) by lia.
  assert (Hbe : bC <= eC) by (apply Nat.div_le_mono; lia).
  clearbody bC bR eC eR. clear Ho He.
  assert (Hq : forall j r, r < R -> start + (j * R + r) mod R + dRows * ((j * R + r) / R) = dRows * j + start + r).
  { intros j r Hr. destruct (mod_div R r j Hr) as [-> ->]. lia. }
  destruct (Nat.eqb_spec bC eC) as [Heq|Hne].
  - subst eC. rewrite bin_copy_closed by lia. cbn [obind].
    replace (bC - (bC + 1)) with 0 by lia. cbn [wfor obind].
    eexists. split; [reflexivity|]. intros a v. rewrite !app_nil_r, in_copy. split.
    + intros (r & Hr & -> & ->). exists (bC * R + (bR + r)). split; [lia|]. split; [rewrite Hq by lia; lia|]. f_equal. lia.
    + intros (e & He1 & -> & ->). exists (e - o). split; [lia|]. replace e with (bC * R + (bR + (e - o))) at 1 2 by lia.
      rewrite Hq by lia. split; [lia|]. f_equal. lia.
  - assert (Hlt : bC + 1 <= eC) by lia.
    assert (HbR : (bC + 1) * R <= eC * R) by (apply Nat.mul_le_mono_r; lia).
    rewrite bin_copy_closed by lia. cbn [obind].
    rewrite (wfor_closed' (bC + 1) (eC - (bC + 1)) _ _ (fun j => (dRows * j + start, R * j))
      (fun j => map (fun r => (dRows * j + start + r, bz frac (m_data src) (R * j + r))) (seq 0 R))).
    + cbn [obind]. replace (bC + 1 + (eC - (bC + 1))) with eC by lia.
      rewrite bin_copy_closed by lia. cbn [obind]. eexists. split; [reflexivity|]. intros a v.
      rewrite !in_app_iff, !in_copy, in_flat_map. split.
      * intros [(r & Hr & -> & ->)|[(j & Hj & Hr)|(r & Hr & -> & ->)]].
        -- exists (bC * R + (bR + r)). split; [lia|]. split; [rewrite Hq by lia; lia|]. f_equal. lia.
        -- apply in_seq in Hj. apply in_copy in Hr. destruct Hr as (r & Hr & -> & ->).
           assert ((bC + 1) * R <= j * R) by (apply Nat.mul_le_mono_r; lia). assert ((j + 1) * R <= eC * R) by (apply Nat.mul_le_mono_r; lia).
           exists (j * R + r). split; [lia|]. split; [rewrite Hq by lia; lia|]. f_equal. lia.
        -- exists (eC * R + r). split; [lia|]. split; [rewrite Hq by lia; lia|]. f_equal. lia.
      * intros (e & He1 & -> & ->).
        pose proof (Nat.div_mod e R) as Hd. pose proof (Nat.mod_upper_bound e R) as Hm.
        assert (bC <= e / R) by (apply Nat.div_le_lower_bound; lia).
        assert (e / R <= eC) by (apply Nat.lt_succ_r; apply Nat.div_lt_upper_bound; lia).
        set (j := e / R) in *. set (r := e mod R) in *. clearbody j r.
        destruct (Nat.eq_dec j bC) as [->|]; [left|destruct (Nat.eq_dec j eC) as [->|]; [right; right|right; left]].
        -- exists (r - bR). split; [lia|]. split; [lia|]. f_equal. lia.
        -- exists r. split; [lia|]. split; [lia|]. f_equal. lia.
        -- exists j. split; [apply in_seq; lia|]. apply in_copy. exists r. split; [lia|]. split; [lia|]. f_equal. lia.
    + f_equal; [|lia]. replace (dRows * (bC + 1)) with (dRows * bC + dRows) by lia. lia.
    + intros j Hj. assert ((j + 1) * R <= eC * R) by (apply Nat.mul_le_mono_r; lia).
      rewrite bin_copy_closed by lia. cbn [obind]. f_equal. f_equal. f_equal; lia.
Qed.

(** rows start.. of the destination become the binarised source *)
Definition binb_post (frac : B) (dRows start : nat) src (d d' : list nat) : Prop :=
  (forall i j, i < m_rows src -> j < m_cols src ->
     exists v, mget src i j = Some v /\ bget d' (start + i + dRows * j) = Some (binz gt frac v)) /\
  (forall a, (forall i j, i < m_rows src -> j < m_cols src -> a <> start + i + dRows * j) -> bget d' a = bget d a).

Lemma binb_call_ok k frac dRows start src (d : list nat) :
  alloc src -> m_bias src = false -> 0 < m_rows src -> 0 < m_cols src -> start + m_rows src <= dRows -> dRows * m_cols src <= length d ->
  computes (ewBinarizeBatch_call gt th k frac dRows start src) d (binb_post frac dRows start src d).
Proof.
  intros HA HB HR HC HS HD. unfold ewBinarizeBatch_call.
  assert (HN : numel_nb src = m_rows src * m_cols src).
  { unfold numel_nb, cols_nb, has_bias_col. rewrite HB. cbn. lia. }
  unfold alloc, numel in HA. rewrite HN.
  set (R := m_rows src) in *. set (C := m_cols src) in *.
  assert (HRC : 0 < R * C) by (apply Nat.mul_pos_pos; assumption).
  assert (HT : tiles (if R * C <? th_binb th then whole (R * C) else run_ranges (k_pool k) 0 (R * C)) (R * C)).
  { destruct (_ <? _); [apply whole_tiles|apply run_ranges_tiles]; exact HRC. }
  assert (Hdm : forall i j, i < R -> (start + i + dRows * j - start) mod dRows = i /\ (start + i + dRows * j - start) / dRows = j).
  { intros i j Hi. replace (start + i + dRows * j - start) with (j * dRows + i) by lia. destruct (mod_div dRows i j) as [-> ->]; [lia|]. split; reflexivity. }
  assert (Hcell : forall i j, i < R -> j < C -> i + R * j < R * C).
  { intros i j Hi Hj. assert (R * (j + 1) <= R * C) by (apply Nat.mul_le_mono_l; lia). lia. }
  apply (computes_intro _ _ (R * C) d (fun a => Some (bz frac (m_data src) ((a - start) mod dRows + R * ((a - start) / dRows))))
    (fun a => exists i j, i < R /\ j < C /\ a = start + i + dRows * j)
    (fun a => (a - start) mod dRows + R * ((a - start) / dRows))).
  - exact HT.
  - intros p Hp Hp1 Hp2. destruct (binb_st_closed frac dRows start src p HR) as (w & Ew & Hin); [fold R; lia|lia|].
    exists w. split; [exact Ew|]. fold R in Hin. split.
    + intros a v Hav. apply Hin in Hav. destruct Hav as (e & He & -> & ->).
      pose proof (Nat.div_mod e R) as Hd. pose proof (Nat.mod_upper_bound e R) as Hm.
      assert (e / R < C) by (apply Nat.div_lt_upper_bound; lia).
      destruct (Hdm (e mod R) (e / R)) as [E1 E2]; [lia|]. split; [exists (e mod R), (e / R); repeat split; lia|].
      rewrite E1, E2. split; [lia|]. f_equal. f_equal. lia.
    + intros a (i & j & Hi & Hj & ->) Ho. destruct (Hdm i j Hi) as [E1 E2]. rewrite E1, E2 in Ho.
      exists (bz frac (m_data src) (i + R * j)). apply Hin. exists (i + R * j). split; [exact Ho|].
      replace (i + R * j) with (j * R + i) at 1 2 by lia. destruct (mod_div R i j Hi) as [-> ->]. split; reflexivity.
  - intros a (i & j & Hi & Hj & ->). destruct (Hdm i j Hi) as [-> ->]. split; [|apply Hcell; assumption].
    assert (dRows * (j + 1) <= dRows * C) by (apply Nat.mul_le_mono_l; lia). lia.
  - intros d' HL' Hin Hout. split.
    + intros i j Hi Hj. destruct (Hin (start + i + dRows * j)) as [E _]; [exists i, j; auto|].
      destruct (Hdm i j Hi) as [E1 E2]. rewrite E1, E2 in E. unfold mget, ldim. fold R.
      destruct (bget_lt (m_data src) (i + R * j)) as (v & Ev). { pose proof (Hcell i j Hi Hj). lia. }
      exists v. split; [exact Ev|]. rewrite E. unfold bz. rewrite Ev. reflexivity.
    + intros a Ha. apply Hout. intros (i & j & Hi & Hj & ->). exact (Ha i j Hi Hj eq_refl).
Qed.

(** *** element by element *)
Lemma bin_call_ok k frac src (d : list nat) :
  alloc src -> m_bias src = false -> 0 < m_rows src -> 0 < m_cols src -> numel src <= length d ->
  computes (ewBinarize_call gt th k frac src) d (fun d' =>
    (forall i, i < numel src -> exists v, bget (m_data src) i = Some v /\ bget d' i = Some (binz gt frac v)) /\
    (forall i, numel src <= i -> bget d' i = bget d i)).
Proof.
  intros HA HB HR HC HD. unfold ewBinarize_call.
  assert (HN : numel_nb src = numel src).
  { unfold numel_nb, cols_nb, numel, has_bias_col. rewrite HB. cbn. lia. }
  rewrite HN. assert (HRC : 0 < numel src) by (unfold numel; apply Nat.mul_pos_pos; assumption). unfold alloc in HA.
  set (n := numel src) in *.
  assert (HT : tiles (if n <? th_bin th then whole n else run_ranges (k_pool k) 0 n) n).
  { destruct (_ <? _); [apply whole_tiles|apply run_ranges_tiles]; exact HRC. }
  apply (computes_intro _ _ n d (fun a => Some (bz frac (m_data src) a)) (fun a => a < n) (fun a => a)).
  - exact HT.
  - intros p Hp Hp1 Hp2. unfold iewBinarize_st.
    rewrite (wfor_closed' (r_ofs p) (r_cnt p) _ tt (fun _ => tt) (fun i => [(i, bz frac (m_data src) i)])); [|reflexivity|].
    + cbn [obind]. eexists. split; [reflexivity|]. split.
      * intros a v Hav. apply in_flat_map in Hav. destruct Hav as (i & Hi & [E|[]]). apply in_seq in Hi. injection E as <- <-.
        split; [lia|]. split; [lia|reflexivity].
      * intros a Ha Ho. exists (bz frac (m_data src) a). apply in_flat_map. exists a. split; [apply in_seq; lia|left; reflexivity].
    + intros i Hi. unfold bz. destruct (bget_lt (m_data src) i) as (v & E); [lia|]. rewrite E. reflexivity.
  - intros a Ha. lia.
  - intros d' HL' Hin Hout. split.
    + intros i Hi. destruct (Hin i Hi) as [E _]. destruct (bget_lt (m_data src) i) as (v & Ev); [lia|].
      exists v. split; [exact Ev|]. rewrite E. unfold bz. rewrite Ev. reflexivity.
    + intros i Hi. apply Hout. lia.
Qed.

Lemma run_nat_ok k call d post : mth_ok k -> computes call d post ->
  exists d', run_nat k call d = Some d' /\ length d' = length d /\ post d'.
Proof.
  intros (Hk & _) (trs & E & _ & H). unfold run_nat. rewrite E. cbn [obind]. apply H, Hk.
Qed.

(** *** executing the search for the maxima *)
Lemma run_idxmax_ok k src dest post : mth_ok k ->
  mrwIdxsOfMax gt (th_max th) (th_maxRows th) (th_cpt th) (k_pool k) src (k_tmp k) dest post ->
  exists d', run_idxmax gt th k src dest = Some d' /\ length d' = length dest /\ post d'.
Proof.
  intros Hk H. unfold mrwIdxsOfMax in H. unfold run_idxmax.
  destruct (numel src <? th_max th); [apply run_nat_ok; assumption|].
  destruct ((m_rows src <? th_maxRows th) && (th_cpt th <? m_cols src)); [|apply run_nat_ok; assumption].
  destruct H as (trs & E & _ & H). rewrite E. cbn [obind].
  destruct (H (k_schedP k trs)) as (tmp' & Et & _ & Hc); [apply Hk|]. rewrite Et. cbn [obind].
  apply run_nat_ok; assumption.
Qed.

(** *** counting *)
Definition same (a b : list nat) (ofs i : nat) : bool :=
  match bget a (ofs + i), bget b i with Some x, Some y => x =? y | _, _ => false end.
Definition tally (f : nat -> bool) (n : nat) : nat := length (filter f (seq 0 n)).
Lemma tally_S f n : tally f (n + 1) = tally f n + Nat.b2n (f n).
Proof.
  unfold tally. replace (n + 1) with (S n) by lia. rewrite seq_S, filter_app, app_length. cbn [Nat.add filter].
  destruct (f n); reflexivity.
Qed.
Lemma tally_app f n m : tally f (n + m) = tally f n + tally (fun i => f (n + i)) m.
Proof.
  induction m as [|m IH]; [rewrite Nat.add_0_r; unfold tally; cbn; lia|].
  replace (n + S m) with (n + m + 1) by lia. replace (S m) with (m + 1) by lia. rewrite !tally_S, IH. lia.
Qed.
Lemma tally_ext f g n : (forall i, i < n -> f i = g i) -> tally f n = tally g n.
Proof.
  induction n as [|n IH]; intros H; [reflexivity|]. replace (S n) with (n + 1) by lia. rewrite !tally_S, IH, H by (try intros; try apply H; lia). reflexivity.
Qed.

Lemma vCountSame_ok a b ofs n : ofs + n <= length a -> n <= length b ->
  vCountSame a b ofs n = Some (tally (same a b ofs) n).
Proof.
  intros Ha Hb. unfold vCountSame.
  match goal with |- for_loop 0 n ?body 0 = _ => destruct (for_loop_inv (fun i r => r = tally (same a b ofs) i) 0 n body 0) as (r & E & Hr) end.
  - reflexivity.
  - intros i st Hi ->. destruct (bget_lt a (ofs + i)) as (x & Ex); [lia|]. destruct (bget_lt b i) as (y & Ey); [lia|].
    rewrite Ex, Ey. cbn [obind]. eexists. split; [reflexivity|]. rewrite tally_S. unfold same. rewrite Ex, Ey. reflexivity.
  - rewrite E, Hr. reflexivity.
Qed.

(** all pairs (column, row) *)
Fixpoint tally2 (f : nat -> nat -> bool) (r c : nat) : nat :=
  match c with 0 => 0 | S c => tally2 f r c + tally (fun i => f i c) r end.
Lemma tally2_ext f g r c : (forall i j, i < r -> j < c -> f i j = g i j) -> tally2 f r c = tally2 g r c.
Proof.
  induction c as [|c IH]; intros H; [reflexivity|]. cbn [tally2]. rewrite IH by (intros; apply H; lia). f_equal. apply tally_ext. intros. apply H; lia.
Qed.
Lemma tally2_rows f r r' c : tally2 f (r + r') c = tally2 f r c + tally2 (fun i => f (r + i)) r' c.
Proof. induction c as [|c IH]; [reflexivity|]. cbn [tally2]. rewrite IH, tally_app. lia. Qed.

Lemma vCountSameBatch_ok (a b : mtx nat) rOfs : alloc a -> alloc b -> rOfs + m_rows b <= m_rows a -> m_cols b <= m_cols a ->
  vCountSameBatch a rOfs b =
  Some (tally2 (fun i j => match mget a (rOfs + i) j, mget b i j with Some x, Some y => x =? y | _, _ => false end) (m_rows b) (m_cols b)).
Proof.
  intros Ha Hb Hr Hc. unfold vCountSameBatch. unfold alloc, numel in Ha, Hb.
  set (F := fun i j => match mget a (rOfs + i) j, mget b i j with Some x, Some y => x =? y | _, _ => false end).
  match goal with |- obind (for_loop 0 _ ?body _) _ = _ =>
    destruct (for_loop_inv (fun j st => st = (rOfs + m_rows a * j, m_rows b * j, tally2 F (m_rows b) j)) 0 (m_cols b) body (rOfs, 0, 0)) as (st & E & Hst) end.
  - cbn [tally2]. rewrite !Nat.mul_0_r, Nat.add_0_r. reflexivity.
  - intros j st Hj ->.
    assert (m_rows a * (j + 1) <= m_rows a * m_cols a) by (apply Nat.mul_le_mono_l; lia).
    assert (m_rows b * (j + 1) <= m_rows b * m_cols b) by (apply Nat.mul_le_mono_l; lia).
    match goal with |- context[for_loop 0 (m_rows b) ?bd ?s] =>
      destruct (for_loop_inv (fun i r => r = tally2 F (m_rows b) j + tally (fun i => F i j) i) 0 (m_rows b) bd s) as (r & E1 & Hr1) end.
    + unfold tally. cbn. lia.
    + intros i r Hi ->. destruct (bget_lt (m_data a) (rOfs + m_rows a * j + i)) as (x & Ex); [lia|].
      destruct (bget_lt (m_data b) (m_rows b * j + i)) as (y & Ey); [lia|]. rewrite Ex, Ey. cbn [obind].
      eexists. split; [reflexivity|]. rewrite tally_S, Nat.add_assoc. f_equal. unfold F, mget, ldim.
      replace (rOfs + i + m_rows a * j) with (rOfs + m_rows a * j + i) by lia. replace (i + m_rows b * j) with (m_rows b * j + i) by lia. rewrite Ex, Ey. reflexivity.
    + rewrite E1. cbn [obind]. eexists. split; [reflexivity|]. rewrite Hr1. replace (j + 1) with (S j) by lia. cbn [tally2]. f_equal. f_equal; lia.
  - rewrite E, Hst. cbn [obind]. reflexivity.
Qed.
End P.
