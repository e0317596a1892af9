(** The binary evaluator. *)
From Coq Require Import Permutation.
From Verif Require Import Base BaseLemmas Workers_Model Kern_Model Kern_Spec Kern_Proofs IdxMax_Model IdxMax_Spec IdxMax_Proofs
  MKern_Model MKern_Spec Smx_Model Smx_Spec Smx_Proofs Smx_Proofs2 TData_Model TData_Spec TData_Proofs TData_Proofs2 TData_Proofs3 TData_Proofs4 TData_Proofs5
  Util_Proofs Ev_Model Ev_Spec Ev_Proofs Ev_Proofs2.

(** *** tables *)
Lemma count_pairs_tally2 f r c : count_pairs f r c = tally2 f r c.
Proof.
  revert f. induction r as [|r IH]; intros f.
  - unfold count_pairs. cbn. induction c as [|c IH]; [reflexivity|]. cbn [tally2]. rewrite <- IH. reflexivity.
  - assert (H1 : tally2 f (S r) c = tally2 f 1 c + tally2 (fun i => f (S i)) r c).
    { replace (S r) with (1 + r) by lia. rewrite tally2_rows. reflexivity. }
    rewrite H1, <- IH. unfold count_pairs. cbn [seq list_prod]. rewrite filter_app, app_length. f_equal.
    + clear. induction c as [|c IH]; [reflexivity|]. cbn [tally2]. rewrite <- IH. rewrite seq_S, map_app, filter_app, app_length. f_equal.
      cbn [map Nat.add]. unfold tally. cbn. destruct (f 0 c); reflexivity.
    + rewrite <- seq_shift.
      assert (G : forall l, list_prod (map S l) (seq 0 c) = map (fun ij => (S (fst ij), snd ij)) (list_prod l (seq 0 c))).
      { induction l as [|a l IHl]; [reflexivity|]. cbn [map list_prod]. rewrite IHl, map_app, !map_map. reflexivity. }
      rewrite G. generalize (list_prod (seq 0 r) (seq 0 c)). intros l. induction l as [|[i j] l IHl]; [reflexivity|].
      cbn [map filter fst snd]. destruct (f (S i) j); cbn [length]; rewrite IHl; reflexivity.
Qed.

Lemma count_if_tally f m : count_if f m = tally f m. Proof. reflexivity. Qed.

Section Bn.
Context {A B : Type} (oneA : A) (oneB : B) (gt : B -> B -> bool) (th : thrs) (S : sets A B) (fp tb : nat) (HC : coherent oneA S).
Context (HY : s_bir (y0 S) = false) (maxBS nsets : nat) (frac : B) (Yf : nat -> nat -> nat -> B).
Context (HT : forall id, id < 2 -> truth (set_y S id) (Yf id)).
Notation tds := (tds A B). Notation imath := (imath A B). Notation mth := (mth B). Notation bev := (@bev B).
Implicit Types (t : tds) (e : bev).
Notation I := (Inv oneA oneB S fp tb).
Notation N id := (cnt S id).
Notation n id := (Nat.min fp (cnt S id)).
Notation w := (yWidth S).
Notation bz' := (binz gt frac).
Context (Hbs : forall id, id < 2 -> n id <= maxBS).

Definition storage (m : nat) (s : smx nat) : Prop :=
  plain s /\ exists l, s_data s = Some l /\ m <= length l.
Definition sized (s : smx nat) (r c : nat) : Prop := s_rows s = r /\ s_cols s = c /\ storage (r * c) s.
(** the first q samples of set id are cached *)
Definition cached (s : smx nat) (id q : nat) : Prop :=
  sized s (N id) w /\ forall i j, i < q -> j < w -> cell s i j = Some (bz' (Yf id i j)).

Definition EIb e : Prop :=
  b_frac e = frac /\ cached (b_y0 e) 0 (shown (N 0) (n 0)) /\ cached (b_y1 e) 1 (shown (N 1) (n 1)) /\
  storage (maxBS * w) (b_p0 e) /\ (2 < nsets -> storage (maxBS * w) (b_p1 e)).
Definition goodb (id lo m : nat) (P : nat -> nat -> B) (c : nat) : Prop :=
  c = tally2 (fun i j => bz' (P (lo + i) j) =? bz' (Yf id (lo + i) j)) m w.
Definition xgoodb (m : nat) (P Y : nat -> nat -> B) (c : nat) : Prop :=
  c = tally2 (fun i j => bz' (P i j) =? bz' (Y i j)) m w.

(** *** ewBinarize *)
Lemma ewBinarize_ok k (dest : smx nat) (a : smx B) m P : mth_ok k -> 0 < m -> storage (m * w) dest -> activations a m w P ->
  s_rows dest = m -> s_cols dest = w ->
  exists s, ewBinarize gt th k frac dest a = Some s /\ s_rows s = m /\ s_cols s = w /\ plain s /\
    (exists l l0, s_data dest = Some l0 /\ s_data s = Some l /\ length l = length l0) /\
    forall i j, i < m -> j < w -> cell s i j = Some (bz' (P i j)).
Proof.
  intros Hk Hm (Hp & l0 & Hl0 & Hlen) (R1 & R2 & R3 & R4 & R5) Hr Hc. pose proof (w_pos oneA S HC HY) as Hw.
  destruct R4 as (_ & _ & la & Hla & Hna). unfold ewBinarize, as_mtx. rewrite Hla. cbn [obind]. rewrite Hl0. cbn [obind].
  set (am := mkM (s_rows a) (s_cols a) (s_bias a) (s_bir a) la).
  assert (Hnum : numel am = m * w) by (unfold numel, am; cbn; congruence).
  destruct (run_nat_ok k (ewBinarize_call gt th k frac am) l0 _ Hk (bin_call_ok gt th k frac am l0 Hna R3 ltac:(cbn; lia) ltac:(cbn; lia) ltac:(lia))) as (l & E & HL & H1 & _).
  rewrite E. cbn [obind]. eexists. split; [reflexivity|]. cbn [with_mem s_rows s_cols]. split; [exact Hr|]. split; [exact Hc|]. split; [exact Hp|].
  split; [exists l, l0; auto|]. intros i j Hi Hj.
  assert (m * (j + 1) <= m * w) by (apply Nat.mul_le_mono_l; lia).
  destruct (H1 (i + m * j)) as (v & Ev & El); [lia|]. unfold cell. cbn [with_mem s_data obind s_rows]. rewrite Hr, El.
  specialize (R5 i j Hi Hj). unfold cell in R5. rewrite Hla, R1 in R5. cbn [obind am m_data] in R5, Ev. rewrite Ev in R5. injection R5 as ->. reflexivity.
Qed.

Lemma as_mtx_some {X} (s : smx X) l : s_data s = Some l -> as_mtx s = Some (mkM (s_rows s) (s_cols s) (s_bias s) (s_bir s) l).
Proof. intros E. unfold as_mtx. rewrite E. reflexivity. Qed.

Lemma corr_b k e id lo m P y a : EIb e -> b_ofs e = lo -> mth_ok k -> roomy maxBS k -> id < 2 -> 0 < m <= maxBS ->
  lo + m <= shown (N id) (n id) ->
  activations y m w (fun i => Yf id (lo + i)) -> activations a m w (fun i => P (lo + i)) ->
  exists c e', bev_correct gt th k e id y a = Some (c, e') /\ EIb e' /\ b_ofs e' = lo + m /\ goodb id lo m P c.
Proof.
  intros (Hf & Hy0 & Hy1 & Hp0 & Hp1) Ho Hk _ Hid Hm Hlo Hy Ha. pose proof (w_pos oneA S HC HY) as Hw. unfold bev_correct. rewrite Hf.
  destruct Hp0 as (Hpl & l0 & Hl0 & Hlen).
  assert (Hmw : m * w <= maxBS * w) by (apply Nat.mul_le_mono_r; lia).
  destruct (ewBinarize_ok k (deform_like (b_p0 e) a) a m (fun i => P (lo + i)) Hk) as (p0 & E & Hr & Hc & Hpp & (l & l0' & Hl0' & Hl & HLL) & Hcell).
  { lia. } { split; [exact Hpl|]. exists l0. split; [exact Hl0|lia]. } { exact Ha. } { apply Ha. } { apply Ha. }
  rewrite E. cbn [obind]. rewrite (as_mtx_some p0 l Hl). cbn [obind].
  assert (Hl0'' : l0' = l0) by (cbn [deform_like with_dims s_data] in Hl0'; congruence). subst l0'.
  destruct (Nat.leb_spec id 1); [|lia].
  set (ys := if id =? 0 then b_y0 e else b_y1 e).
  assert (HYs : cached ys id (shown (N id) (n id))).
  { unfold ys. destruct id as [|[|]]; [exact Hy0|exact Hy1|lia]. }
  destruct HYs as [(Yr & Yc & (_ & ly & Hly & Hly2)) Ycell]. rewrite (as_mtx_some ys ly Hly). cbn [obind].
  assert (Hsh : shown (N id) (n id) <= N id) by (unfold shown; destruct (_ =? 1); lia).
  rewrite vCountSameBatch_ok; cbn [m_rows m_cols].
  - cbn [obind]. eexists _, _. split; [reflexivity|]. split; [|split].
    + split; [reflexivity|]. cbn [b_y0 b_y1 b_p0 b_p1]. split; [exact Hy0|]. split; [exact Hy1|]. split; [|exact Hp1].
      split; [exact Hpp|]. exists l. split; [exact Hl|lia].
    + cbn [b_ofs]. destruct Ha as (-> & _). lia.
    + unfold goodb. rewrite Hr, Hc. apply tally2_ext. intros i j Hi Hj. rewrite Ho.
      assert (E1 : mget (mkM (s_rows ys) (s_cols ys) (s_bias ys) (s_bir ys) ly) (lo + i) j = Some (bz' (Yf id (lo + i) j))).
      { rewrite cell_mget by exact Hly. apply Ycell; lia. }
      assert (E2 : mget (mkM m w (s_bias p0) (s_bir p0) l) i j = Some (bz' (P (lo + i) j))).
      { rewrite <- (Hcell i j Hi Hj), <- (cell_mget p0 l i j Hl), Hr, Hc. reflexivity. }
      rewrite E1, E2. apply Nat.eqb_sym.
  - unfold alloc, numel. cbn. rewrite Yr, Yc. exact Hly2.
  - unfold alloc, numel. cbn. rewrite Hr, Hc. lia.
  - rewrite Yr, Hr, Ho. lia.
  - rewrite Yc, Hc. lia.
Qed.

Lemma flat_tally2 (f : nat -> bool) r c : tally f (r * c) = tally2 (fun i j => f (i + r * j)) r c.
Proof.
  induction c as [|c IH]; [rewrite Nat.mul_0_r; reflexivity|]. replace (r * Datatypes.S c) with (r * c + r) by lia. rewrite tally_app, IH. cbn [tally2].
  f_equal. apply tally_ext. intros i _. f_equal. lia.
Qed.

Lemma extra_b k e id m P Y y a : EIb e -> 2 <= id -> 2 < nsets -> extra_batch S maxBS (k, a, y) m P Y ->
  exists c e', bev_correct gt th k e id y a = Some (c, e') /\ EIb e' /\ xgoodb m P Y c.
Proof.
  intros (Hf & Hy0 & Hy1 & Hp0 & Hp1) Hid Hns (Hk & _ & Hm & Ha & Hy). pose proof (w_pos oneA S HC HY) as Hw. unfold bev_correct. rewrite Hf.
  destruct Hp0 as (Hpl & l0 & Hl0 & Hlen). destruct (Hp1 Hns) as (Hpl1 & l1 & Hl1 & Hlen1).
  assert (Hmw : m * w <= maxBS * w) by (apply Nat.mul_le_mono_r; lia).
  destruct (ewBinarize_ok k (deform_like (b_p0 e) a) a m P Hk) as (p0 & E & Hr & Hc & Hpp & (l & l0' & Hl0' & Hl & HLL) & Hcell).
  { lia. } { split; [exact Hpl|]. exists l0. split; [exact Hl0|lia]. } { exact Ha. } { apply Ha. } { apply Ha. }
  rewrite E. cbn [obind]. rewrite (as_mtx_some p0 l Hl). cbn [obind].
  assert (Hl0'' : l0' = l0) by (cbn [deform_like with_dims s_data] in Hl0'; congruence). subst l0'.
  destruct (Nat.leb_spec id 1); [lia|].
  destruct (ewBinarize_ok k (deform_like (b_p1 e) y) y m Y Hk) as (p1 & E1 & Hr1 & Hc1 & Hpp1 & (lq & l1' & Hl1' & Hlq & HLL1) & Hcell1).
  { lia. } { split; [exact Hpl1|]. exists l1. split; [exact Hl1|lia]. } { exact Hy. } { apply Hy. } { apply Hy. }
  rewrite E1. cbn [obind]. rewrite Hlq. cbn [obind].
  assert (Hl1'' : l1' = l1) by (cbn [deform_like with_dims s_data] in Hl1'; congruence). subst l1'.
  unfold numel. cbn [m_rows m_cols m_data]. rewrite Hr, Hc. rewrite vCountSame_ok by lia. cbn [obind].
  eexists _, _. split; [reflexivity|]. split.
  - split; [reflexivity|]. cbn [b_y0 b_y1 b_p0 b_p1]. split; [exact Hy0|]. split; [exact Hy1|]. split.
    + split; [exact Hpp|]. exists l. split; [exact Hl|lia].
    + intros _. split; [exact Hpp1|]. exists lq. split; [exact Hlq|lia].
  - unfold xgoodb. rewrite flat_tally2. apply tally2_ext. intros i j Hi Hj. unfold same. cbn [Nat.add].
    specialize (Hcell i j Hi Hj). specialize (Hcell1 i j Hi Hj). unfold cell in Hcell, Hcell1. rewrite Hl, Hr in Hcell. rewrite Hlq, Hr1 in Hcell1.
    cbn [obind] in Hcell, Hcell1. rewrite Hcell, Hcell1. apply Nat.eqb_sym.
Qed.

Lemma prep_b e : EIb e -> EIb (bev_prepare e) /\ b_ofs (bev_prepare e) = 0.
Proof. intros H. split; [exact H|reflexivity]. Qed.

Lemma total_b (y : smx B) m f : activations y m w f -> bev_total y = m * w.
Proof. intros (-> & -> & _)%(fun '(conj a (conj b c)) => conj (eq_sym a) (conj (eq_sym b) c)). reflexivity. Qed.

Lemma good0_b id P : goodb id 0 0 P 0.
Proof. unfold goodb. induction (yWidth S) as [|c IH]; [reflexivity|]. cbn [tally2]. rewrite <- IH. reflexivity. Qed.
Lemma goodS_b id lo m P c1 c2 : goodb id 0 lo P c1 -> goodb id lo m P c2 -> goodb id 0 (lo + m) P (c1 + c2).
Proof. unfold goodb. intros -> ->. rewrite tally2_rows. reflexivity. Qed.

(** *** initialisation *)
Lemma dres (me : mem_env nat) (s : smx nat) r c : plain s -> 0 < r -> 0 < c ->
  exists b s', d_resize 1 me s r c = Some (b, s') /\ plain s' /\ (b = true -> sized s' r c) /\ (me <> None -> b = true).
Proof.
  intros (P1 & P2 & P3) Hr Hc. unfold d_resize.
  destruct (resize_good 1 me (free s) r c) as (b & s' & E & R1 & R2 & R3 & R4 & R5 & R6 & R7 & _ & R8).
  { exact P2. } { exact Hr. } { exact Hc. } { reflexivity. } { intros Q. discriminate Q. }
  exists b, s'. split; [exact E|]. cbn [free with_mem with_dims s_bias s_bir] in R3, R4. 
  assert (HP : plain s') by (unfold plain; rewrite R3, R4, R5; auto). split; [exact HP|]. split; [|exact R8].
  intros ->. assert (W : well_alloc s') by (apply R7; destruct (empty s'); [discriminate R6|reflexivity]).
  unfold s_bias_row, s_bias_col in R1, R2. cbn [free with_mem with_dims s_bias s_bir] in R1, R2. rewrite P1 in R1, R2. cbn [andb Nat.b2n] in R1, R2.
  rewrite Nat.add_0_r in R1, R2. destruct W as (_ & _ & l & D & L). unfold s_numel in L. rewrite R1, R2 in L.
  split; [exact R1|]. split; [exact R2|]. split; [exact HP|]. exists l. auto.
Qed.

Lemma binarize_set (ims : nat -> imath) (ks : nat -> mth) ibs t ph id dest : I t ph -> id < 2 -> sized dest (N id) w ->
  (forall b, im_ok (ims b)) -> (forall b, mth_ok (ks b)) ->
  exists t' s, binarizeYOfDataset oneA gt th ims ks ibs S t frac id dest = Some (t', s) /\ I t' Idle /\ cached s id (shown (N id) (n id)).
Proof.
  intros HI Hid Hd Him Hk. unfold binarizeYOfDataset. pose proof (w_pos oneA S HC HY) as Hw.
  destruct (walk_begin oneA oneB S fp tb HC t ph id ibs 1 HI Hid) as (t1 & E1 & HI1). rewrite E1. cbn [obind].
  pose proof (cnt_pos oneA S HC id Hid) as Hp. pose proof (inv_fp oneA oneB S fp tb t ph HI) as Hfp.
  assert (Hn : 0 < n id <= N id) by lia.
  match goal with |- context[for_loop 0 ?q ?body ?s] =>
    destruct (for_loop_inv (fun k '(t, rOfs, d) => I t (Walking id (n id) 1 k) /\ rOfs = Nat.min (n id * k) (N id) /\ cached d id rOfs) 0 q body s)
      as ([[t2 r2] d2] & E3 & H3) end.
  - split; [exact HI1|]. rewrite Nat.mul_0_r. split; [reflexivity|]. split; [exact Hd|]. intros i j Hi. lia.
  - intros k [[t2 r2] d2] Hkk (HI2 & -> & HD2).
    destruct (subset_next oneA oneB S fp tb HC t2 id (n id) 1 k (ims k) HI2 (Him k)) as (t3 & E3 & HI3 & _ & Hy); [lia|].
    cbn [Nat.eqb] in Hy. destruct Hy as (y & Ey & Hy). rewrite E3. cbn [obind]. rewrite Ey. cbn [obind].
    destruct (piece (N id) (n id) k Hn) as (P1 & P2 & P3 & P4); [lia|]. cbv zeta in P1, P2, P3.
    rewrite slice_piece in Hy. set (m := Nat.min (n id) (N id - n id * k)) in *.
    assert (Hay : activations y m w (fun i => Yf id (n id * k + i))).
    { apply (held_y oneA oneB S HC HY id); [exact Hid|apply HT; exact Hid|unfold m; lia|exact Hy]. }
    rewrite Nat.min_l in HD2 |- * by lia. destruct HD2 as [(D1 & D2 & DP & l & Dl & Dn) Dc].
    pose proof Hay as (A1 & A2 & A3 & (_ & _ & ly & Hly & Hlyn) & A5).
    unfold ewBinarizeBatch. rewrite (as_mtx_some y ly Hly). cbn [obind]. rewrite Dl. cbn [obind].
    set (ym := mkM (s_rows y) (s_cols y) (s_bias y) (s_bir y) ly).
    destruct (run_nat_ok (ks k) (ewBinarizeBatch_call gt th (ks k) frac (s_rows d2) (n id * k) ym) l _ (Hk k)
      (binb_call_ok gt th (ks k) frac (s_rows d2) (n id * k) ym l Hlyn A3 ltac:(cbn; lia) ltac:(cbn; lia) ltac:(cbn; lia) ltac:(cbn; rewrite D1, A2; exact Dn)))
      as (l' & E4 & HL & B1 & B2).
    rewrite E4. cbn [obind]. eexists. split; [reflexivity|]. split; [exact HI3|]. split; [rewrite A1; lia|].
    split.
    + split; [exact D1|]. split; [exact D2|]. split; [exact DP|]. exists l'. split; [reflexivity|]. rewrite HL. exact Dn.
    + rewrite A1. intros i j Hi Hj. unfold cell. cbn [with_mem s_data obind s_rows]. rewrite D1 in *. cbn [ym m_rows m_cols] in B1, B2. rewrite A1, A2 in B1, B2.
      destruct (Nat.lt_ge_cases i (n id * k)) as [Hlt|Hge].
      * rewrite B2.
        -- specialize (Dc i j Hlt Hj). unfold cell in Dc. rewrite Dl, D1 in Dc. exact Dc.
        -- intros i' j' Hi' Hj' Q. destruct (addr_inj (N id) i j (n id * k + i') j'); lia.
      * destruct (B1 (i - n id * k) j) as (v & Ev & El); [lia|exact Hj|].
        replace (n id * k + (i - n id * k)) with i in El by lia. rewrite El.
        unfold ym in Ev. rewrite (cell_mget y ly) in Ev by exact Hly. rewrite A5 in Ev by lia. injection Ev as <-.
        replace (n id * k + (i - n id * k)) with i by lia. reflexivity.
  - rewrite E3. cbn [obind]. destruct H3 as (HI3 & Hr & HD). exists t2, d2. split; [reflexivity|]. split; [exact (inv_idle oneA oneB S fp tb _ _ HI3)|].
    rewrite Nat.add_0_l, (last_piece (N id) (n id) Hn) in Hr. rewrite <- Hr. exact HD.
Qed.

Lemma init_b me ims ks ibs t ph e : I t ph -> b_frac e = frac ->
  plain (b_y0 e) -> plain (b_y1 e) -> plain (b_p0 e) -> plain (b_p1 e) ->
  (forall i b, im_ok (ims i b)) -> (forall i b, mth_ok (ks i b)) ->
  exists ok t' e', bev_init oneA gt th me ims ks ibs maxBS nsets S t e = Some (ok, t', e') /\ I t' Idle /\
    (ok = true -> EIb e') /\ ((forall i, me i <> None) -> ok = true).
Proof.
  intros HI Hf Py0 Py1 Pp0 Pp1 Him Hk. pose proof (w_pos oneA S HC HY) as Hw. pose proof (inv_fp oneA oneB S fp tb t ph HI) as Hfp.
  pose proof (cnt_pos oneA S HC 0 ltac:(lia)) as Hc0. pose proof (cnt_pos oneA S HC 1 ltac:(lia)) as Hc1.
  pose proof (Hbs 0 ltac:(lia)) as HB0.
  unfold bev_init. change (dataset_samples_count S 0) with (Some (N 0)). change (dataset_samples_count S 1) with (Some (N 1)). cbn [obind].
  assert (HM : (max_vec_len <? Z.of_nat (Nat.max (N 0) (N 1)))%Z = false).
  { destruct HC as (_ & _ & _ & _ & _ & _ & M0 & M1). apply Z.ltb_ge. unfold cnt, set_x. cbn [Nat.eqb]. lia. }
  rewrite HM.
  destruct (dres (me 0) (b_y0 e) (N 0) w Py0 Hc0 Hw) as (ok0 & y0' & E0 & Q0 & S0 & M0). rewrite E0. cbn [obind].
  destruct ok0; cbn [obind andb negb].
  2:{ eexists _, _, _. split; [reflexivity|]. split; [exact (inv_idle oneA oneB S fp tb _ _ HI)|]. split; [discriminate|]. intros Hme. exact (M0 (Hme 0)). }
  destruct (dres (me 1) (b_y1 e) (N 1) w Py1 Hc1 Hw) as (ok1 & y1' & E1 & Q1 & S1 & M1). rewrite E1. cbn [obind].
  destruct ok1; cbn [obind andb negb].
  2:{ eexists _, _, _. split; [reflexivity|]. split; [exact (inv_idle oneA oneB S fp tb _ _ HI)|]. split; [discriminate|]. intros Hme. exact (M1 (Hme 1)). }
  destruct (dres (me 2) (b_p0 e) maxBS w Pp0 ltac:(lia) Hw) as (ok2 & p0' & E2 & Q2 & S2 & M2). rewrite E2. cbn [obind].
  destruct ok2; cbn [obind andb negb].
  2:{ eexists _, _, _. split; [reflexivity|]. split; [exact (inv_idle oneA oneB S fp tb _ _ HI)|]. split; [discriminate|]. intros Hme. exact (M2 (Hme 2)). }
  assert (H3 : exists ok3 p1', (if 2 <? nsets then d_resize 1 (me 3) (b_p1 e) maxBS w else Some (true, b_p1 e)) = Some (ok3, p1') /\
    (ok3 = true -> 2 < nsets -> storage (maxBS * w) p1') /\ (me 3 <> None -> ok3 = true)).
  { destruct (Nat.ltb_spec 2 nsets).
    - destruct (dres (me 3) (b_p1 e) maxBS w Pp1 ltac:(lia) Hw) as (ok3 & p1' & E3 & Q3 & S3 & M3). exists ok3, p1'. split; [exact E3|].
      split; [|exact M3]. intros Hok _. exact (proj2 (proj2 (S3 Hok))).
    - exists true, (b_p1 e). split; [reflexivity|]. split; [lia|reflexivity]. }
  destruct H3 as (ok3 & p1' & E3 & S3 & M3). rewrite E3. cbn [obind].
  destruct ok3; cbn [negb].
  2:{ eexists _, _, _. split; [reflexivity|]. split; [exact (inv_idle oneA oneB S fp tb _ _ HI)|]. split; [discriminate|]. intros Hme. exact (M3 (Hme 3)). }
  cbn [b_frac b_ofs]. rewrite Hf.
  destruct (binarize_set (ims 0) (ks 0) ibs t ph 0 y0' HI ltac:(lia) (S0 eq_refl) (Him 0) (Hk 0)) as (t1 & y0'' & F0 & HI1 & C0). rewrite F0. cbn [obind].
  destruct (binarize_set (ims 1) (ks 1) ibs t1 Idle 1 y1' HI1 ltac:(lia) (S1 eq_refl) (Him 1) (Hk 1)) as (t2 & y1'' & F1 & HI2 & C1). rewrite F1. cbn [obind].
  eexists _, _, _. split; [reflexivity|]. split; [exact HI2|]. split; [|reflexivity]. intros _. split; [reflexivity|]. cbn [b_y0 b_y1 b_p0 b_p1].
  split; [exact C0|]. split; [exact C1|]. split; [exact (proj2 (proj2 (S2 eq_refl)))|exact (S3 eq_refl)].
Qed.
End Bn.
