(** The one-hot evaluator. *)
From Coq Require Import Permutation.
From Verif Require Import Base BaseLemmas Workers_Model Kern_Model Kern_Spec Kern_Proofs IdxMax_Model IdxMax_Spec IdxMax_Proofs
  MKern_Model MKern_Spec Smx_Model Smx_Spec Smx_Proofs Smx_Proofs2 TData_Model TData_Spec TData_Proofs TData_Proofs2 TData_Proofs3 TData_Proofs4 TData_Proofs5
  Util_Proofs Ev_Model Ev_Spec Ev_Proofs Ev_Proofs2 Ev_Proofs3.

Lemma vresize_length (l : list nat) m : length (vresize l m) = m.
Proof. unfold vresize. rewrite app_length, firstn_length, repeat_length. lia. Qed.

Section Ho.
Context {A B : Type} (oneA : A) (gt : B -> B -> bool) (HG : total_gt gt) (th : thrs) (Hth : 0 < th_cpt th).
Context (S : sets A B) (HC : coherent oneA S) (HY : s_bir (y0 S) = false) (maxBS : nat).
Notation w := (yWidth S).

Definition classes (l : list nat) (lo m : nat) (P : nat -> nat -> B) : Prop :=
  forall i, i < m -> exists j, nth_error l (lo + i) = Some j /\ is_argmax gt w (P i) j.

Lemma idxmax_at k (y : smx B) (dest : list nat) ofs m P : mth_ok k -> roomy maxBS k -> 0 < m <= maxBS -> activations y m w P ->
  ofs + m <= length dest ->
  exists d, mrwIdxsOfMax_at gt th k y dest ofs = Some d /\ length d = length dest /\ classes d ofs m P /\
    forall i, i < ofs -> nth_error d i = nth_error dest i.
Proof.
  intros Hk Hroom Hm (A1 & A2 & A3 & (A40 & A41 & l & Hl & Hln) & A5) Hd. pose proof (w_pos oneA S HC HY) as Hw.
  unfold mrwIdxsOfMax_at. rewrite (as_mtx_some y l Hl). cbn [obind]. destruct (Nat.ltb_spec ofs (length dest)); [|lia]. cbn [guard obind].
  set (ym := mkM (s_rows y) (s_cols y) (s_bias y) (s_bir y) l).
  assert (HR : ready ym (k_tmp k) (skipn ofs dest) (th_cpt th) (k_pool k)).
  { split; [exact Hln|]. cbn [ym m_rows m_cols]. rewrite A1, A2, skipn_length. split; [lia|]. split; [lia|]. split; [lia|]. split; [exact Hth|].
    split; [apply Hk|]. unfold roomy in Hroom.
    assert (howMuchThreads (th_cpt th) w (length (k_pool k)) <= length (k_pool k) + 1).
    { unfold howMuchThreads. destruct (Nat.ltb_spec ((w + th_cpt th - 1) / th_cpt th) (length (k_pool k) + 1)); lia. }
    eapply Nat.le_trans; [|exact Hroom]. apply Nat.mul_le_mono; lia. }
  destruct (run_idxmax_ok gt th k ym (skipn ofs dest) _ Hk (idxs_of_max_is_max gt HG (th_max th) (th_maxRows th) (th_cpt th) (k_pool k) ym (k_tmp k) (skipn ofs dest) HR))
    as (d' & E & HL & H1 & _).
  rewrite E. cbn [obind]. eexists. split; [reflexivity|]. rewrite skipn_length in HL. split; [rewrite app_length, firstn_length; lia|]. split.
  - intros i Hi. destruct (H1 i) as (j & Ej & Hjm); [cbn [ym m_rows]; lia|]. exists j. split.
    + rewrite nth_error_app2; rewrite firstn_length; [|lia]. replace (ofs + i - Nat.min ofs (length dest)) with i by lia. exact Ej.
    + destruct Hjm as (Hj & v & Ev & Hv). cbn [ym m_cols] in Hj, Hv. rewrite A2 in Hj, Hv.
      assert (Hg : forall j, j < w -> mget ym i j = Some (P i j)).
      { intros q Hq. unfold ym. rewrite (cell_mget y l) by exact Hl. apply A5; [exact Hi|exact Hq]. }
      rewrite (Hg j Hj) in Ev. injection Ev as <-. split; [exact Hj|]. intros q Hq. destruct (Hv q Hq) as (x & Ex & Hx). rewrite (Hg q Hq) in Ex. injection Ex as <-. exact Hx.
  - intros i Hi. rewrite nth_error_app1 by (rewrite firstn_length; lia). apply firstn_nth. exact Hi.
Qed.

Context (fp nsets : nat) (Yf : nat -> nat -> nat -> B).
Implicit Types (e : hev).
Notation N id := (cnt S id).
Notation n id := (Nat.min fp (cnt S id)).
Context (L0 L1 : list nat).
Definition L id := if id =? 0 then L0 else L1.
Context (HL : forall id, id < 2 -> shown (N id) (n id) <= length (L id)).

Definition EIh e : Prop := h_y0 e = L0 /\ h_y1 e = L1.
Definition goodh (id lo m : nat) (P : nat -> nat -> B) (c : nat) : Prop :=
  exists p, (forall i, lo <= i < lo + m -> is_argmax gt w (P i) (p i)) /\
    c = tally (fun i => p (lo + i) =? nth (lo + i) (L id) 0) m.
Definition xgoodh (m : nat) (P Y : nat -> nat -> B) (c : nat) : Prop :=
  exists p q, (forall i, i < m -> is_argmax gt w (P i) (p i)) /\ (forall i, i < m -> is_argmax gt w (Y i) (q i)) /\
    c = tally (fun i => p i =? q i) m.

Lemma corr_h k e id lo m P y a : EIh e -> h_ofs e = lo -> mth_ok k -> roomy maxBS k -> id < 2 -> 0 < m <= maxBS ->
  lo + m <= shown (N id) (n id) ->
  activations y m w (fun i => Yf id (lo + i)) -> activations a m w (fun i => P (lo + i)) ->
  exists c e', hev_correct gt th k e id y a = Some (c, e') /\ EIh e' /\ h_ofs e' = lo + m /\ goodh id lo m P c.
Proof.
  intros [H0 H1] Ho Hk Hroom Hid Hm Hlo _ Ha. unfold hev_correct.
  assert (Hra : s_rows a = m) by apply Ha. rewrite Hra.
  destruct (idxmax_at k a (vresize (h_p0 e) m) 0 m (fun i => P (lo + i)) Hk Hroom Hm Ha) as (d & E & HLd & Hc & _).
  { rewrite vresize_length. lia. }
  rewrite E. cbn [obind]. destruct (Nat.leb_spec id 1); [|lia]. rewrite vresize_length in HLd.
  replace (if id =? 0 then h_y0 e else h_y1 e) with (L id) by (unfold L; destruct (id =? 0); congruence).
  pose proof (HL id Hid) as HLi. rewrite vCountSame_ok by lia. cbn [obind]. eexists _, _. split; [reflexivity|]. split; [split; assumption|].
  split; [cbn [h_ofs]; lia|]. exists (fun i => nth (i - lo) d 0). split.
  - intros i Hi. destruct (Hc (i - lo)) as (j & Ej & Hj); [lia|]. cbn [Nat.add] in Ej. rewrite (nth_error_nth _ _ _ Ej).
    replace (lo + (i - lo)) with i in Hj by lia. exact Hj.
  - rewrite HLd. apply tally_ext. intros i Hi. unfold same. rewrite Ho.
    destruct (bget_lt (L id) (lo + i)) as (x & Ex); [lia|]. destruct (bget_lt d i) as (z & Ez); [lia|]. rewrite Ex, Ez.
    rewrite (nth_error_nth (L id) (lo + i) 0 Ex). replace (lo + i - lo) with i by lia. rewrite (nth_error_nth d i 0 Ez). apply Nat.eqb_sym.
Qed.

Lemma extra_h k e id m P Y y a : EIh e -> 2 <= id -> 2 < nsets -> extra_batch S maxBS (k, a, y) m P Y ->
  exists c e', hev_correct gt th k e id y a = Some (c, e') /\ EIh e' /\ xgoodh m P Y c.
Proof.
  intros [H0 H1] Hid _ (Hk & Hroom & Hm & Ha & Hy). unfold hev_correct.
  assert (Hra : s_rows a = m) by apply Ha. assert (Hry : s_rows y = m) by apply Hy. rewrite Hra, Hry.
  destruct (idxmax_at k a (vresize (h_p0 e) m) 0 m P Hk Hroom Hm Ha) as (d & E & HLd & Hc & _). { rewrite vresize_length. lia. }
  rewrite E. cbn [obind]. destruct (Nat.leb_spec id 1); [lia|]. rewrite vresize_length in HLd.
  destruct (idxmax_at k y (vresize (h_p1 e) m) 0 m Y Hk Hroom Hm Hy) as (d1 & E1 & HLd1 & Hc1 & _). { rewrite vresize_length. lia. }
  rewrite E1. cbn [obind]. rewrite vresize_length in HLd1. rewrite vCountSame_ok by lia. cbn [obind].
  eexists _, _. split; [reflexivity|]. split; [split; assumption|]. exists (fun i => nth i d 0), (fun i => nth i d1 0).
  assert (K : forall (d : list nat) P, classes d 0 m P -> forall i, i < m -> is_argmax gt w (P i) (nth i d 0)).
  { intros dd PP HH i Hi. destruct (HH i Hi) as (j & Ej & Hj). cbn [Nat.add] in Ej. rewrite (nth_error_nth _ _ _ Ej). exact Hj. }
  split; [apply K; exact Hc|]. split; [apply K; exact Hc1|].
  rewrite HLd. apply tally_ext. intros i Hi. unfold same. cbn [Nat.add].
  destruct (bget_lt d1 i) as (x & Ex); [lia|]. destruct (bget_lt d i) as (z & Ez); [lia|]. rewrite Ex, Ez.
  rewrite (nth_error_nth d1 i 0 Ex), (nth_error_nth d i 0 Ez). apply Nat.eqb_sym.
Qed.

Lemma prep_h e : EIh e -> EIh (hev_prepare e) /\ h_ofs (hev_prepare e) = 0.
Proof. intros H. split; [exact H|reflexivity]. Qed.
Lemma total_h (y : smx B) m f : activations y m w f -> hev_total y = m * 1.
Proof. intros (<- & _). unfold hev_total. lia. Qed.
Lemma good0_h id P : goodh id 0 0 P 0.
Proof. exists (fun _ => 0). split; [lia|reflexivity]. Qed.
Lemma goodS_h id lo m P c1 c2 : goodh id 0 lo P c1 -> goodh id lo m P c2 -> goodh id 0 (lo + m) P (c1 + c2).
Proof.
  intros (p & Hp & ->) (q & Hq & ->). exists (fun i => if i <? lo then p i else q i). split.
  - intros i Hi. destruct (Nat.ltb_spec i lo); [apply Hp|apply Hq]; lia.
  - rewrite tally_app. cbn [Nat.add]. f_equal; apply tally_ext; intros i Hi.
    + destruct (Nat.ltb_spec i lo); [reflexivity|lia].
    + destruct (Nat.ltb_spec (lo + i) lo); [lia|reflexivity].
Qed.
End Ho.

Section Hi.
Context {A B : Type} (oneA : A) (oneB : B) (gt : B -> B -> bool) (HG : total_gt gt) (th : thrs) (Hth : 0 < th_cpt th).
Context (S : sets A B) (fp tb : nat) (HC : coherent oneA S).
Context (HY : s_bir (y0 S) = false) (maxBS nsets : nat) (Yf : nat -> nat -> nat -> B).
Context (HT : forall id, id < 2 -> truth (set_y S id) (Yf id)).
Notation tds := (tds A B). Notation imath := (imath A B). Notation mth := (mth B).
Implicit Types (t : tds) (e : hev).
Notation I := (Inv oneA oneB S fp tb).
Notation N id := (cnt S id).
Notation n id := (Nat.min fp (cnt S id)).
Notation w := (yWidth S).
Context (Hbs : forall id, id < 2 -> n id <= maxBS).

Lemma max_set (ims : nat -> imath) (ks : nat -> mth) ibs t ph id dest : I t ph -> id < 2 -> length dest = N id ->
  (forall b, im_ok (ims b)) -> (forall b, mth_ok (ks b) /\ roomy maxBS (ks b)) ->
  exists t' l, maxYOfDataset oneA gt th ims ks ibs S t id dest = Some (t', l) /\ I t' Idle /\ length l = N id /\
    classes gt S l 0 (shown (N id) (n id)) (Yf id).
Proof.
  intros HI Hid Hd Him Hk. unfold maxYOfDataset.
  destruct (walk_begin oneA oneB S fp tb HC t ph id ibs 1 HI Hid) as (t1 & E1 & HI1). rewrite E1. cbn [obind].
  pose proof (cnt_pos oneA S HC id Hid) as Hp. pose proof (inv_fp oneA oneB S fp tb t ph HI) as Hfp.
  assert (Hn : 0 < n id <= N id) by lia.
  match goal with |- context[for_loop 0 ?q ?body ?s] =>
    destruct (for_loop_inv (fun k '(t, rOfs, d) => I t (Walking id (n id) 1 k) /\ rOfs = Nat.min (n id * k) (N id) /\ length d = N id /\
      classes gt S d 0 rOfs (Yf id)) 0 q body s)
      as ([[t2 r2] d2] & E3 & H3) end.
  - split; [exact HI1|]. rewrite Nat.mul_0_r. split; [reflexivity|]. split; [exact Hd|]. intros i Hi. lia.
  - intros k [[t2 r2] d2] Hkk (HI2 & -> & HL2 & HD2).
    destruct (subset_next oneA oneB S fp tb HC t2 id (n id) 1 k (ims k) HI2 (Him k)) as (t3 & E3 & HI3 & _ & Hy); [lia|].
    cbn [Nat.eqb] in Hy. destruct Hy as (y & Ey & Hy). rewrite E3. cbn [obind]. rewrite Ey. cbn [obind].
    destruct (piece (N id) (n id) k Hn) as (P1 & P2 & P3 & P4); [lia|]. cbv zeta in P1, P2, P3.
    rewrite slice_piece in Hy. set (m := Nat.min (n id) (N id - n id * k)) in *.
    assert (Hay : activations y m w (fun i => Yf id (n id * k + i))).
    { apply (held_y oneA oneB S HC HY id); [exact Hid|apply HT; exact Hid|unfold m; lia|exact Hy]. }
    rewrite Nat.min_l in HD2 |- * by lia.
    destruct (Hk k) as [Hk1 Hk2]. pose proof (Hbs id Hid) as HB.
    destruct (idxmax_at oneA gt HG th Hth S HC HY maxBS (ks k) y d2 (n id * k) m _ Hk1 Hk2 ltac:(unfold m in *; lia) Hay) as (d3 & E4 & HL3 & Hc3 & Hk3).
    { rewrite HL2. unfold m. lia. }
    rewrite E4. cbn [obind]. eexists. split; [reflexivity|]. split; [exact HI3|]. destruct Hay as (A1 & _). split; [rewrite A1; lia|].
    split; [lia|]. rewrite A1. intros i Hi. cbn [Nat.add]. destruct (Nat.lt_ge_cases i (n id * k)) as [Hlt|Hge].
    + rewrite (Hk3 i Hlt). apply (HD2 i Hlt).
    + destruct (Hc3 (i - n id * k)) as (j & Ej & Hj); [lia|]. replace (n id * k + (i - n id * k)) with i in Ej, Hj by lia. exists j. auto.
  - rewrite E3. cbn [obind]. destruct H3 as (HI3 & Hr & HL & HD). exists t2, d2. split; [reflexivity|]. split; [exact (inv_idle oneA oneB S fp tb _ _ HI3)|].
    rewrite Nat.add_0_l, (last_piece (N id) (n id) Hn) in Hr. rewrite <- Hr. auto.
Qed.

Lemma init_h mem ims ks ibs t ph e : I t ph ->
  (forall i b, im_ok (ims i b)) -> (forall i b, mth_ok (ks i b) /\ roomy maxBS (ks i b)) ->
  exists t' e', hev_init oneA gt th mem ims ks ibs maxBS nsets S t e = Some (mem, t', e') /\ I t' Idle /\
    (mem = true -> (forall id, id < 2 -> length (L (h_y0 e') (h_y1 e') id) = N id /\
                      classes gt S (L (h_y0 e') (h_y1 e') id) 0 (shown (N id) (n id)) (Yf id))).
Proof.
  intros HI Him Hk. pose proof (inv_fp oneA oneB S fp tb t ph HI) as Hfp.
  unfold hev_init. change (dataset_samples_count S 0) with (Some (N 0)). change (dataset_samples_count S 1) with (Some (N 1)). cbn [obind].
  assert (HM : (max_vec_len <? Z.of_nat (Nat.max (N 0) (N 1)))%Z = false).
  { destruct HC as (_ & _ & _ & _ & _ & _ & M0 & M1). apply Z.ltb_ge. unfold cnt, set_x. cbn [Nat.eqb]. lia. }
  rewrite HM. destruct mem; cbn [negb].
  - destruct (max_set (ims 0) (ks 0) ibs t ph 0 (vresize (h_y0 e) (N 0)) HI ltac:(lia) (vresize_length _ _) (Him 0) (Hk 0)) as (t1 & l0 & F0 & HI1 & HL0 & C0).
    rewrite F0. cbn [obind].
    destruct (max_set (ims 1) (ks 1) ibs t1 Idle 1 (vresize (h_y1 e) (N 1)) HI1 ltac:(lia) (vresize_length _ _) (Him 1) (Hk 1)) as (t2 & l1 & F1 & HI2 & HL1 & C1).
    rewrite F1. cbn [obind]. eexists _, _. split; [reflexivity|]. split; [exact HI2|]. intros _ id Hid. cbn [h_y0 h_y1].
    destruct id as [|[|]]; [exact (conj HL0 C0)|exact (conj HL1 C1)|lia].
  - eexists _, _. split; [reflexivity|]. split; [exact (inv_idle oneA oneB S fp tb _ _ HI)|]. discriminate.
Qed.
End Hi.
