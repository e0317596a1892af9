(** The penalties and what they add to a gradient. *)
From Coq Require Import Reals Lra Bool.
From Coquelicot Require Import Coquelicot.
From Verif Require Import Base BaseLemmas Workers_Model Kern_Model Kern_Spec Kern_Proofs
  Act_Spec Act_Proofs Loss_Proofs Sum_Model Sum_Spec Sum_Proofs Norm_Model Opt_Model Net_Proofs Net_Proofs3 Rng_Proofs
  La_Model La_Spec La_Proofs La_Proofs2.
Local Open Scope R_scope.

Lemma cov_ext rows V V' i j : (forall r, (r < rows)%nat -> nth (r + rows * i) V 0 = nth (r + rows * i) V' 0) ->
  (forall r, (r < rows)%nat -> nth (r + rows * j) V 0 = nth (r + rows * j) V' 0) -> cov rows V i j = cov rows V' i j.
Proof.
  intros Hi Hj.
  assert (HM : forall c, (forall r, (r < rows)%nat -> nth (r + rows * c) V 0 = nth (r + rows * c) V' 0) -> mean_of rows V c = mean_of rows V' c).
  { intros c Hc. unfold mean_of. rewrite !total_bs. f_equal. apply bs_ext, Hc. }
  rewrite !cov_bs. f_equal. apply bs_ext. intros r Hr. rewrite (HM i Hi), (HM j Hj), Hi, Hj by exact Hr. reflexivity.
Qed.
Lemma mean_ext rows V V' j : (forall r, (r < rows)%nat -> nth (r + rows * j) V 0 = nth (r + rows * j) V' 0) -> mean_of rows V j = mean_of rows V' j.
Proof. intros H. unfold mean_of. rewrite !total_bs. f_equal. apply bs_ext, H. Qed.

Section K.
Context (th : lthr) (pool : list prange).

(** de-meaned values and the triangle of the covariance matrix *)
Lemma demeaned_cov_ok lower ns rows cols V tD tC (post : list R -> list R -> Prop) :
  (0 < rows)%nat -> (0 < cols)%nat -> (rows * cols <= length V)%nat -> (rows * cols <= length tD)%nat -> (cols * cols <= length tC)%nat ->
  (forall dm cv, (rows * cols <= length dm)%nat -> (cols * cols <= length cv)%nat ->
     (forall i j, (i < rows)%nat -> (j < cols)%nat -> nth (i + rows * j) dm 0 = nth (i + rows * j) V 0 - mean_of rows V j) ->
     (forall i j, (i < cols)%nat -> (j < cols)%nat -> in_tri lower i j = true -> nth (i + cols * j) cv 0 = cov rows V i j) ->
     post dm cv) ->
  demeaned_cov th pool lower ns rows cols V tD tC post.
Proof.
  intros Hr Hc HV HD HC HP. unfold demeaned_cov.
  eapply computes_weaken; [|apply copy_ok; assumption].
  intros d1 L1 (_ & E1 & _).
  eapply computes_weaken; [|apply demean_ok; [exact Hr|exact Hc|lia]].
  intros d2 L2 (_ & E2 & _).
  assert (Ed : forall i j, (i < rows)%nat -> (j < cols)%nat -> nth (i + rows * j) d2 0 = nth (i + rows * j) V 0 - mean_of rows V j).
  { intros i j Hi Hj. rewrite E2, E1 by (assumption || nia). rewrite (mean_ext rows d1 V); [reflexivity|]. intros r Hr'. apply E1. nia. }
  destruct (syrk_ok lower cols rows (1 / INR rows) d2 tC) as (cv & Es & Ls & Vs); [lia|exact HC|].
  exists cv. split; [exact Es|]. apply HP; [lia|lia|exact Ed|].
  intros i j Hi Hj Ht. rewrite Vs by assumption. rewrite cov_bs. unfold Rdiv. rewrite Rmult_1_l. f_equal.
  apply bs_ext. intros r Hr'. rewrite !Ed by assumption. reflexivity.
Qed.

Lemma in_triangle lower n r c : In (r, c) (Tri_Spec.triangle lower n) -> (r < n)%nat /\ (c < n)%nat /\ in_tri lower r c = true.
Proof.
  unfold Tri_Spec.triangle. rewrite in_flat_map. intros (c' & Hc & H). apply in_map_iff in H. destruct H as (r' & E & H).
  injection E as -> ->. apply in_seq in Hc. unfold Tri_Spec.column_rows in H. unfold in_tri. destruct lower; apply in_seq in H.
  - split; [lia|]. split; [lia|]. apply Nat.leb_le. lia.
  - split; [lia|]. split; [lia|]. apply Nat.leb_le. lia.
Qed.

Lemma loss_deCov_ok lower ns rows cols V tD tC (post : R -> Prop) :
  (0 < rows)%nat -> (1 < cols)%nat -> Tri_Props.in_range cols ->
  (rows * cols <= length V)%nat -> (rows * cols <= length tD)%nat -> (cols * cols <= length tC)%nat ->
  post (penalty (KDeCov lower ns) rows cols V) -> loss_deCov th pool lower ns rows cols V tD tC post.
Proof.
  intros Hr Hc HR HV HD HC HP. apply demeaned_cov_ok; try assumption; [lia|].
  intros dm cv Ldm Lcv Edm Ecv. eexists. exists (penalty (KDeCov lower ns) rows cols V). split; [|split; [|exact HP]].
  - apply sum_triang_ok; cbn [m_rows m_cols]; [exact HR|reflexivity|exact Lcv|exact Hc].
  - unfold rdiv. destruct (Req_EM_T (INR (cols - 1)) 0) as [E|E]; [exfalso; revert E; apply INR_pos; lia|].
    f_equal. cbn [m_rows].
    assert (ET : triangle_total lower cols (fun r c => entry (mkM cols cols false false cv) r c * entry (mkM cols cols false false cv) r c) =
      triangle_total lower cols (fun r c => cov rows V r c ^ 2)).
    { unfold triangle_total. f_equal. apply map_ext_in. intros [r c] H. cbn [fst snd]. apply in_triangle in H. destruct H as (H1 & H2 & H3).
      unfold entry. cbn [m_rows m_data]. rewrite Ecv by assumption. ring. }
    rewrite ET, triangle_half by (intros; rewrite cov_sym; reflexivity).
    cbn [penalty]. rewrite total_bs.
    rewrite (bs_ext cols (fun i => total cols _) (fun i => bs cols (fun j => if Nat.eqb i j then 0 else cov rows V i j ^ 2)))
      by (intros; apply total_bs).
    unfold Rdiv. ring.
Qed.

(** the gradient of a penalty *)
Definition pen_grad (k : kind) (rows cols : nat) (V : list R) (i : nat) : R :=
  match k with
  | KL1 => sgn (nth i V 0)
  | KL2 => nth i V 0
  | KDeCov _ _ => 2 / INR (rows * cols - rows) * bs cols (fun k => if Nat.eqb k (i / rows) then 0 else
      (nth (i mod rows + rows * k) V 0 - mean_of rows V k) * cov rows V k (i / rows))
  end.

Lemma pen_grad_derive k rows cols V i : (0 < rows)%nat -> (i < rows * cols)%nat -> (rows * cols <= length V)%nat ->
  (k = KL1 -> nth i V 0 <> 0) -> (forall l n, k = KDeCov l n -> (1 < cols)%nat) ->
  is_derive (fun t => penalty k rows cols (setn i t V)) (nth i V 0) (pen_grad k rows cols V i).
Proof.
  intros Hr Hi HV H1 Hd. destruct k as [| |l n]; cbn [pen_grad].
  - apply l1_derive; auto.
  - apply l2_derive; auto.
  - assert (Hm : (i mod rows < rows)%nat) by (apply Nat.mod_upper_bound; lia).
    assert (Hc : (i / rows < cols)%nat) by (apply Nat.div_lt_upper_bound; lia).
    assert (E : i = (i mod rows + rows * (i / rows))%nat) by (pose proof (Nat.div_mod i rows ltac:(lia)); lia).
    pose proof (decov_derive rows cols V (i mod rows) (i / rows) Hm Hc HV l n (Hd l n eq_refl)) as D.
    cbv zeta in D. rewrite <- E in D. exact D.
Qed.

Lemma dLoss_deCov_ok lower ns rows cols V dL tD tC (post : list R -> Prop) :
  (0 < rows)%nat -> (1 < cols)%nat ->
  (rows * cols <= length V)%nat -> (rows * cols <= length dL)%nat -> (rows * cols <= length tD)%nat -> (cols * cols <= length tC)%nat ->
  (forall dL', length dL' = length dL ->
     (forall i, (i < rows * cols)%nat -> nth i dL' 0 = pen_grad (KDeCov lower ns) rows cols V i) -> post dL') ->
  dLoss_deCov th pool lower ns rows cols V dL tD tC post.
Proof.
  intros Hr Hc HV HL HD HC HP. unfold dLoss_deCov.
  eapply computes_weaken; [|apply copy_ok; assumption].
  intros d1 L1 (_ & E1 & _).
  assert (EV : forall r j, (r < rows)%nat -> (j < cols)%nat -> nth (r + rows * j) d1 0 = nth (r + rows * j) V 0).
  { intros r j H1 H2. apply E1. nia. }
  apply demeaned_cov_ok; try assumption; [lia|lia|].
  intros dm cv Ldm Lcv Edm Ecv.
  eapply computes_weaken; [|apply copy_ok; lia].
  intros d2 L2 (_ & E2 & _).
  eapply computes_weaken; [|apply muldiag_ok; lia].
  intros d3 L3 (_ & E3 & _).
  unfold rdiv. destruct (Req_EM_T (INR (rows * cols - rows)) 0) as [E|E]; [exfalso; revert E; apply INR_pos; nia|].
  set (cs := 2 * 1 / INR (rows * cols - rows)).
  destruct (symm_ok lower rows cols cs cv dm (- cs) d3) as (d4 & Es & Ls & Vs); [lia|lia|lia|].
  exists cs, d4. split; [reflexivity|]. split; [exact Es|]. apply HP; [lia|].
  intros i Hi.
  assert (Hm : (i mod rows < rows)%nat) by (apply Nat.mod_upper_bound; lia).
  assert (Hj : (i / rows < cols)%nat) by (apply Nat.div_lt_upper_bound; lia).
  assert (Ei : i = (i mod rows + rows * (i / rows))%nat) by (pose proof (Nat.div_mod i rows ltac:(lia)); lia).
  rewrite Ei at 1. set (m := (i mod rows)%nat) in *. set (c := (i / rows)%nat) in *.
  rewrite Vs, E3, E2 by (assumption || nia). rewrite Edm by assumption.
  cbn [pen_grad]. fold m c.
  assert (EM : forall j, (j < cols)%nat -> mean_of rows d1 j = mean_of rows V j).
  { intros j Hj'. apply mean_ext. intros r H. apply EV; assumption. }
  assert (EC : forall i j, (i < cols)%nat -> (j < cols)%nat -> cov rows d1 i j = cov rows V i j).
  { intros i' j' H1 H2. apply cov_ext; intros r H; apply EV; assumption. }
  rewrite (bs_ext cols _ (fun k => (nth (m + rows * k) V 0 - mean_of rows V k) * cov rows V k c)).
  2: { intros k Hk. rewrite Edm, EV, EM by assumption. f_equal. unfold symm_elem. destruct (in_tri lower k c) eqn:Et.
       - rewrite Ecv, EC by assumption. reflexivity.
       - rewrite Ecv; [rewrite EC by assumption; apply cov_sym|assumption|assumption|].
         unfold in_tri in *. destruct lower; apply Nat.leb_gt in Et; apply Nat.leb_le; lia. }
  rewrite (Ecv c c) by (try assumption; unfold in_tri; destruct lower; apply Nat.leb_refl).
  rewrite EC, EM, EV by assumption.
  replace (bs cols (fun k => (nth (m + rows * k) V 0 - mean_of rows V k) * cov rows V k c)) with
    (bs cols (fun k => if Nat.eqb k c then 0 else (nth (m + rows * k) V 0 - mean_of rows V k) * cov rows V k c) +
     bs cols (fun k => if Nat.eqb k c then (nth (m + rows * k) V 0 - mean_of rows V k) * cov rows V k c else 0)).
  2: { rewrite <- bs_plus. apply bs_ext. intros k Hk. destruct (Nat.eqb k c); ring. }
  rewrite (bs_single cols c (fun k => (nth (m + rows * k) V 0 - mean_of rows V k) * cov rows V k c)) by exact Hj.
  unfold cs. field. exact E.
Qed.

Lemma lossAdd_ok a rows cols V t (post : R -> Prop) : usable a rows cols t -> (rows * cols <= length V)%nat ->
  post (a_scale a * penalty (a_kind a) rows cols V) -> lossAdd th pool a rows cols V t post.
Proof.
  intros (Hr & Hc & HU) HV HP. unfold lossAdd. 
  assert (HF : fits (mkM rows cols false false V) (mkM rows cols false false V)).
  { unfold fits, alloc, numel. cbn [m_rows m_cols m_data]. repeat split; try assumption. nia. }
  destruct (a_kind a) as [| |l n] eqn:E.
  - eexists. split; [apply sum_abs_ok, HF|]. exact HP.
  - eexists. split; [apply sum_squares_ok; [apply HF|exact HV]|].
    replace (a_scale a * / 2 * _) with (a_scale a * penalty KL2 rows cols V); [exact HP|].
    cbn [penalty]. rewrite !total_bs. unfold elem, numel. cbn [m_rows m_cols m_data].
    rewrite Rmult_assoc. do 2 f_equal. apply bs_ext. intros. ring.
  - destruct HU as (H1 & H2 & H3 & H4 & H5). apply loss_deCov_ok; assumption.
Qed.

(** one addendum added to the first elements of a gradient: of [n], the derivative [G] *)
Definition added (a : adn) (G : nat -> R) (D : list R) (i : nat) : R :=
  if a_nz a then if Req_EM_T (nth i D 0) 0 then 0 else nth i D 0 + a_scale a * G i else nth i D 0 + a_scale a * G i.

Lemma append_ok a n D G g : (0 < n)%nat -> (n <= length D)%nat -> (n <= length G)%nat ->
  (forall i, (i < n)%nat -> nth i G 0 = g i) ->
  computes (appendGradient th pool a n D G) D (upto n (added a g D) D).
Proof.
  intros H0 HD HG Hg. unfold appendGradient, added. destruct (a_nz a).
  - apply ew_upto; [exact H0|exact HD|]. intros i Hi. rewrite bget_n by lia. cbn [obind]. rewrite Hg by exact Hi. reflexivity.
  - apply ew_upto; [exact H0|exact HD|]. intros i Hi. rewrite bget_n by lia. cbn [obind]. rewrite Hg by exact Hi. reflexivity.
Qed.
Lemma appendSign_ok a n D G : (0 < n)%nat -> (n <= length D)%nat -> (n <= length G)%nat ->
  computes (appendGradientSign th pool a n D G) D (upto n (added a (fun i => sgn (nth i G 0)) D) D).
Proof.
  intros H0 HD HG. unfold appendGradientSign, added. destruct (a_nz a).
  - apply ew_upto; [exact H0|exact HD|]. intros i Hi. rewrite bget_n by lia. reflexivity.
  - apply ew_upto; [exact H0|exact HD|]. intros i Hi. rewrite bget_n by lia. reflexivity.
Qed.

(** the matrix stored by on_fprop *)
Definition stored (a : adn) (rows cols : nat) (V : list R) : Prop :=
  (rows * cols <= length (a_mtx a))%nat /\
  forall i, (i < rows * cols)%nat -> nth i (a_mtx a) 0 = pen_grad (a_kind a) rows cols V i.

Lemma dLossAdd_fp a rows cols V V0 D t : a_fp a = true -> (0 < rows)%nat -> (0 < cols)%nat -> (rows * cols <= length D)%nat -> stored a rows cols V0 ->
  forall post : list R -> Prop, (forall D', upto (rows * cols) (added a (pen_grad (a_kind a) rows cols V0) D) D D' -> post D') ->
  dLossAdd th pool a rows cols V D t post.
Proof.
  intros Hf Hr Hc HD [HM1 HM2] post HP. unfold dLossAdd. rewrite Hf.
  eapply computes_weaken; [intros D' _; apply HP|]. apply append_ok; [nia|exact HD|exact HM1|exact HM2].
Qed.
Lemma dLossAdd_ok a rows cols V D t : a_fp a = false -> usable a rows cols t -> (rows * cols <= length V)%nat -> (rows * cols <= length D)%nat ->
  forall post : list R -> Prop, (forall D', upto (rows * cols) (added a (pen_grad (a_kind a) rows cols V) D) D D' -> post D') ->
  dLossAdd th pool a rows cols V D t post.
Proof.
  intros Hf (Hr & Hc & HU) HV HD post HP. unfold dLossAdd. rewrite Hf.
  assert (H0 : (0 < rows * cols)%nat) by nia.
  destruct (a_kind a) as [| |l n] eqn:E.
  - eapply computes_weaken; [intros D' _; apply HP|]. apply appendSign_ok; assumption.
  - eapply computes_weaken; [intros D' _; apply HP|]. apply append_ok; auto.
  - destruct HU as (H1 & H2 & H3 & H4 & H5). apply dLoss_deCov_ok; try assumption.
    intros dL' HL Hg. eapply computes_weaken; [intros D' _; apply HP|].
    apply append_ok; [exact H0|exact HD|lia|exact Hg].
Qed.

Lemma on_fprop_ok a rows cols V t (post : adn -> Prop) : usable a rows cols t -> (rows * cols <= length V)%nat -> (rows * cols <= length (a_mtx a))%nat ->
  (forall M, stored (mkA (a_kind a) (a_scale a) (a_fp a) (a_nz a) M) rows cols V -> length M = length (a_mtx a) ->
     post (mkA (a_kind a) (a_scale a) (a_fp a) (a_nz a) M)) ->
  on_fprop th pool a rows cols V t post.
Proof.
  intros (Hr & Hc & HU) HV HM HP. unfold on_fprop. split; [exact HM|]. cbv zeta.
  assert (H0 : (0 < rows * cols)%nat) by nia.
  destruct (a_kind a) as [| |l n] eqn:E.
  - eapply computes_weaken; [|apply (ew_upto pool (t_sign th) (rows * cols) _ (fun i => sgn (nth i V 0))); [exact H0|exact HM|]].
    + intros M HL (_ & HE & _). apply HP; [|exact HL]. split; [cbn [a_mtx]; lia|exact HE].
    + intros i Hi. rewrite bget_n by lia. reflexivity.
  - eapply computes_weaken; [|apply copy_ok; [exact HM|exact HV]].
    intros M HL (_ & HE & _). apply HP; [|exact HL]. split; [cbn [a_mtx]; lia|exact HE].
  - destruct HU as (H1 & H2 & H3 & H4 & H5). apply dLoss_deCov_ok; try assumption.
    intros M HL HE. apply HP; [|exact HL]. split; [cbn [a_mtx]; lia|exact HE].
Qed.

(** ** Weights *)
Lemma visible_shown ib cols : visible ib cols = shown ib cols.
Proof. unfold visible, shown. destruct ib; cbn; lia. Qed.

Lemma shown_le ib rows cols : (rows * shown ib cols <= rows * cols)%nat.
Proof. unfold shown. nia. Qed.

Lemma gw_value las rows cols W t : (forall a ib, In (a, ib) las -> enabled a = true -> usable a rows (shown ib cols) t) ->
  (rows * cols <= length W)%nat ->
  forall ret (post : R -> Prop), post (ret + reg_value las rows cols W) -> gw_lossAddendum th pool las rows cols W t ret post.
Proof.
  intros HU HW. induction las as [|[a ib] las IH]; intros ret post HP.
  - cbn [gw_lossAddendum]. replace ret with (ret + reg_value [] rows cols W); [exact HP|]. unfold reg_value. cbn. ring.
  - cbn [gw_lossAddendum].
    assert (HE : reg_value ((a, ib) :: las) rows cols W =
      a_scale a * penalty (a_kind a) rows (shown ib cols) W + reg_value las rows cols W) by reflexivity.
    rewrite HE in HP.
    assert (HU' : forall a ib, In (a, ib) las -> enabled a = true -> usable a rows (shown ib cols) t) by (intros; apply HU; [right|]; assumption).
    specialize (IH HU').
    destruct (enabled a) eqn:Ea.
    + rewrite visible_shown. pose proof (shown_le ib rows cols). apply lossAdd_ok; [apply HU; [left; reflexivity|exact Ea]|lia|].
      apply IH. rewrite Rplus_assoc. exact HP.
    + apply IH. unfold enabled in Ea. destruct (Req_EM_T 0 (a_scale a)) as [E|]; [|discriminate Ea].
      rewrite <- E, Rmult_0_l, Rplus_0_l in HP. exact HP.
Qed.

Lemma reg_cons a ib las rows cols W : reg_value ((a, ib) :: las) rows cols W =
  a_scale a * penalty (a_kind a) rows (shown ib cols) W + reg_value las rows cols W.
Proof. reflexivity. Qed.

Lemma gw_gradient las rows cols W t : (0 < rows)%nat ->
  (forall a ib, In (a, ib) las -> enabled a = true -> usable a rows (shown ib cols) t /\ a_fp a = false /\ a_nz a = false) ->
  length W = (rows * cols)%nat ->
  forall D, (rows * cols <= length D)%nat ->
  forall post : list R -> Prop, (forall D', length D' = length D -> (forall i, (rows * cols <= i)%nat -> nth i D' 0 = nth i D 0) ->
    (forall i, (i < rows * cols)%nat ->
      (forall a ib, In (a, ib) las -> enabled a = true -> (i < rows * shown ib cols)%nat -> regular a (nth i W 0)) ->
      is_derive (fun x => reg_value las rows cols (setn i x W)) (nth i W 0) (nth i D' 0 - nth i D 0)) -> post D') ->
  gw_apply th pool las rows cols W D t post.
Proof.
  intros Hr HU HW. induction las as [|[a ib] las IH]; intros D HD post HP.
  - cbn [gw_apply]. apply HP; [reflexivity|reflexivity|]. intros i Hi _. 
    apply (d_ext (fun _ => 0)); [reflexivity|]. eapply d_eq; [apply d_const|ring].
  - cbn [gw_apply].
    assert (HU' : forall a ib, In (a, ib) las -> enabled a = true -> usable a rows (shown ib cols) t /\ a_fp a = false /\ a_nz a = false)
      by (intros; apply HU; [right|]; assumption).
    specialize (IH HU'). pose proof (shown_le ib rows cols) as HS.
    destruct (enabled a) eqn:Ea.
    + rewrite visible_shown. destruct (HU a ib (or_introl eq_refl) Ea) as (Ua & Fa & Na).
      apply dLossAdd_ok; [exact Fa|exact Ua|lia|lia|].
      intros D1 (L1 & E1 & O1). apply IH; [lia|]. intros D2 L2 O2 E2. apply HP; [lia| |].
      * intros i Hi. rewrite O2, O1 by lia. reflexivity.
      * intros i Hi HR.
        apply (d_ext (fun x => a_scale a * penalty (a_kind a) rows (shown ib cols) (setn i x W) + reg_value las rows cols (setn i x W)));
          [intros x; rewrite reg_cons; reflexivity|].
        assert (H2 : is_derive (fun x => reg_value las rows cols (setn i x W)) (nth i W 0) (nth i D2 0 - nth i D1 0)).
        { apply E2; [exact Hi|]. intros a' ib' HI. apply HR. right. exact HI. }
        destruct (Nat.lt_ge_cases i (rows * shown ib cols)) as [Hlt|Hge].
        -- eapply d_eq; [apply d_plus; [apply d_mult; [apply d_const|apply pen_grad_derive]|exact H2]|].
           ++ exact Hr.
           ++ exact Hlt.
           ++ lia.
           ++ apply (HR a ib (or_introl eq_refl) Ea Hlt).
           ++ intros l n Ek. destruct Ua as (_ & _ & Ud). rewrite Ek in Ud. apply Ud.
           ++ cbv beta. rewrite (E1 i Hlt). unfold added. rewrite Na. ring.
        -- eapply d_eq; [apply d_plus; [apply d_mult; [apply d_const|apply penalty_out]|exact H2]|].
           ++ lia.
           ++ exact Hge.
           ++ cbv beta. rewrite (O1 i Hge). ring.
    + apply IH; [exact HD|]. intros D' L' O' E'. apply HP; [exact L'|exact O'|]. intros i Hi HR.
      unfold enabled in Ea. destruct (Req_EM_T 0 (a_scale a)) as [E|]; [|discriminate Ea].
      apply (d_ext (fun x => reg_value las rows cols (setn i x W))).
      * intros x. rewrite reg_cons, <- E. ring.
      * apply E'; [exact Hi|]. intros a' ib' HI. apply HR. right. exact HI.
Qed.
End K.
