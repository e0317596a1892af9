(** Lemmas about gradient application: the calls compute elementwise maps. *)
From Coq Require Import Reals Lra Lia.
From Verif Require Import Base BaseLemmas Workers_Model Workers_Spec Kern_Model Kern_Spec Kern_Proofs
  IdxMax_Model IdxMax_Spec Priv_Model Priv_Proofs Act_Spec Sfm_Spec Sfm_Proofs Norm_Model Norm_Spec Norm_Proofs Opt_Model.

Fixpoint chain (fs : list cf) (c : cell) : option cell :=
  match fs with [] => Some c | f :: fs => do c' <- f c; chain fs c' end.

Definition inr (p : prange) (i : nat) : Prop := r_ofs p <= i < r_ofs p + r_cnt p.

Lemma each_ok f p m : (forall i, inr p i -> exists c c', bget m i = Some c /\ f c = Some c') ->
  runs (inr p) (each f p) m (fun m' => forall i, inr p i -> exists c c', bget m i = Some c /\ f c = Some c' /\ bget m' i = Some c').
Proof.
  intros H. unfold each. eapply runs_conseq.
  - apply runs_mfor with (I := fun k m' => forall i, inr p i ->
      if i <? k then exists c c', bget m i = Some c /\ f c = Some c' /\ bget m' i = Some c' else bget m' i = bget m i).
    + intros i Hi. destruct (Nat.ltb_spec i (r_ofs p)); [destruct Hi; lia|reflexivity].
    + intros i m1 Hi Hl HI. destruct (H i Hi) as (c & c' & Hc & Hf).
      assert (Hb : bget m1 i = Some c).
      { specialize (HI i Hi). rewrite Nat.ltb_irrefl in HI. congruence. }
      apply runs_eq with (k' := mset i c'); [rewrite Hb; cbn [obind]; rewrite Hf; reflexivity|].
      apply runs_mset; [apply bget_some_lt in Hb; exact Hb|exact Hi|].
      intros m' _ Hv Ho j Hj. destruct (Nat.ltb_spec j (S i)).
      * destruct (Nat.eq_dec j i) as [->|]; [eauto|]. rewrite Ho by assumption. specialize (HI j Hj).
        destruct (Nat.ltb_spec j i); [exact HI|lia].
      * rewrite Ho by lia. specialize (HI j Hj). destruct (Nat.ltb_spec j i); [lia|exact HI].
  - cbv beta. intros m' _ HI i Hi. specialize (HI i Hi). destruct (Nat.ltb_spec i (r_ofs p + r_cnt p)); [exact HI|destruct Hi; lia].
Qed.

Lemma passes_ok fs p : forall m, (forall i, inr p i -> exists c c', bget m i = Some c /\ chain fs c = Some c') ->
  runs (inr p) (passes fs p) m (fun m' => forall i, inr p i -> exists c c', bget m i = Some c /\ chain fs c = Some c' /\ bget m' i = Some c').
Proof.
  induction fs as [|f fs IH]; intros m H; cbn [passes fold_right].
  - apply runs_skip. intros i Hi. destruct (H i Hi) as (c & c' & Hc & Hf). cbn in *. exists c, c'. split; [exact Hc|]. split; [exact Hf|]. congruence.
  - eapply runs_seq; [apply each_ok|].
    + intros i Hi. destruct (H i Hi) as (c & c' & Hc & Hf). cbn [chain] in Hf. destruct (f c) as [c1|] eqn:E; [|discriminate]. eauto.
    + cbv beta. intros m1 _ H1. eapply runs_conseq; [apply IH|].
      * intros i Hi. destruct (H1 i Hi) as (c & c1 & Hc & Hf & Hc1). destruct (H i Hi) as (c0 & c' & Hc0 & Hf').
        cbn [chain] in Hf'. assert (c0 = c) by congruence. subst. rewrite Hf in Hf'. cbn [obind] in Hf'. eauto.
      * cbv beta. intros m2 _ H2 i Hi. destruct (H2 i Hi) as (c1 & c' & Hc1 & Hf & Hc').
        destruct (H1 i Hi) as (c & c1' & Hc & Hf1 & Hc1'). assert (c1' = c1) by congruence. subst.
        exists c, c'. cbn [chain]. rewrite Hf1. cbn [obind]. auto.
Qed.

Lemma pcall_ok parts fs s (F : cell -> cell) (post : st -> Prop) : tiles parts (length (s_cells s)) ->
  (forall c, In c (s_cells s) -> chain fs c = Some (F c)) -> post (cmap F s) -> pcall parts fs s post.
Proof.
  intros HT HF HP. unfold pcall. set (d := s_cells s) in *.
  assert (Hr : forall p i, In p parts -> inr p i -> i < length d).
  { intros p i Hp Hi. pose proof (tiles_bound parts _ p HT Hp). destruct Hi. lia. }
  eapply computes_ppar with (own := inr).
  - intros p Hp. apply passes_ok. intros i Hi. pose proof (Hr p i Hp Hi) as Hlt.
    destruct (bget_lt d i Hlt) as (c & Hc). exists c, (F c). split; [exact Hc|]. apply HF. eapply nth_error_In. exact Hc.
  - intros i j pi pj a Hn Hi Hj H1 H2. exact (tiles_nth_disjoint parts _ i j pi pj a HT Hn Hi Hj H1 H2).
  - cbv beta. intros d' Hl Hd _. assert (E : d' = map F d).
    { apply list_eq_bget. intros i. destruct (Nat.lt_ge_cases i (length d)) as [Hlt|Hge].
      - destruct (tiles_find parts _ i HT Hlt) as (p & Hp & Hi). destruct (Hd p Hp) as (mp & _ & Hm & Ho).
        rewrite (Ho i Hi). destruct (Hm i Hi) as (c & c' & Hc & Hch & Hc'). rewrite Hc'.
        rewrite (HF c) in Hch by (eapply nth_error_In; exact Hc). unfold bget in *. rewrite nth_error_map, Hc. cbn. congruence.
      - unfold bget. rewrite !(proj2 (nth_error_None _ _)); [reflexivity|rewrite map_length; lia|lia]. }
    subst d'. exact HP.
Qed.

Lemma parts_of_tiles pool thr n : 0 < n -> tiles (parts_of pool thr n) n.
Proof. intros H. unfold parts_of. destruct (_ <? _); [apply whole_tiles; exact H|apply run_ranges_tiles; exact H]. Qed.

Definition nonempty (s : st) : Prop := 0 < length (s_cells s).

Lemma kcall_ok e k fs s (F : cell -> cell) (post : st -> Prop) : nonempty s ->
  (forall c, In c (s_cells s) -> chain fs c = Some (F c)) -> post (cmap F s) -> kcall e k fs s post.
Proof. intros Hn HF HP. apply pcall_ok with (F := F); [apply parts_of_tiles; exact Hn|exact HF|exact HP]. Qed.

(** one loop whose body cannot fail *)
Lemma kcall_total e k (F : cell -> cell) s (post : st -> Prop) : nonempty s -> post (cmap F s) ->
  kcall e k [fun c => Some (F c)] s post.
Proof. intros Hn HP. apply kcall_ok with (F := F); [exact Hn|reflexivity|exact HP]. Qed.

Lemma kcall_bt_ok e k b1 b2 f s (F : cell -> cell) (post : st -> Prop) : nonempty s ->
  (forall c, In c (s_cells s) -> f (s_b1t s * b1)%R (s_b2t s * b2)%R c = Some (F c)) ->
  post (with_bt (cmap F s) (s_b1t s * b1)%R (s_b2t s * b2)%R) -> kcall_bt e k b1 b2 f s post.
Proof.
  intros Hn HF HP. unfold kcall_bt. cbv zeta. destruct (_ <? _); (apply pcall_ok with (F := F); [|intros c Hc; cbn in *; rewrite HF by exact Hc; reflexivity|exact HP]).
  - apply whole_tiles. exact Hn.
  - apply run_ranges_tiles. exact Hn.
Qed.

(** what apply_ILR does to one weight, whichever variant *)
Definition F_ilr (k : ilr) (vel : bool) (tmp : bool) (c : cell) : cell :=
  let cond := (prev vel c * cD c)%R in
  let g := (cG c * ilr_mul k cond (cG c))%R in
  upD (upG (if tmp then upT c cond else c) g) (cD c * g)%R.

Lemma apply_ILR_ok e k vel s (post : st -> Prop) : nonempty s ->
  (forall tmp, post (cmap (F_ilr k vel tmp) s)) -> apply_ILR e k vel s post.
Proof.
  intros Hn HP. unfold apply_ILR. cbv zeta.
  assert (Hv : forall c, chain [f_ilr1 vel; f_ilr2 k; f_ilr3] c = Some (F_ilr k vel true c)).
  { intros c. cbn. unfold F_ilr, upG, upT, upD. cbn. destruct vel; cbn; [rewrite (Rmult_comm (cD c) (cV c))|rewrite (Rmult_comm (cD c) (cP c))]; reflexivity. }
  assert (Hs : forall c, chain [f_ilr k vel] c = Some (F_ilr k vel false c)) by reflexivity.
  destruct (_ <? _); [destruct (_ <=? _)|destruct (_ || _)%bool];
    (eapply pcall_ok; [first [apply whole_tiles|apply run_ranges_tiles]; exact Hn|intros c _; first [apply Hv|apply Hs]|apply HP]).
Qed.

Lemma cmap_length f s : length (s_cells (cmap f s)) = length (s_cells s).
Proof. apply map_length. Qed.
Lemma cmap_ne f s : nonempty s -> nonempty (cmap f s).
Proof. unfold nonempty. rewrite cmap_length. trivial. Qed.

Lemma zip_length up s v : length v = length (s_cells s) -> length (s_cells (zip up s v)) = length (s_cells s).
Proof. intros H. unfold zip. cbn. rewrite map_length, combine_length. lia. Qed.
