(** What the layers of a network see. *)
From Coq Require Import Reals Lra Permutation.
From Verif Require Import Base BaseLemmas Act_Model Act_Spec Loss_Proofs Smx_Model Smx_Spec TData_Model TData_Spec
  Net_Model Net_Spec Net_Proofs Net_Proofs2 Net_Proofs3 Net_Proofs4 Net_Proofs5 Nrm_Model Nrm_Spec Nrm_Proofs
  Fit_Model Fit_Spec Fit_Proofs Fit_Proofs2 Lsu_Model Lsu_Spec.
Local Open Scope nat_scope.
Notation slice := Net_Model.slice.

Definition ids (l : layer) : list nat := map f_id (fcl l).
Definition sids (s : stack) : list nat := map f_id (sfcl s).
Definition hids (h : hpack) : list nat := map f_id (hfcl h).

(** ** Lists *)
Fixpoint before (id : nat) (L : list nat) : list nat :=
  match L with [] => [] | j :: L => if j =? id then [] else j :: before id L end.
Lemma before_in id L L' : In id L -> before id (L ++ L') = before id L.
Proof.
  induction L as [|j L IH]; [contradiction|]. cbn [before app]. destruct (Nat.eqb_spec j id); [reflexivity|]. intros [Q|Q]; [contradiction|]. rewrite IH by exact Q. reflexivity.
Qed.
Lemma before_out id L L' : ~ In id L -> before id (L ++ L') = L ++ before id L'.
Proof.
  induction L as [|j L IH]; [reflexivity|]. cbn [before app In]. intros H. destruct (Nat.eqb_spec j id); [tauto|]. rewrite IH by tauto. reflexivity.
Qed.
Lemma nodup_app {T} (a b : list T) : NoDup (a ++ b) -> NoDup a /\ NoDup b /\ forall v, In v a -> ~ In v b.
Proof.
  induction a as [|v a IH]; intros H; [split; [constructor|]; split; [exact H|]; intros v Q; destruct Q|].
  cbn [app] in H. inversion H as [|? ? H1 H2]; subst. destruct (IH H2) as (A1 & A2 & A3). split; [constructor; [|exact A1]; intros Q; apply H1; apply in_or_app; auto|].
  split; [exact A2|]. intros w [<-|Q]; [intros Q; apply H1; apply in_or_app; auto|auto].
Qed.
Lemma flat_map_nil {A C} (f : A -> list C) l : (forall x, In x l -> f x = []) -> flat_map f l = [].
Proof. induction l as [|x l IH]; intros H; [reflexivity|]. cbn [flat_map]. rewrite H by (left; reflexivity). apply IH. intros; apply H; right; assumption. Qed.
Lemma flat_map_ext_in {A C} (f g : A -> list C) l : (forall x, In x l -> f x = g x) -> flat_map f l = flat_map g l.
Proof. induction l as [|x l IH]; intros H; [reflexivity|]. cbn [flat_map]. rewrite H by (left; reflexivity). rewrite IH; [reflexivity|]. intros; apply H; right; assumption. Qed.
Lemma flat_map_flat_map {A C D} (f : A -> list C) (g : C -> list D) l : flat_map g (flat_map f l) = flat_map (fun x => flat_map g (f x)) l.
Proof. induction l as [|x l IH]; [reflexivity|]. cbn [flat_map]. rewrite flat_map_app, IH. reflexivity. Qed.
Lemma flat_map_perm_in {A C} (f g : A -> list C) l : (forall x, In x l -> Permutation (f x) (g x)) -> Permutation (flat_map f l) (flat_map g l).
Proof. induction l as [|x l IH]; intros H; [constructor|]. cbn [flat_map]. apply Permutation_app; [apply H; left; reflexivity|]. apply IH. intros; apply H; right; assumption. Qed.
Lemma flat_map_split {A C} (f g : A -> list C) l : Permutation (flat_map (fun x => f x ++ g x) l) (flat_map f l ++ flat_map g l).
Proof.
  induction l as [|x l IH]; [constructor|]. cbn [flat_map]. rewrite <- !app_assoc. apply Permutation_app_head. rewrite IH.
  rewrite !app_assoc. apply Permutation_app_tail. apply Permutation_app_comm.
Qed.
Lemma flat_map_swap {A C D} (f : A -> C -> list D) l : forall l', Permutation (flat_map (fun x => flat_map (f x) l') l) (flat_map (fun y => flat_map (fun x => f x y) l) l').
Proof.
  induction l as [|x l IH]; intros l'; cbn [flat_map].
  - rewrite flat_map_nil; [constructor|reflexivity].
  - rewrite IH. symmetry. apply flat_map_split.
Qed.
(** rows of a tall matrix, tile by tile *)
Lemma seq_tiles {C} (f : nat -> list C) m k : flat_map f (seq 0 (k * m)) = flat_map (fun t => flat_map (fun r => f (t * m + r)) (seq 0 m)) (seq 0 k).
Proof.
  induction k as [|k IH]; [reflexivity|]. rewrite seq_S, flat_map_app, <- IH. cbn [flat_map Nat.add]. rewrite app_nil_r.
  replace (Datatypes.S k * m) with (k * m + m) by lia. rewrite seq_app, flat_map_app. f_equal. cbn [Nat.add].
  clear IH. generalize (k * m) as a. intros a. rewrite (flat_map_concat_map f), (flat_map_concat_map (fun r => f (a + r))). f_equal.
  revert a. induction m as [|m IH]; intros a; [reflexivity|]. cbn [seq map]. rewrite Nat.add_0_r. f_equal. rewrite IH.
  rewrite <- seq_shift, map_map. apply map_ext. intros r. f_equal. lia.
Qed.

(** ** Replacing activations and weights *)
Definition tweak := nat -> act -> list R -> act * list R.
Fixpoint tw (g : tweak) (l : layer) : layer :=
  match l with
  | LFC id a inc n W G A => LFC id (fst (g id a W)) inc n (snd (g id a W)) G A
  | LI n A => LI n A
  | LPV s => LPV (stw g s)
  | LPH inc h b1 b2 => LPH inc (htw g h) b1 b2
  | LPT k l inn A => LPT k (tw g l) inn A
  end
with stw (g : tweak) (s : stack) : stack :=
  match s with SOne l => SOne (tw g l) | SCons l b => SCons (tw g l) (stw g b) end
with htw (g : tweak) (h : hpack) : hpack :=
  match h with HNil => HNil | HCons ofs cnt l h => HCons ofs cnt (tw g l) (htw g h) end.

Lemma with_w_tw f : (forall l, with_w f l = tw (fun i a W => (a, f i W)) l) /\ (forall s, swith_w f s = stw (fun i a W => (a, f i W)) s) /\
  (forall h, hwith_w f h = htw (fun i a W => (a, f i W)) h).
Proof. apply layers_ind; intros; simpl; rewrite ?H, ?H0; reflexivity. Qed.
Definition lin (id : nat) : tweak := fun i a W => ((if i =? id then Identity else a), W).
Lemma linear_tw id : (forall l, linear id l = tw (lin id) l) /\ (forall s, slinear id s = stw (lin id) s) /\ (forall h, hlinear id h = htw (lin id) h).
Proof. apply layers_ind; intros; simpl; rewrite ?H, ?H0; reflexivity. Qed.

Lemma tw_ids g : (forall l, ids (tw g l) = ids l) /\ (forall s, sids (stw g s) = sids s) /\ (forall h, hids (htw g h) = hids h).
Proof.
  unfold ids, sids, hids. apply layers_ind; intros; simpl; rewrite ?map_app, ?H, ?H0; reflexivity.
Qed.
Lemma tw_id g : (forall l, (forall j a W, In j (ids l) -> g j a W = (a, W)) -> tw g l = l) /\
  (forall s, (forall j a W, In j (sids s) -> g j a W = (a, W)) -> stw g s = s) /\
  (forall h, (forall j a W, In j (hids h) -> g j a W = (a, W)) -> htw g h = h).
Proof.
  unfold ids, sids, hids. apply layers_ind; simpl.
  - intros id a inc n W G A H. rewrite H by auto. reflexivity.
  - reflexivity.
  - intros s IH H. rewrite IH by exact H. reflexivity.
  - intros inc h IH b1 b2 H. rewrite IH by exact H. reflexivity.
  - intros k l IH inn A H. rewrite IH by exact H. reflexivity.
  - intros l IH H. rewrite IH by exact H. reflexivity.
  - intros l IH b IHb H. rewrite IH, IHb; [reflexivity| |]; intros; apply H; rewrite map_app; apply in_or_app; auto.
  - reflexivity.
  - intros o c l IH h IHh H. rewrite IH, IHh; [reflexivity| |]; intros; apply H; rewrite map_app; apply in_or_app; auto.
Qed.
Lemma tw_dims g : (forall l, neurons (tw g l) = neurons l /\ incoming (tw g l) = incoming l) /\
  (forall s, sneurons (stw g s) = sneurons s /\ sincoming (stw g s) = sincoming s) /\ (forall h, hneurons (htw g h) = hneurons h).
Proof.
  apply layers_ind; intros; simpl; auto.
  - destruct H as [-> ->]. auto.
  - destruct H as [H1 H2], H0 as [H3 H4]. auto.
  - destruct H as [-> _]. rewrite H0. reflexivity.
Qed.

(** ** Inputs *)
Lemma inputs_nil id : (forall l v, ~ In id (ids l) -> inputs id l v = []) /\ (forall s v, ~ In id (sids s) -> sinputs id s v = []) /\
  (forall h v, ~ In id (hids h) -> hinputs id h v = []).
Proof.
  unfold ids, sids, hids. apply layers_ind; simpl.
  - intros i a inc n W G A v H. destruct (Nat.eqb_spec i id); tauto.
  - reflexivity.
  - intros s IH v H. apply IH, H.
  - intros inc h IH b1 b2 v H. apply IH, H.
  - intros k l IH inn A v H. apply flat_map_nil. intros t _. apply IH, H.
  - intros l IH v H. apply IH, H.
  - intros l IH b IHb v H. rewrite map_app, in_app_iff in H. rewrite IHb, IH by tauto. reflexivity.
  - reflexivity.
  - intros o c l IH h IHh v H. rewrite map_app, in_app_iff in H. rewrite IHh, IH by tauto. reflexivity.
Qed.

Lemma tw_inputs g id : (forall l v, NoDup (ids l) -> (forall j a W, In j (before id (ids l)) -> g j a W = (a, W)) -> inputs id (tw g l) v = inputs id l v) /\
  (forall s v, NoDup (sids s) -> (forall j a W, In j (before id (sids s)) -> g j a W = (a, W)) -> sinputs id (stw g s) v = sinputs id s v) /\
  (forall h v, NoDup (hids h) -> (forall j a W, In j (before id (hids h)) -> g j a W = (a, W)) -> hinputs id (htw g h) v = hinputs id h v).
Proof.
  destruct (inputs_nil id) as (N1 & N2 & N3). destruct (tw_ids g) as (D1 & D2 & D3). destruct (tw_id g) as (I1 & I2 & I3). destruct (tw_dims g) as (M1 & M2 & M3).
  apply layers_ind.
  - reflexivity.
  - reflexivity.
  - intros s IH v HN H. apply (IH v HN H).
  - intros inc h IH b1 b2 v HN H. apply (IH v HN H).
  - intros k l IH inn A v HN H. cbn [tw inputs]. rewrite (proj2 (M1 l)). apply flat_map_ext_in. intros t _. apply (IH _ HN H).
  - intros l IH v HN H. apply (IH v HN H).
  - intros l IH b IHb v HN H. assert (E : sids (SCons l b) = sids b ++ ids l) by (unfold sids, ids; simpl; apply map_app).
    rewrite E in HN, H. destruct (nodup_app _ _ HN) as (A1 & A2 & A3). cbn [stw sinputs].
    destruct (in_dec Nat.eq_dec id (sids b)) as [Q|Q].
    + rewrite before_in in H by exact Q. rewrite IHb by assumption. rewrite !N1; [reflexivity| |]; rewrite ?D1; apply A3, Q.
    + rewrite before_out in H by exact Q. rewrite !N2; [|exact Q|rewrite D2; exact Q].
      rewrite I2 by (intros; apply H; apply in_or_app; auto). cbn [app]. apply IH; [exact A2|]. intros; apply H; apply in_or_app; auto.
  - reflexivity.
  - intros o c l IH h IHh v HN H. assert (E : hids (HCons o c l h) = ids l ++ hids h) by (unfold hids, ids; simpl; apply map_app).
    rewrite E in HN, H. destruct (nodup_app _ _ HN) as (A1 & A2 & A3). cbn [htw hinputs].
    destruct (in_dec Nat.eq_dec id (ids l)) as [Q|Q].
    + rewrite before_in in H by exact Q. rewrite IH by assumption. rewrite !N3; [reflexivity| |]; rewrite ?D3; apply A3, Q.
    + rewrite before_out in H by exact Q. rewrite !N1; [|exact Q|rewrite D1; exact Q].
      cbn [app]. apply IHh; [exact A2|]. intros; apply H; apply in_or_app; auto.
Qed.

Lemma inputs_plain id : (forall l v, inputs id (plain l) v = inputs id l v) /\ (forall s v, sinputs id (splain s) v = sinputs id s v) /\ (forall h v, hinputs id (hplain h) v = hinputs id h v).
Proof.
  destruct incoming_plain as (I1 & I2 & _). destruct out_plain as (_ & O2 & _).
  apply layers_ind; intros; simpl; auto; rewrite ?H, ?H0, ?O2; auto. rewrite I1. apply flat_map_ext_in. intros t _. apply H.
Qed.
Lemma inputs_some id : (forall l v, wf l -> In id (ids l) -> inputs id l v <> []) /\ (forall s v, swf s -> In id (sids s) -> sinputs id s v <> []) /\
  (forall h v inc, hwf inc h -> In id (hids h) -> hinputs id h v <> []).
Proof.
  unfold ids, sids, hids. apply layers_ind; simpl.
  - intros i a inc n W G A v _ [->|[]]. rewrite Nat.eqb_refl. discriminate.
  - intros n A v _ [].
  - intros s IH v H Q. apply IH; assumption.
  - intros inc h IH b1 b2 v [_ H] Q. apply (IH v inc); assumption.
  - intros k l IH inn A v [Hk H] Q. destruct k as [|k]; [lia|]. cbn [seq flat_map]. intros E. apply app_eq_nil in E. destruct E as [E _]. revert E. apply IH; assumption.
  - intros l IH v H Q. apply IH; assumption.
  - intros l IH b IHb v (H1 & H2 & _) Q E. rewrite map_app, in_app_iff in Q. apply app_eq_nil in E. destruct E as [E1 E2].
    destruct Q as [Q|Q]; [exact (IHb v H2 Q E1)|exact (IH _ H1 Q E2)].
  - intros v inc _ [].
  - intros o c l IH h IHh v inc (H1 & _ & _ & H2) Q E. rewrite map_app, in_app_iff in Q. apply app_eq_nil in E. destruct E as [E1 E2].
    destruct Q as [Q|Q]; [exact (IH _ H1 Q E1)|exact (IHh v inc H2 Q E2)].
Qed.

(** ** Activations after a forward propagation *)
Definition fvals (a : act) (inc n : nat) (W : list R) (us : list (list R)) (c : nat) : list R := map (fun u => act_f a (zed n inc W u c)) us.
(** the columns of the activations of a layer are the values of its neurons *)
Definition shows (F : fc) (us : list (list R)) : Prop :=
  exists mm, length (f_A F) = mm * f_n F /\ length us = mm /\
    forall c, c < f_n F -> Permutation (slice (mm * c) mm (f_A F)) (fvals (f_act F) (f_inc F) (f_n F) (f_W F) us c).
Lemma shows_perm F us us' : Permutation us us' -> shows F us -> shows F us'.
Proof.
  intros H (mm & H1 & H2 & H3). exists mm. split; [exact H1|]. split; [rewrite <- H2; symmetry; apply Permutation_length, H|]. intros c Hc. rewrite (H3 c Hc). apply Permutation_map, H.
Qed.

Lemma col_rows m n A c : c < n -> length A = m * n -> slice (m * c) m A = map (fun r => nth c (row m n r A) 0%R) (seq 0 m).
Proof.
  intros Hc HA. apply nth_ext0.
  - rewrite map_length, seq_length. apply slice_length. nia.
  - intros q Hq. rewrite slice_length in Hq by nia. rewrite nth_slice by exact Hq. rewrite (nth_map_seq (fun r => nth c (row m n r A) 0%R)) by exact Hq.
    rewrite nth_row by exact Hc. f_equal. lia.
Qed.

Lemma acts_inputs : (forall l m B, wf l -> length B = m * incoming l -> ready m B l -> NoDup (ids l) ->
    forall F, In F (fcl l) -> shows F (flat_map (fun r => inputs (f_id F) l (row m (incoming l) r B)) (seq 0 m))) /\
  (forall s m B, swf s -> length B = m * sincoming s -> sready m B s -> NoDup (sids s) ->
    forall F, In F (sfcl s) -> shows F (flat_map (fun r => sinputs (f_id F) s (row m (sincoming s) r B)) (seq 0 m))) /\
  (forall h m B inc, hwf inc h -> length B = m * inc -> hready m B h -> NoDup (hids h) ->
    forall F, In F (hfcl h) -> shows F (flat_map (fun r => hinputs (f_id F) h (row m inc r B)) (seq 0 m))).
Proof.
  destruct fval_length as (L1 & L2 & L3). destruct fval_row as (R1 & R2 & R3). 
  apply layers_ind.
  - intros id a inc n W G A m B (H1 & H2 & H3 & H4) HB HR _ F [<-|[]]. cbn [ready fval incoming] in *. unfold shows. cbn [f_id f_A f_act f_inc f_n f_W].
    assert (E : flat_map (fun r => inputs id (LFC id a inc n W G A) (row m inc r B)) (seq 0 m) = map (fun r => row m inc r B) (seq 0 m)).
    { cbn [inputs]. rewrite Nat.eqb_refl. rewrite flat_map_concat_map. induction (seq 0 m) as [|r l IH]; [reflexivity|]. cbn [map concat]. rewrite IH. reflexivity. }
    rewrite E. assert (HL : length A = m * n) by (rewrite HR, map_length, gemm_length; reflexivity).
    exists m. split; [exact HL|]. split; [rewrite map_length, seq_length; reflexivity|]. intros c Hc.
    rewrite (col_rows m n A c Hc HL). unfold fvals. rewrite map_map.
    apply Permutation_refl'. apply map_ext_in. intros r Hr. apply in_seq in Hr. rewrite HR, fc_row by (assumption || lia).
    rewrite (nth_map_seq (fun c => act_f a (zed n inc W (row m inc r B) c))) by exact Hc. reflexivity.
  - intros n A m B _ _ _ _ F [].
  - intros s IH m B H HB HR HN F HF. apply (IH m B H HB HR HN F HF).
  - intros inc h IH b1 b2 m B [_ H] HB HR HN F HF. apply (IH m B inc H HB HR HN F HF).
  - intros k l IH inn A m B [Hk H] HB (HR1 & HR2 & HR3) HN F HF. subst inn.
    assert (HL : length (roll m (incoming l) k B) = k * m * incoming l) by (rewrite roll_length; lia).
    specialize (IH (k * m) (roll m (incoming l) k B) H HL HR3 HN F HF). revert IH. apply shows_perm.
    cbn [inputs incoming]. rewrite seq_tiles. rewrite (flat_map_swap (fun r t => inputs (f_id F) l (slice (t * incoming l) (incoming l) (row m (k * incoming l) r B)))).
    apply flat_map_perm_in. intros t Ht. apply in_seq in Ht. apply Permutation_refl'. apply flat_map_ext_in. intros r Hr. apply in_seq in Hr.
    rewrite row_roll by lia. reflexivity.
  - intros l IH m B H HB HR HN F HF. apply (IH m B H HB HR HN F HF).
  - intros l IH b IHb m B (H1 & H2 & H3) HB HR HN F HF. assert (E : sids (SCons l b) = sids b ++ ids l) by (unfold sids, ids; simpl; apply map_app).
    rewrite E in HN. destruct (nodup_app _ _ HN) as (A1 & A2 & A3). cbn [sready sincoming sfcl] in *. destruct HR as (HR1 & HR2).
    apply in_app_or in HF. destruct HF as [HF|HF].
    + assert (Q : In (f_id F) (sids b)) by (apply in_map; exact HF).
      specialize (IHb m B H2 HB ltac:(assumption) A1 F HF). revert IHb. apply shows_perm. apply Permutation_refl'. apply flat_map_ext_in. intros r Hr.
      cbn [sinputs]. rewrite (proj1 (inputs_nil (f_id F)) l) by (apply A3, Q). symmetry. apply app_nil_r.
    + assert (Q : In (f_id F) (ids l)) by (apply in_map; exact HF).
      assert (Q' : ~ In (f_id F) (sids b)) by (intros Q'; exact (A3 _ Q' Q)).
      assert (HL : length (sval m B b) = m * incoming l) by (rewrite H3; apply L2; assumption).
      specialize (IH m (sval m B b) H1 HL ltac:(assumption) A2 F HF). revert IH. apply shows_perm. apply Permutation_refl'. apply flat_map_ext_in. intros r Hr. apply in_seq in Hr.
      cbn [sinputs]. rewrite (proj1 (proj2 (inputs_nil (f_id F))) b) by exact Q'. cbn [app]. f_equal. rewrite H3. apply R2; try assumption. lia.
  - intros m B inc _ _ _ _ F [].
  - intros o c l IH h IHh m B inc (H1 & H2 & H3 & H4) HB HR HN F HF. assert (E : hids (HCons o c l h) = ids l ++ hids h) by (unfold hids, ids; simpl; apply map_app).
    rewrite E in HN. destruct (nodup_app _ _ HN) as (A1 & A2 & A3). cbn [hready hfcl] in *. destruct HR as (HR1 & HR2).
    apply in_app_or in HF. destruct HF as [HF|HF].
    + assert (Q : In (f_id F) (ids l)) by (apply in_map; exact HF).
      assert (Hs : length (slice (m * o) (m * c) B) = m * incoming l) by (rewrite H2; apply slice_length; nia).
      specialize (IH m _ H1 Hs HR1 A1 F HF). revert IH. apply shows_perm. apply Permutation_refl'. apply flat_map_ext_in. intros r Hr. apply in_seq in Hr.
      cbn [hinputs]. rewrite (proj2 (proj2 (inputs_nil (f_id F))) h) by (apply A3, Q). rewrite app_nil_r. f_equal. rewrite H2. apply row_slice; try assumption; lia.
    + assert (Q : In (f_id F) (hids h)) by (apply in_map; exact HF).
      assert (Q' : ~ In (f_id F) (ids l)) by (intros Q'; exact (A3 _ Q' Q)).
      specialize (IHh m B inc H4 HB HR2 A2 F HF). revert IHh. apply shows_perm. apply Permutation_refl'. apply flat_map_ext_in. intros r Hr.
      cbn [hinputs]. rewrite (proj1 (inputs_nil (f_id F)) l) by exact Q'. reflexivity.
Qed.
