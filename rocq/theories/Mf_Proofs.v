(** Saving. *)
From Coq Require Import String List.
From Verif Require Import Base BaseLemmas Smx_Model Mf_Model Mf_Spec.
Import ListNotations.

Scheme item_mind := Induction for item Sort Prop
  with items_mind := Induction for items Sort Prop.
Combined Scheme item_items_ind from item_mind, items_mind.

Definition cont s : fields := match a_stk s with [] => a_file s | e :: _ => e_fs e end.
(** Nothing else than the current container (and the name, the error, the counter) may differ *)
Definition below s s' : Prop :=
  a_open s' = a_open s /\ a_rd s' = a_rd s /\ a_nest s' = a_nest s /\
  match a_stk s, a_stk s' with
  | [], [] => True
  | e :: st, e' :: st' => st' = st /\ e_alias e' = e_alias e /\ a_file s' = a_file s
  | _, _ => False
  end.
Lemma below_refl s : below s s.
Proof. unfold below. destruct (a_stk s); auto 10. Qed.
Lemma below_trans a b c : below a b -> below b c -> below a c.
Proof.
  intros (H1 & H2 & H3 & H4) (G1 & G2 & G3 & G4). unfold below. split; [congruence|]. split; [congruence|]. split; [congruence|].
  destruct (a_stk a), (a_stk b), (a_stk c); try contradiction; auto. destruct H4 as (? & ? & ?), G4 as (? & ? & ?). split; [congruence|split; congruence].
Qed.
Lemma below_same s s' : a_open s' = a_open s -> a_rd s' = a_rd s -> a_nest s' = a_nest s -> a_stk s' = a_stk s -> a_file s' = a_file s -> below s s'.
Proof. intros H1 H2 H3 H4 H5. unfold below. rewrite H4. destruct (a_stk s); auto 10. Qed.

Lemma is_ok_iff e : is_ok e = true <-> e = Success.
Proof. destruct e; cbn; split; congruence. Qed.
Lemma note_err_ok s e : a_err (note_err s e) = Success <-> e = Success /\ a_err s = Success.
Proof. unfold note_err. destruct e; cbn; split; try tauto; try (intros [H _]; discriminate); discriminate. Qed.
Lemma note_err_name s e : a_name (note_err s e) = a_name s.
Proof. unfold note_err. destruct (is_ok e); reflexivity. Qed.
Lemma note_err_below s e : below s (note_err s e) /\ cont (note_err s e) = cont s.
Proof. unfold note_err. destruct (is_ok e); split; try reflexivity; apply below_same; reflexivity. Qed.

Section W.
Context (ok : nat -> bool).

Lemma save_to_spec v n s : a_name s = Some n ->
  let '(ec, s') := save_to ok v s in
  below s s' /\ a_err s' = a_err s /\
  (ec = Success -> a_name s' = None /\ cont s' = store n v (cont s)) /\
  ((forall k, ok k = true) -> ec = Success).
Proof.
  intros Hn. unfold save_to, cont. rewrite Hn. destruct (a_stk s) as [|e st] eqn:Es.
  - destruct (ok (a_calls s)) eqn:Eo.
    + split; [unfold below; cbn; rewrite Es; auto|]. split; [reflexivity|]. split; [|auto]. intros _. split; [reflexivity|]. cbn. rewrite Es. reflexivity.
    + split; [apply below_same; reflexivity|]. split; [reflexivity|]. split; [discriminate|]. intros H. congruence.
  - destruct (lookup n (e_fs e)).
    + split; [unfold below; cbn; rewrite Es; cbn; auto 10|]. split; [reflexivity|]. split; [|auto]. intros _. split; reflexivity.
    + destruct (ok (a_calls s)) eqn:Eo.
      * split; [unfold below; cbn; rewrite Es; cbn; auto 10|]. split; [reflexivity|]. split; [|auto]. intros _. split; reflexivity.
      * split; [apply below_same; reflexivity|]. split; [reflexivity|]. split; [discriminate|]. intros H. congruence.
Qed.

Lemma save_var_spec k r c d n s : a_open s = true -> a_name s = Some n ->
  let s' := save_var ok k r c d s in
  below s s' /\ (a_err s' = Success -> a_err s = Success /\ a_name s' = None /\ cont s' = store n (Num k r c d) (cont s)) /\
  ((forall k, ok k = true) -> a_err s = Success -> a_err s' = Success).
Proof.
  intros Ho Hn. unfold save_var. rewrite Ho, Hn. destruct (ok (a_calls s)) eqn:Eo.
  - pose proof (save_to_spec (Num k r c d) n (tick s) Hn) as H. destruct (save_to ok (Num k r c d) (tick s)) as [ec s1].
    destruct H as (H1 & H2 & H3 & H4). cbn zeta. destruct (note_err_below s1 ec) as [N1 N2]. split.
    + eapply below_trans; [|exact N1]. eapply below_trans; [|exact H1]. apply below_same; reflexivity.
    + split.
      * intros He. apply note_err_ok in He. destruct He as [-> He]. rewrite H2 in He. destruct (H3 eq_refl) as [Ha Hb].
        split; [exact He|]. split; [exact Ha|]. exact Hb.
      * intros Hall He. apply note_err_ok. split; [apply H4; exact Hall|]. rewrite H2. exact He.
  - cbn zeta. split; [apply below_same; reflexivity|]. split; [discriminate|]. intros H. rewrite H in Eo. discriminate.
Qed.

Lemma save_value_spec v n s : a_open s = true -> a_name s = Some n -> has_data v ->
  exists s', save_value ok v s = Some s' /\
  below s s' /\ (a_err s' = Success -> a_err s = Success /\ a_name s' = None /\ cont s' = store n (mx_val v) (cont s)) /\
  ((forall k, ok k = true) -> a_err s = Success -> a_err s' = Success).
Proof.
  intros Ho Hn Hd. destruct v as [k z|k m]; cbn [save_value mx_val].
  - eexists. split; [reflexivity|]. apply save_var_spec; assumption.
  - cbn in Hd. destruct (s_data m) as [l|]; [|congruence]. cbn [obind]. eexists. split; [reflexivity|]. apply save_var_spec; assumption.
Qed.

Definition okst s : Prop := a_open s = true /\ (a_err s = Success -> a_name s = None).

Lemma save_spec :
  (forall i, item_ok i -> forall s, okst s -> exists s', save_item ok i s = Some s' /\
     below s s' /\ okst s' /\
     (a_err s' = Success -> a_err s = Success /\ cont s' = store (iname i) (mx_item i) (cont s)) /\
     ((forall k, ok k = true) -> a_err s = Success -> a_err s' = Success)) /\
  (forall l, items_ok l -> forall s, okst s -> exists s', save_items ok l s = Some s' /\
     below s s' /\ okst s' /\
     (a_err s' = Success -> a_err s = Success /\ cont s' = put_all l (cont s)) /\
     ((forall k, ok k = true) -> a_err s = Success -> a_err s' = Success)).
Proof.
  apply item_items_ind.
  - intros n v Hv s [Ho Hn]. cbn [save_item]. destruct (is_ok (a_err s)) eqn:Ee; cbn [negb].
    2:{ exists s. split; [reflexivity|]. split; [apply below_refl|]. split; [split; assumption|].
        split; intros H; [apply is_ok_iff in H; congruence|]. intros H'. apply is_ok_iff in H'. congruence. }
    apply is_ok_iff in Ee. rewrite Ho, (Hn Ee).
    destruct (save_value_spec v n (with_name s (Some n)) Ho eq_refl Hv) as (s' & E & H1 & H2 & H3).
    exists s'. split; [exact E|]. split; [eapply below_trans; [|exact H1]; apply below_same; reflexivity|].
    split.
    { split; [destruct H1 as (H1 & _); rewrite H1; exact Ho|]. intros He. apply H2. exact He. }
    split; [|exact H3]. intros He. destruct (H2 He) as (Ha & _ & Hb). split; [exact Ha|exact Hb].
  - intros n l IH Hl s [Ho Hn]. cbn [save_item]. destruct (is_ok (a_err s)) eqn:Ee; cbn [negb].
    2:{ exists s. split; [reflexivity|]. split; [apply below_refl|]. split; [split; assumption|].
        split; intros H; [apply is_ok_iff in H; congruence|]. intros H'. apply is_ok_iff in H'. congruence. }
    apply is_ok_iff in Ee. rewrite Ho, (Hn Ee). destruct (ok (a_calls s)) eqn:Eo.
    2:{ eexists. split; [reflexivity|]. split; [apply below_same; reflexivity|]. split; [split; [exact Ho|discriminate]|].
        split; [discriminate|]. intros H. rewrite H in Eo. discriminate. }
    destruct (IH Hl (with_stk (tick s) (mkE [] false :: a_stk s))) as (s1 & E1 & B1 & O1 & H1 & G1).
    { split; [exact Ho|exact Hn]. }
    fold (save_items ok) in *. rewrite E1. cbn [obind].
    destruct B1 as (B1 & B2 & B3 & B4). cbn [with_stk tick a_stk] in B4. destruct (a_stk s1) as [|e1 st1] eqn:Es1; [contradiction|].
    destruct B4 as (-> & _ & Bf).
    pose proof (save_to_spec (Str (e_fs e1)) n (with_name (with_stk s1 (a_stk s)) (Some n)) eq_refl) as HS.
    destruct (save_to ok (Str (e_fs e1)) (with_name (with_stk s1 (a_stk s)) (Some n))) as [ec s2].
    destruct HS as (S1 & S2 & S3 & S4). eexists. split; [reflexivity|].
    destruct (note_err_below s2 ec) as [N1 N2].
    assert (BB : below s (with_name (with_stk s1 (a_stk s)) (Some n))).
    { unfold below. cbn. rewrite B1, B2, B3. destruct (a_stk s); auto 10. }
    assert (BA : below s (note_err s2 ec)).
    { eapply below_trans; [exact BB|]. eapply below_trans; [exact S1|exact N1]. }
    split; [exact BA|].
    split.
    { split; [destruct BA as (BA & _); rewrite BA; exact Ho|]. intros He. apply note_err_ok in He. destruct He as [-> He].
      rewrite note_err_name. apply S3. reflexivity. }
    split.
    { intros He. apply note_err_ok in He. destruct He as [-> He]. rewrite S2 in He. cbn in He. split; [exact Ee|].
      destruct (S3 eq_refl) as [_ Sc]. rewrite N2, Sc. destruct (H1 He) as [_ Hc]. unfold cont in Hc. rewrite Es1 in Hc. cbn [with_stk a_stk e_fs] in Hc.
      cbn [iname mx_item]. fold put_all. rewrite <- Hc. f_equal.
      unfold cont. cbn. rewrite Bf. reflexivity. }
    { intros Hall _. apply note_err_ok. split; [apply S4; exact Hall|]. rewrite S2. cbn. apply G1; [exact Hall|exact Ee]. }
  - intros _ s Hs. exists s. split; [reflexivity|]. split; [apply below_refl|]. split; [exact Hs|]. split; auto.
  - intros i IHi l IHl [Hi Hl] s Hs. destruct (IHi Hi s Hs) as (s1 & E1 & B1 & O1 & H1 & G1).
    destruct (IHl Hl s1 O1) as (s2 & E2 & B2 & O2 & H2 & G2).
    exists s2. change (save_items ok (icons i l) s) with (obind (save_item ok i s) (save_items ok l)). rewrite E1. cbn [obind]. split; [exact E2|]. split; [eapply below_trans; eassumption|]. split; [exact O2|].
    split.
    + intros He. destruct (H2 He) as [He1 Hc2]. destruct (H1 He1) as [He0 Hc1]. split; [exact He0|]. cbn [put_all]. rewrite <- Hc1. exact Hc2.
    + intros Hall He. apply G2; [exact Hall|]. apply G1; assumption.
Qed.

(** C128 *)
Theorem save_complete rd f l : items_ok l ->
  exists s', save_items ok l (opened rd f) = Some s' /\
  (a_err s' = Success -> a_file s' = put_all l f /\ a_stk s' = [] /\ a_name s' = None) /\
  ((forall k, ok k = true) -> a_err s' = Success).
Proof.
  intros Hl. destruct save_spec as [_ H]. destruct (H l Hl (opened rd f)) as (s' & E & B & O & H1 & G).
  { split; reflexivity. }
  exists s'. split; [exact E|]. split; [|intros Ha; apply G; [exact Ha|reflexivity]].
  intros He. destruct (H1 He) as [_ Hc]. destruct B as (_ & _ & _ & B). cbn in B. unfold cont in Hc.
  destruct (a_stk s'); [|contradiction]. split; [exact Hc|]. split; [reflexivity|]. apply O. exact He.
Qed.
End W.
