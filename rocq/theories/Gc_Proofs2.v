(** Gradient check: one check. *)
From Coq Require Import Reals Permutation.
From Verif Require Import Base BaseLemmas TData_Model TData_Spec TData_Proofs2 Gc_Model Gc_Spec Gc_Proofs.
Local Open Scope nat_scope.

(** ** Positions in the network *)
Definition at_ls (m : nat) (ls : glist) (m' : nat) (l : glayer) : Prop := exists t, in_glist t ls /\ inside m t m' l.
Lemma at_nil m m' l : ~ at_ls m GNil m' l.
Proof. intros (t & H & _). inversion H. Qed.
Lemma at_cons m x ls m' l : at_ls m (GCons x ls) m' l <-> inside m x m' l \/ at_ls m ls m' l.
Proof.
  split.
  - intros (t & H & Hi). inversion H; subst; [left; exact Hi|right; exists t; auto].
  - intros [H|(t & H & Hi)]; [exists x; split; [constructor|exact H]|exists t; split; [constructor; exact H|exact Hi]].
Qed.
Lemma inside_pack m idx n k ls m' l :
  inside m (GPack idx n k ls) m' l <-> (m' = m /\ l = GPack idx n k ls) \/ at_ls (k * m) ls m' l.
Proof.
  split.
  - intros H. inversion H; subst; [left; auto|right; eexists; eauto].
  - intros [[-> ->]|(t & H & Hi)]; [constructor|econstructor; eauto].
Qed.
Lemma inside_fc m idx n inc u m' l : inside m (GFC idx n inc u) m' l <-> m' = m /\ l = GFC idx n inc u.
Proof. split; [intros H; inversion H; auto|intros [-> ->]; constructor]. Qed.
Lemma inside_id m idx n m' l : inside m (GId idx n) m' l <-> m' = m /\ l = GId idx n.
Proof. split; [intros H; inversion H; auto|intros [-> ->]; constructor]. Qed.

Lemma inside_ids : (forall t m m' l, inside m t m' l -> In (gidx l) (ids_l t)) /\
  (forall ls m m' l, at_ls m ls m' l -> In (gidx l) (ids_ls ls)).
Proof.
  apply glayer_mutind.
  - intros. apply inside_fc in H as [-> ->]. left. reflexivity.
  - intros. apply inside_id in H as [-> ->]. left. reflexivity.
  - intros idx n k ls IH m m' l H. apply inside_pack in H as [[-> ->]|H]; [left; reflexivity|right; eapply IH, H].
  - intros m m' l H. elim (at_nil _ _ _ H).
  - intros x IHx ls IHls m m' l H. cbn. apply in_or_app. apply at_cons in H as [H|H]; [left; eapply IHx, H|right; eapply IHls, H].
Qed.
Lemma ids_inside : (forall t m x, In x (ids_l t) -> exists m' l, inside m t m' l /\ gidx l = x) /\
  (forall ls m x, In x (ids_ls ls) -> exists m' l, at_ls m ls m' l /\ gidx l = x).
Proof.
  apply glayer_mutind.
  - intros idx n inc u m x [<-|[]]. exists m, (GFC idx n inc u). split; [constructor|reflexivity].
  - intros idx n m x [<-|[]]. exists m, (GId idx n). split; [constructor|reflexivity].
  - intros idx n k ls IH m x [<-|H]; [exists m, (GPack idx n k ls); split; [constructor|reflexivity]|].
    destruct (IH (k * m) x H) as (m' & l & Hl & Hg). exists m', l. split; [apply inside_pack; right; exact Hl|exact Hg].
  - intros m x [].
  - intros y IHy ls IHls m x H. cbn in H. apply in_app_or in H as [H|H].
    + destruct (IHy m x H) as (m' & l & Hl & Hg). exists m', l. split; [apply at_cons; left; exact Hl|exact Hg].
    + destruct (IHls m x H) as (m' & l & Hl & Hg). exists m', l. split; [apply at_cons; right; exact Hl|exact Hg].
Qed.
Lemma nodup_disj {A} (a b : list A) x : NoDup (a ++ b) -> In x a -> In x b -> False.
Proof.
  induction a as [|y a IH]; cbn; intros H Ha Hb; [exact Ha|]. inversion H; subst.
  destruct Ha as [->|Ha]; [apply H2, in_or_app; auto|auto].
Qed.
Lemma inside_unique : (forall t m m1 l1 m2 l2, NoDup (ids_l t) -> inside m t m1 l1 -> inside m t m2 l2 -> gidx l1 = gidx l2 -> m1 = m2 /\ l1 = l2) /\
  (forall ls m m1 l1 m2 l2, NoDup (ids_ls ls) -> at_ls m ls m1 l1 -> at_ls m ls m2 l2 -> gidx l1 = gidx l2 -> m1 = m2 /\ l1 = l2).
Proof.
  apply glayer_mutind.
  - intros idx n inc u m m1 l1 m2 l2 _ H1 H2 _. apply inside_fc in H1 as [-> ->]. apply inside_fc in H2 as [-> ->]. auto.
  - intros idx n m m1 l1 m2 l2 _ H1 H2 _. apply inside_id in H1 as [-> ->]. apply inside_id in H2 as [-> ->]. auto.
  - intros idx n k ls IH m m1 l1 m2 l2 Hd H1 H2 Hg. cbn in Hd. apply NoDup_cons_iff in Hd as [Hd1 Hd2].
    apply inside_pack in H1 as [[-> ->]|H1]; apply inside_pack in H2 as [[-> ->]|H2].
    + auto.
    + elim Hd1. cbn in Hg. rewrite Hg. eapply inside_ids, H2.
    + elim Hd1. cbn in Hg. rewrite <- Hg. eapply inside_ids, H1.
    + eapply IH; eauto.
  - intros m m1 l1 m2 l2 _ H1. elim (at_nil _ _ _ H1).
  - intros x IHx ls IHls m m1 l1 m2 l2 Hd H1 H2 Hg. cbn in Hd.
    apply at_cons in H1 as [H1|H1]; apply at_cons in H2 as [H2|H2].
    + eapply IHx; eauto. eapply nodup_app_l, Hd.
    + exfalso. eapply nodup_disj; [exact Hd|eapply inside_ids, H1|rewrite Hg; eapply inside_ids, H2].
    + exfalso. eapply nodup_disj; [exact Hd|eapply inside_ids, H2|rewrite <- Hg; eapply inside_ids, H1].
    + eapply IHls; eauto. eapply nodup_app_r, Hd.
Qed.
Lemma back_perm : (forall t, Permutation (back_l t) (ids_l t)) /\ (forall ls, Permutation (back_ls ls) (ids_ls ls)).
Proof.
  apply glayer_mutind; cbn; auto.
  intros l Hl ls Hls. rewrite Permutation_app_comm. apply Permutation_app; assumption.
Qed.
(** the batch of an inner layer *)
Lemma inside_scale : (forall t m0 m m0' l, inside m0 t m0' l -> exists m', inside m t m' l) /\
  (forall ls m0 m m0' l, at_ls m0 ls m0' l -> exists m', at_ls m ls m' l).
Proof.
  apply glayer_mutind.
  - intros idx n inc u m0 m m0' l H. apply inside_fc in H as [-> ->]. exists m. constructor.
  - intros idx n m0 m m0' l H. apply inside_id in H as [-> ->]. exists m. constructor.
  - intros idx n k ls IH m0 m m0' l H. apply inside_pack in H as [[-> ->]|H]; [exists m; constructor|].
    destruct (IH _ (k * m) _ _ H) as (m' & H'). exists m'. apply inside_pack. right. exact H'.
  - intros m0 m m0' l H. elim (at_nil _ _ _ H).
  - intros x IHx ls IHls m0 m m0' l H. apply at_cons in H as [H|H].
    + destruct (IHx _ m _ _ H) as (m' & H'). exists m'. apply at_cons. left. exact H'.
    + destruct (IHls _ m _ _ H) as (m' & H'). exists m'. apply at_cons. right. exact H'.
Qed.
Lemma inside_pos : (forall t m m' l, tiles_ok t -> 0 < m -> inside m t m' l -> 0 < m') /\
  (forall ls m m' l, tiles_oks ls -> 0 < m -> at_ls m ls m' l -> 0 < m').
Proof.
  apply glayer_mutind.
  - intros idx n inc u m m' l _ Hm H. apply inside_fc in H as [-> ->]. exact Hm.
  - intros idx n m m' l _ Hm H. apply inside_id in H as [-> ->]. exact Hm.
  - intros idx n k ls IH m m' l [Hk Ht] Hm H. apply inside_pack in H as [[-> ->]|H]; [exact Hm|]. eapply IH; [exact Ht| |exact H]. nia.
  - intros m m' l _ _ H. elim (at_nil _ _ _ H).
  - intros x IHx ls IHls m m' l [H1 H2] Hm H. apply at_cons in H as [H|H]; [eapply IHx|eapply IHls]; eauto.
Qed.

Lemma upto_in a b x : In x a -> upto x (a ++ b) = upto x a.
Proof.
  induction a as [|y a IH]; cbn; [intros []|]. intros H. destruct (Nat.eqb_spec y x); [reflexivity|].
  f_equal. apply IH. destruct H; [contradiction|assumption].
Qed.
Lemma upto_out a b x : ~ In x a -> upto x (a ++ b) = a ++ upto x b.
Proof.
  induction a as [|y a IH]; cbn; [reflexivity|]. intros H. destruct (Nat.eqb_spec y x); [subst; elim H; auto|].
  f_equal. apply IH. auto.
Qed.

Section P.
Context {G : Type} (E : genv G) (N : gnet) (T : setts).
Notation st := (st G). Notation net := (net G).

Lemma hit_false i g idx : i_check i <> idx -> hit i g idx = false.
Proof. intros H. unfold hit. rewrite (proj2 (Nat.eqb_neq _ _) H). reflexivity. Qed.
Lemma hit_grp i g idx : i_check i = idx -> hit i g idx = grp_eqb g (i_grp i).
Proof. intros H. unfold hit. rewrite H, Nat.eqb_refl. reflexivity. Qed.

Definition is_fc (l : glayer) : Prop := match l with GFC _ _ _ _ => True | _ => False end.

Lemma rows_out i : (forall t m b, ~ In (i_check i) (ids_l t) -> rows_l i m t b = b) /\
  (forall ls m b, ~ In (i_check i) (ids_ls ls) -> rows_ls i m ls b = b).
Proof.
  apply glayer_mutind.
  - intros idx n inc u m b H. cbn. rewrite !hit_false by (intros Q; apply H; left; auto). reflexivity.
  - intros idx n m b H. cbn. rewrite !hit_false by (intros Q; apply H; left; auto). reflexivity.
  - intros idx n k ls IH m b H. cbn. rewrite !hit_false by (intros Q; apply H; left; auto). apply IH. intros Q. apply H. right. exact Q.
  - reflexivity.
  - intros l IHl ls IHls m b H. cbn in *. rewrite IHl, IHls; auto; intros Q; apply H, in_or_app; auto.
Qed.
Lemma rows_in i : (forall t m m' l b, NoDup (ids_l t) -> inside m t m' l -> gidx l = i_check i -> (i_grp i = GW -> is_fc l) -> rows_l i m t b = m') /\
  (forall ls m m' l b, NoDup (ids_ls ls) -> at_ls m ls m' l -> gidx l = i_check i -> (i_grp i = GW -> is_fc l) -> rows_ls i m ls b = m').
Proof.
  apply glayer_mutind.
  - intros idx n inc u m m' l b Hd H Hg Hf. apply inside_fc in H as [-> ->]. cbn in *.
    rewrite !hit_grp by auto. destruct (i_grp i); reflexivity.
  - intros idx n m m' l b Hd H Hg Hf. apply inside_id in H as [-> ->]. cbn in *.
    rewrite !hit_grp by auto. destruct (i_grp i); [reflexivity|elim Hf; reflexivity].
  - intros idx n k ls IH m m' l b Hd H Hg Hf. cbn in Hd. apply NoDup_cons_iff in Hd as [Hd1 Hd2].
    apply inside_pack in H as [[-> ->]|H]; cbn [rows_l].
    + cbn in Hg. rewrite hit_grp by auto. destruct (i_grp i); [reflexivity|elim Hf; reflexivity].
    + rewrite hit_false; [eapply IH; eauto|]. intros Q. apply Hd1. rewrite <- Q, <- Hg. eapply inside_ids, H.
  - intros m m' l b _ H. elim (at_nil _ _ _ H).
  - intros x IHx ls IHls m m' l b Hd H Hg Hf. cbn in Hd. apply at_cons in H as [H|H]; cbn [rows_ls].
    + rewrite (IHx _ _ _ b (nodup_app_l _ _ Hd) H Hg Hf). apply rows_out. intros Q.
      eapply nodup_disj; [exact Hd|eapply inside_ids, H|rewrite Hg; exact Q].
    + rewrite (proj1 (rows_out i)); [eapply IHls; eauto; eapply nodup_app_r, Hd|].
      intros Q. eapply nodup_disj; [exact Hd|exact Q|rewrite <- Hg; eapply inside_ids, H].
Qed.

(** existence of the parameter *)
Definition fits (i : insp) (m' : nat) (l : glayer) : Prop :=
  match i_grp i, l with
  | GA, _ => i_row i < m' /\ i_col i < neurons_of l
  | GW, GFC _ n inc _ => i_row i < n /\ i_col i < inc + 1
  | GW, _ => False
  end.
Lemma coord_of i : (forall t m, (forall m' l, inside m t m' l -> gidx l = i_check i -> fits i m' l) -> coord_l i m t) /\
  (forall ls m, (forall m' l, at_ls m ls m' l -> gidx l = i_check i -> fits i m' l) -> coord_ls i m ls).
Proof.
  apply glayer_mutind.
  - intros idx n inc u m H. specialize (H m _ (in_self m _)). cbn [gidx] in H. unfold fits in H. cbn [coord_l neurons_of] in *.
    split; intros Q; unfold hit in Q; apply andb_prop in Q as [Q1 Q2]; apply Nat.eqb_eq in Q1; specialize (H (eq_sym Q1)); destruct (i_grp i); try discriminate Q2; exact H.
  - intros idx n m H. specialize (H m _ (in_self m _)). cbn [gidx] in H. unfold fits in H. cbn [coord_l neurons_of] in *.
    intros Q; unfold hit in Q; apply andb_prop in Q as [Q1 Q2]; apply Nat.eqb_eq in Q1; specialize (H (eq_sym Q1)); destruct (i_grp i); try discriminate Q2; exact H.
  - intros idx n k ls IH m H. cbn [coord_l]. split.
    + specialize (H m _ (in_self m _)). cbn [gidx] in H. unfold fits in H. cbn [neurons_of] in *.
      intros Q; unfold hit in Q; apply andb_prop in Q as [Q1 Q2]; apply Nat.eqb_eq in Q1; specialize (H (eq_sym Q1)); destruct (i_grp i); try discriminate Q2; exact H.
    + apply IH. intros m' l Hl. apply H. apply inside_pack. right. exact Hl.
  - intros m H. exact I.
  - intros x IHx ls IHls m H. split; [apply IHx|apply IHls]; intros m' l Hl; apply H, at_cons; auto.
Qed.
Lemma nlen_of i nl : (forall t m, (forall m' idx n inc u, inside m t m' (GFC idx n inc u) -> idx = i_check i -> i_grp i = GW -> nl = n) -> nlen_l i nl t) /\
  (forall ls m, (forall m' idx n inc u, at_ls m ls m' (GFC idx n inc u) -> idx = i_check i -> i_grp i = GW -> nl = n) -> nlen_ls i nl ls).
Proof.
  apply glayer_mutind.
  - intros idx n inc u m H Q. unfold hit in Q; apply andb_prop in Q as [Q1 Q2]; apply Nat.eqb_eq in Q1.
    eapply H; [constructor|auto|destruct (i_grp i); [discriminate Q2|reflexivity]].
  - intros; exact I.
  - intros idx n k ls IH m H. apply (IH (k * m)). intros. eapply H; eauto. apply inside_pack. right. eassumption.
  - intros; exact I.
  - intros x IHx ls IHls m H. split; [apply (IHx m)|apply (IHls m)]; intros; eapply H; eauto; apply at_cons; [left|right]; eassumption.
Qed.
Lemma wok_of W : (forall t m, (forall m' idx n inc u, inside m t m' (GFC idx n inc u) -> idx < length W /\ length (nth idx W []) = n * (inc + 1)) -> wok_l W t) /\
  (forall ls m, (forall m' idx n inc u, at_ls m ls m' (GFC idx n inc u) -> idx < length W /\ length (nth idx W []) = n * (inc + 1)) -> wok_ls W ls).
Proof.
  apply glayer_mutind.
  - intros idx n inc u m H. eapply H. constructor.
  - intros; exact I.
  - intros idx n k ls IH m H. apply (IH (k * m)). intros. eapply H; eauto. apply inside_pack. right. eassumption.
  - intros; exact I.
  - intros x IHx ls IHls m H. split; [apply (IHx m)|apply (IHls m)]; intros; eapply H; eauto; apply at_cons; [left|right]; eassumption.
Qed.

(** ** Analytical value *)
Definition raw_an (i : insp) (h : list event) (bk : list nat) (l : glayer) (old : xf) : xf :=
  let hb := rev (map VBack (upto (gidx l) bk)) ++ h in
  match i_grp i, l with
  | GA, _ => ge_dLdA E hb (gidx l) (i_row i) (i_col i)
  | GW, GFC _ _ _ true => ge_dLdW E hb (gidx l) (i_row i) (i_col i)
  | GW, _ => old
  end.
Lemma anb_out i : (forall t h m old, ~ In (i_check i) (ids_l t) -> anb_l E i h m t old = old) /\
  (forall ls h m old, ~ In (i_check i) (ids_ls ls) -> anb_ls E i h m ls old = old).
Proof.
  apply glayer_mutind.
  - intros idx n inc u h m b H. cbn. rewrite !hit_false by (intros Q; apply H; left; auto). reflexivity.
  - intros idx n h m b H. cbn. rewrite !hit_false by (intros Q; apply H; left; auto). reflexivity.
  - intros idx n k ls IH h m b H. cbn. rewrite !hit_false by (intros Q; apply H; left; auto). apply IH. intros Q. apply H. right. exact Q.
  - reflexivity.
  - intros l IHl ls IHls h m b H. cbn in *. rewrite IHls, IHl; auto; intros Q; apply H, in_or_app; auto.
Qed.
Lemma raw_an_shift i h a bk l old : ~ In (gidx l) a -> raw_an i (rev (map VBack a) ++ h) bk l old = raw_an i h (a ++ bk) l old.
Proof.
  intros H. unfold raw_an. rewrite upto_out by exact H. rewrite map_app, rev_app_distr, <- app_assoc. reflexivity.
Qed.
Lemma raw_an_app i h a bk l old : In (gidx l) a -> raw_an i h (a ++ bk) l old = raw_an i h a l old.
Proof. intros H. unfold raw_an. rewrite upto_in by exact H. reflexivity. Qed.
Lemma anb_in i : (forall t h m m' l old, NoDup (ids_l t) -> inside m t m' l -> gidx l = i_check i ->
    fst (anb_l E i h m t old) = raw_an i h (back_l t) l (fst old)) /\
  (forall ls h m m' l old, NoDup (ids_ls ls) -> at_ls m ls m' l -> gidx l = i_check i ->
    fst (anb_ls E i h m ls old) = raw_an i h (back_ls ls) l (fst old)).
Proof.
  apply glayer_mutind.
  - intros idx n inc u h m m' l old Hd H Hg. apply inside_fc in H as [-> ->]. cbn in *.
    rewrite !hit_grp by auto. unfold raw_an. cbn. rewrite Nat.eqb_refl. cbn. destruct (i_grp i), u; reflexivity.
  - intros idx n h m m' l old Hd H Hg. apply inside_id in H as [-> ->]. cbn in *.
    rewrite !hit_grp by auto. unfold raw_an. cbn. rewrite Nat.eqb_refl. cbn. destruct (i_grp i); reflexivity.
  - intros idx n k ls IH h m m' l old Hd H Hg. cbn in Hd. apply NoDup_cons_iff in Hd as [Hd1 Hd2].
    apply inside_pack in H as [[-> ->]|H]; cbn [anb_l back_l].
    + cbn in Hg. rewrite hit_grp by auto. rewrite (proj2 (anb_out i)) by (rewrite <- Hg; exact Hd1).
      unfold raw_an. cbn. rewrite Nat.eqb_refl. cbn. destruct (i_grp i); reflexivity.
    + assert (Hne : i_check i <> idx). { intros Q. apply Hd1. rewrite <- Q, <- Hg. eapply inside_ids, H. }
      rewrite hit_false by exact Hne. rewrite (IH _ _ _ _ _ Hd2 H Hg).
      change (VBack idx :: h) with (rev (map (@VBack) [idx]) ++ h). rewrite raw_an_shift; [reflexivity|].
      cbn. rewrite Hg. intros [Q|[]]. apply Hne. auto.
  - intros h m m' l old _ H. elim (at_nil _ _ _ H).
  - intros x IHx ls IHls h m m' l old Hd H Hg. cbn in Hd. apply at_cons in H as [H|H]; cbn [anb_ls back_ls].
    + pose proof (proj1 inside_ids _ _ _ _ H) as Hin.
      assert (Hno : ~ In (gidx l) (ids_ls ls)) by (intros Q; eapply nodup_disj; eauto).
      rewrite (proj2 (anb_out i)) by (rewrite <- Hg; exact Hno).
      rewrite (IHx _ _ _ _ _ (nodup_app_l _ _ Hd) H Hg). apply raw_an_shift.
      intros Q. apply Hno. eapply Permutation_in; [apply back_perm|exact Q].
    + pose proof (proj2 inside_ids _ _ _ _ H) as Hin.
      rewrite (proj1 (anb_out i)); [|rewrite <- Hg; intros Q; eapply nodup_disj; eauto].
      rewrite (IHls _ _ _ _ _ (nodup_app_r _ _ Hd) H Hg). symmetry. apply raw_an_app.
      eapply Permutation_in; [apply Permutation_sym, back_perm|exact Hin].
Qed.

(** ** The whole network *)
Context (HN : net_ok N).
Lemma net_nodup : NoDup (g_oidx N :: ids_ls (g_hid N)).
Proof.
  destruct HN as (H & _ & _). unfold back in H. eapply Permutation_NoDup; [|exact H]. constructor. apply back_perm.
Qed.
Lemma layer_of_at m m' l : layer_of N m m' l <-> at_ls m (g_hid N) m' l \/ (m' = m /\ l = out_layer N).
Proof. reflexivity. Qed.
Lemma layer_unique m m1 l1 m2 l2 : layer_of N m m1 l1 -> layer_of N m m2 l2 -> gidx l1 = gidx l2 -> m1 = m2 /\ l1 = l2.
Proof.
  pose proof net_nodup as Hd. apply NoDup_cons_iff in Hd as [Hd1 Hd2].
  intros [H1|[-> ->]] [H2|[-> ->]] Hg.
  - eapply (proj2 inside_unique); eauto.
  - elim Hd1. change (g_oidx N) with (gidx (out_layer N)). rewrite <- Hg. eapply (proj2 inside_ids), H1.
  - elim Hd1. change (g_oidx N) with (gidx (out_layer N)). rewrite Hg. eapply (proj2 inside_ids), H2.
  - auto.
Qed.
Lemma layer_scale m0 m m0' l : layer_of N m0 m0' l -> exists m', layer_of N m m' l.
Proof.
  intros [H|[-> ->]].
  - destruct (proj2 inside_scale _ _ m _ _ H) as (m' & H'). exists m'. left. exact H'.
  - exists m. right. auto.
Qed.
Lemma layer_pos m m' l : 0 < m -> layer_of N m m' l -> 0 < m'.
Proof.
  intros Hm [H|[-> _]]; [|exact Hm]. destruct HN as (_ & _ & Ht). eapply (proj2 inside_pos); eauto.
Qed.
Lemma layer_back m m' l : layer_of N m m' l -> In (gidx l) (back N).
Proof.
  intros [H|[_ ->]]; [right|left; reflexivity]. eapply Permutation_in; [apply Permutation_sym, back_perm|eapply (proj2 inside_ids), H].
Qed.
Lemma layer_idx0 m m' l : layer_of N m m' l -> 0 < gidx l.
Proof.
  intros H. apply layer_back in H. destruct HN as (_ & H0 & _). destruct (gidx l); [contradiction|lia].
Qed.

Context (W : list (list xf)) (HW : weights_ok N W).

Definition param_ok (i : insp) (m : nat) (m' : nat) (l : glayer) : Prop :=
  layer_of N m m' l /\ gidx l = i_check i /\ fits i m' l /\ (i_grp i = GA -> gidx l <> g_oidx N).

Lemma nlen_all i m m' l : param_ok i m m' l -> nlen_ls i (neurons_of l) (g_hid N) /\ nlen_l i (neurons_of l) (out_layer N).
Proof.
  intros (H1 & H2 & H3 & _). split.
  - apply (nlen_of i (neurons_of l)) with (m := m). intros m1 idx n inc u Q Hx _.
    destruct (layer_unique _ _ _ _ _ H1 (or_introl Q)) as [_ ->]; [rewrite H2, <- Hx; reflexivity|reflexivity].
  - apply (nlen_of i (neurons_of l)) with (m := m). intros m1 idx n inc u Q Hx _.
    apply inside_fc in Q as [-> Q].
    destruct (layer_unique m m' l m (out_layer N) H1) as [_ ->]; [right; auto| |].
    + rewrite H2, <- Hx. injection Q as -> -> -> ->. reflexivity.
    + injection Q as -> -> -> ->. reflexivity.
Qed.
Lemma coord_all i m m' l : param_ok i m m' l -> coord_ls i m (g_hid N) /\ coord_l i m (out_layer N).
Proof.
  intros (H1 & H2 & H3 & _). split.
  - apply (coord_of i). intros m1 l1 Q Hg. destruct (layer_unique _ _ _ _ _ H1 (or_introl Q)) as [<- <-]; [congruence|exact H3].
  - apply (coord_of i). intros m1 l1 Q Hg. apply inside_fc in Q as [-> ->].
    destruct (layer_unique m m' l m (out_layer N) H1) as [E1 E2]; [right; auto|rewrite H2, <- Hg; reflexivity|subst m' l; exact H3].
Qed.
Lemma wok_all : wok_ls W (g_hid N) /\ wok_l W (out_layer N).
Proof.
  split.
  - apply (wok_of W) with (m := 0). intros m1 idx n inc u Q. eapply (HW 0). left. exact Q.
  - eapply (HW 0). right. split; reflexivity.
Qed.
Lemma rows_all i m m' l b : param_ok i m m' l -> rows_l i m (out_layer N) (rows_ls i m (g_hid N) b) = m'.
Proof.
  intros (H1 & H2 & H3 & _). pose proof net_nodup as Hd. apply NoDup_cons_iff in Hd as [Hd1 Hd2].
  assert (Hfc : i_grp i = GW -> is_fc l). { intros Q. unfold fits in H3. rewrite Q in H3. destruct l; cbn; auto. }
  destruct H1 as [H1|[-> ->]].
  - rewrite (proj2 (rows_in i) _ _ _ _ b Hd2 H1 H2 Hfc). apply rows_out. cbn. intros [Q|[]]. apply Hd1. rewrite Q, <- H2. eapply (proj2 inside_ids), H1.
  - apply (proj1 (rows_in i) (out_layer N) m m (out_layer N)); auto; [repeat constructor; intros []|constructor].
Qed.

(** the state of inspector and network between passes *)
Definition idle (n0 : net) (s : st) : Prop := s_n s = n0 /\ i_stack (s_i s) = [] /\ i_ptr (s_i s) = None.

Lemma fprop_all n0 m m' l (s : st) : n_block n0 = true -> n_W n0 = W -> idle n0 s -> param_ok (s_i s) m m' l ->
  exists o, fprop E N T m s = Some (mkS n0 (seti (s_i s) (nb (s_i s) (i_bs (s_i s)) m') o)
    (rev (fwd N (effW T (s_i s) W (neurons_of l)) (effA (s_i s)) m) ++ s_h s)).
Proof.
  intros Hb HWn (Hn & Hst & Hp) HP. pose proof net_nodup as Hd. apply NoDup_cons_iff in Hd as [Hd1 Hd2].
  assert (Hck : 0 < i_check (s_i s)). { destruct HP as (H1 & H2 & _). rewrite <- H2. eapply layer_idx0, H1. }
  unfold fprop, push. rewrite (proj2 (Nat.ltb_lt _ _) Hck).
  match goal with |- context [activations 0 (g_in N) m ?x] => set (s1 := x) end.
  assert (A1 : (do s <- activations 0 (g_in N) m s1; do s <- pop s; do s <- fprop_ls E T m (g_hid N) s; fc_fprop E T (g_oidx N) (g_on N) (g_oinc N) m s) =
    do s <- (do s <- activations 0 (g_in N) m s1; pop s); do s <- fprop_ls E T m (g_hid N) s; fc_fprop E T (g_oidx N) (g_on N) (g_oinc N) m s).
  { destruct (activations 0 (g_in N) m s1); reflexivity. }
  rewrite A1; clear A1.
  assert (Hh0 : hit (s_i s1) GA 0 = false) by (apply hit_false; cbn; lia).
  rewrite (act_pop 0 (g_in N) m s1 [] (f_equal (cons 0) Hst) Hck (fun x => x) Hp); [|rewrite Hh0; discriminate].
  rewrite Hh0. cbn [obind].
  match goal with |- context [fprop_ls E T m (g_hid N) ?x] => set (s2 := x) end.
  assert (Es : s2 = s).
  { unfold s2, s1. cbn [s_n s_i s_h with_i i_check i_grp i_phase i_row i_col i_an i_bs i_orig i_may].
    replace (moved_act _ 0) with (@nil event).
    2:{ unfold effA. cbn [i_grp i_phase i_check i_col]. destruct (grp_eqb GA (i_grp (s_i s)) && numeric (i_phase (s_i s))); [|reflexivity]. cbn.
        destruct (Nat.eqb_spec (i_check (s_i s)) 0); [lia|reflexivity]. }
    unfold nb. cbn [i_phase i_bs]. replace (if numeric _ then i_bs (s_i s) else i_bs (s_i s)) with (i_bs (s_i s)) by (destruct (numeric _); reflexivity).
    rewrite <- Hst, <- Hp at 1. destruct s as [n1 [] h]. reflexivity. }
  rewrite Es. clear Es s2 Hh0 s1.
  destruct (coord_all _ _ _ _ HP) as [Hc1 Hc2]. destruct (nlen_all _ _ _ _ HP) as [Hl1 Hl2]. destruct wok_all as [Hw1 Hw2].
  destruct (proj2 (fprop_ok E T) (g_hid N) m s (neurons_of l)) as [o1 Ho1]; auto.
  { rewrite Hn; exact Hb. } { rewrite Hst. intros x _ []. } { rewrite Hn, HWn. exact Hw1. }
  rewrite Ho1. cbn [obind].
  match goal with |- context [fc_fprop E T (g_oidx N) (g_on N) (g_oinc N) m ?x] => set (s2 := x) end.
  destruct (fc_fprop_ok E T (g_oidx N) (g_on N) (g_oinc N) (g_oupd N) m s2 (neurons_of l)) as [o2 Ho2].
  - exact Hck.
  - reflexivity.
  - cbn. rewrite Hn. exact Hb.
  - cbn. rewrite Hst. intros [].
  - cbn [s2 s_n]. rewrite Hn, HWn. exact Hw2.
  - apply (proj1 coord_seti (out_layer N)). exact Hc2.
  - apply (proj1 nlen_seti (out_layer N)). exact Hl2.
  - exists o2. rewrite Ho2. unfold s2. cbn [s_n s_i s_h]. rewrite (proj1 rows_seti), seti2.
    change (effA (seti _ _ _)) with (effA (s_i s)). change (effW T (seti _ _ _) ?w ?nl) with (effW T (s_i s) w nl).
    rewrite Hn, HWn. unfold fwd. rewrite rev_app_distr, <- app_assoc. f_equal. f_equal.
    unfold nb. cbn [seti i_phase i_bs]. f_equal. destruct (numeric (i_phase (s_i s))); [|reflexivity].
    exact (rows_all _ _ _ _ _ HP).
Qed.

Lemma bprop_all n0 m m' l (s : st) : n_block n0 = true -> idle n0 s -> param_ok (s_i s) m m' l -> i_phase (s_i s) = PAnalytical ->
  i_an (s_i s) = XNaN ->
  exists i', bprop E N m s = Some (mkS n0 i' (rev (map VBack (back N)) ++ s_h s)) /\ i_stack i' = [] /\ i_ptr i' = None /\
    i_may i' = i_may (s_i s) /\ i_an i' = raw_an (s_i s) (s_h s) (back N) l XNaN.
Proof.
  intros Hb (Hn & Hst & Hp) HP Hph Han. pose proof net_nodup as Hd. apply NoDup_cons_iff in Hd as [Hd1 Hd2].
  assert (Hck : 0 < i_check (s_i s)). { destruct HP as (H1 & H2 & _). rewrite <- H2. eapply layer_idx0, H1. }
  destruct (coord_all _ _ _ _ HP) as [Hc1 Hc2].
  unfold bprop. rewrite (fc_bprop_ok E false (g_oidx N) (g_on N) (g_oinc N) (g_oupd N) m s).
  2: exact Hck. 2: { rewrite Hn; exact Hb. } 2: { rewrite Hst. intros []. } 2: exact Hph.
  2:{ intros _. destruct HP as (H1 & H2 & _ & H4). unfold hit. destruct (i_grp (s_i s)) eqn:Hg; [|apply andb_false_r].
      rewrite <- H2. rewrite (proj2 (Nat.eqb_neq _ _) (H4 eq_refl)). reflexivity. }
  2: exact Hc2.
  cbn [obind].
  match goal with |- context [bprop_ls E m (g_hid N) ?x] => set (s2 := x) end.
  rewrite (proj2 (bprop_ok E) (g_hid N) m s2).
  2: exact Hck. 2: { cbn. rewrite Hn; exact Hb. } 2: exact Hph. 2: exact Hd2. 2: { cbn. rewrite Hst. intros x _ []. }
  2: { apply coord_set. exact Hc1. }
  eexists. split; [unfold s2; cbn [s_n s_h]; rewrite Hn; unfold back; cbn [map rev app]; rewrite <- app_assoc; reflexivity|].
  cbn [s2 s_i s_n s_h]. split; [exact Hst|]. split; [exact Hp|]. split; [reflexivity|].
  unfold setab at 1. cbn [setan i_an]. rewrite (proj2 (anb_set E)).
  match goal with |- context [ab_of (setab ?i ?x)] => change (ab_of (setab i x)) with (fst x, snd x); rewrite <- (surjective_pairing x) end.
  destruct HP as (H1 & H2 & _ & H4).
  assert (Hold : fst (ab_of (s_i s)) = XNaN) by exact Han.
  destruct H1 as [H1|[-> ->]].
  - rewrite (proj2 (anb_in (s_i s)) _ _ _ _ _ _ Hd2 H1 H2).
    rewrite (proj1 (anb_out (s_i s)) (out_layer N)).
    2:{ cbn. intros [Q|[]]. apply Hd1. rewrite Q, <- H2. eapply (proj2 inside_ids), H1. }
    rewrite Hold. apply (raw_an_shift _ _ [g_oidx N]). cbn. intros [Q|[]]. apply Hd1. rewrite Q. eapply (proj2 inside_ids), H1.
  - rewrite (proj2 (anb_out (s_i s))) by (rewrite <- H2; exact Hd1).
    rewrite (proj1 (anb_in (s_i s)) (out_layer N) (s_h s) m m (out_layer N)); [|repeat constructor; intros []|constructor|exact H2].
    rewrite Hold. unfold back. change (back_l (out_layer N)) with [g_oidx N].
    change (g_oidx N :: back_ls (g_hid N)) with ([g_oidx N] ++ back_ls (g_hid N)). symmetry. apply raw_an_app. left. reflexivity.
Qed.
End P.
