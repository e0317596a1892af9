(** Loading what was saved. *)
From Coq Require Import String List.
From Verif Require Import Base BaseLemmas Smx_Model Smx_Proofs Mf_Model Mf_Spec Mf_Proofs.
Import ListNotations.

Lemma lookup_store_same n v f : lookup n (store n v f) = Some v.
Proof.
  induction f as [|[m w] f IH]; cbn [store lookup]; [rewrite String.eqb_refl; reflexivity|].
  destruct (String.eqb n m) eqn:E; cbn [lookup]; [rewrite String.eqb_refl; reflexivity|]. rewrite E. exact IH.
Qed.
Lemma lookup_store_other n m v f : n <> m -> lookup n (store m v f) = lookup n f.
Proof.
  intros H. assert (Hnm : String.eqb n m = false) by (apply String.eqb_neq; exact H).
  induction f as [|[p w] f IH]; cbn [store lookup]; [rewrite Hnm; reflexivity|].
  destruct (String.eqb m p) eqn:E; cbn [lookup].
  - apply String.eqb_eq in E. subst p. rewrite Hnm. reflexivity.
  - destruct (String.eqb n p); [reflexivity|exact IH].
Qed.
Lemma lookup_put l : forall f n, ~ List.In n (names l) -> lookup n (put_all l f) = lookup n f.
Proof.
  induction l as [|i l IH]; intros f n H; [reflexivity|]. cbn [names List.In] in H.
  change (put_all (icons i l) f) with (put_all l (store (iname i) (mx_item i) f)).
  rewrite IH by tauto. apply lookup_store_other. intros ->. tauto.
Qed.
Fixpoint holds (l : items) (f : fields) : Prop :=
  match l with inil => True | icons i l' => lookup (iname i) f = Some (mx_item i) /\ holds l' f end.
Lemma holds_put l : forall f, NoDup (names l) -> holds l (put_all l f).
Proof.
  induction l as [|i l IH]; intros f H; [exact I|]. cbn [names] in H. inversion H; subst.
  change (put_all (icons i l) f) with (put_all l (store (iname i) (mx_item i) f)).
  split; [rewrite lookup_put by assumption; apply lookup_store_same|]. apply IH. assumption.
Qed.

Lemma cls_eqb_refl k : cls_eqb k k = true.
Proof. destruct k; cbn; auto. rewrite Bool.eqb_reflx, Z.eqb_refl. reflexivity. Qed.

Lemma resize_cleared (o : Z) g t b r c : (0 < r)%nat -> (0 < c)%nat ->
  exists t1 l1, resize o (Some g) (with_flag (clear t) b) r c = Some (true, t1) /\
     s_rows t1 = r /\ s_cols t1 = (c + Nat.b2n b)%nat /\ s_bias t1 = b /\ s_bir t1 = false /\ s_data t1 = Some l1 /\ length l1 = (r * (c + Nat.b2n b))%nat /\
     (b = true -> forall i, (i < r)%nat -> bget l1 (i + r * (c + Nat.b2n b - 1)) = Some o).
Proof.
  intros Hr Hc. unfold resize. destruct (Nat.eqb_spec r 0) as [?|_]; [lia|]. destruct (Nat.eqb_spec c 0) as [?|_]; [lia|]. cbn [orb].
  unfold s_bias_row, s_bias_col. change (s_bias (with_flag (clear t) b)) with b. change (s_bir (with_flag (clear t) b)) with false. cbn [negb].
  rewrite Bool.andb_false_r, Bool.andb_true_r. change (Nat.b2n false) with 0%nat. rewrite Nat.add_0_r.
  set (c1 := (c + Nat.b2n b)%nat). assert (Hc1 : (0 < c1)%nat) by (unfold c1; lia).
  unfold impl_resize. destruct (Nat.eqb_spec r 0) as [?|_]; [lia|]. destruct (Nat.eqb_spec c1 0) as [?|_]; [lia|]. cbn [orb].
  change (s_rows (with_flag (clear t) b)) with 0%nat. destruct (Nat.eqb_spec r 0) as [?|_]; [lia|]. cbn [andb].
  unfold realloc. change (s_ext (with_dims (with_flag (clear t) b) r c1)) with false. cbn [negb guard obind].
  change (s_rows (with_dims (with_flag (clear t) b) r c1)) with r. change (s_cols (with_dims (with_flag (clear t) b) r c1)) with c1.
  destruct (Nat.ltb_spec 0 r); [|lia]. destruct (Nat.ltb_spec 0 c1); [|lia]. cbn [andb obind].
  set (bl := Smx_Model.block (r * c1) g).
  assert (Lbl : length bl = (r * c1)%nat) by (unfold bl, Smx_Model.block; rewrite map_length, seq_length; reflexivity).
  change (with_holey _ false) with (mkS r c1 b false false false (Some bl)). cbn [empty s_data negb andb s_bias].
  destruct b.
  - destruct (set_biases_spec o (mkS r c1 true false false false (Some bl)) bl) as (t1 & l1 & E1 & (K1 & K2 & K3 & K4 & K5) & _ & D1 & L1 & B1 & _);
      [reflexivity|exact Hr|exact Hc1|unfold s_numel; cbn [s_rows s_cols]; lia|].
    rewrite E1. cbn [obind]. exists t1, l1. cbn [s_rows s_cols s_bias s_bir s_ext bias_part] in *.
    repeat (split; [first [reflexivity|assumption|lia]|]). intros _ i Hi. apply B1. exact Hi.
  - eexists _, bl. split; [reflexivity|]. cbn [s_rows s_cols s_bias s_bir s_data]. repeat (split; [first [reflexivity|assumption|lia]|]). discriminate.
Qed.

Section L.
Context (fd fs fi : cls -> Z -> Z) (one : cls -> Z) (me : nat -> mem_env Z).

Lemma fill_from_spec k d : forall n i l, (i + n <= length d)%nat -> (i + n <= length l)%nat ->
  exists l', fill_from fd fs fi k k d n i l = Some (Some l') /\ length l' = length l /\
  forall a, bget l' a = if (i <=? a) && (a <? i + n) then bget d a else bget l a.
Proof.
  induction n as [|n IH]; intros i l Hd Hl; cbn [fill_from].
  - exists l. split; [reflexivity|]. split; [reflexivity|]. intros a. destruct (Nat.leb_spec i a), (Nat.ltb_spec a (i + 0)); cbn [andb]; try reflexivity. lia.
  - destruct (bget_lt d i) as [z Hz]; [lia|]. unfold bget in Hz. rewrite Hz. cbn [obind]. unfold conv. rewrite cls_eqb_refl.
    destruct (bset_lt l i z) as (l1 & E1); [lia|]. rewrite E1. cbn [obind]. destruct (bset_some _ _ _ _ E1) as (_ & Hlen & Ho).
    destruct (IH (S i) l1) as (l' & E & L & H); [lia|lia|]. exists l'. split; [exact E|]. split; [lia|].
    intros a. rewrite H. destruct (Nat.eq_dec a i) as [->|Ne].
    + destruct (Nat.leb_spec (S i) i); [lia|]. cbn [andb]. destruct (Nat.leb_spec i i), (Nat.ltb_spec i (i + S n)); try lia. cbn [andb].
      rewrite Ho, Nat.eqb_refl. unfold bget. congruence.
    + replace ((i <=? a) && (a <? i + S n)) with ((S i <=? a) && (a <? S i + n)) by lia.
      destruct ((S i <=? a) && (a <? S i + n)); [reflexivity|]. rewrite Ho. destruct (Nat.eqb_spec a i); [contradiction|reflexivity].
Qed.

Lemma is_x_name n : is_x n = x_name n.
Proof.
  unfold is_x, x_name.
  destruct (String.eqb_spec "train_x" n) as [e1|e1], (String.eqb_spec "test_x" n) as [e2|e2],
    (string_dec n "train_x") as [d1|d1], (string_dec n "test_x") as [d2|d2]; cbn; try reflexivity; exfalso; auto.
Qed.

(** The destination only has what clear() leaves *)
Lemma load_mat_spec k t n m s : a_open s = true -> (a_stk s = [] -> a_rd s = true) -> a_name s = Some n ->
  (forall i, me i <> None) -> readable_val one n (VMat k m) -> lookup n (cont s) = Some (mx_val (VMat k m)) ->
  exists t' s', load_mat fd fs fi one me k t s = Some (t', s') /\ eq_val (VMat k m) (VMat k t') /\
   s' = with_name (tick s) None.
Proof.
  intros Ho Hrd Hn Hme (l & Hl & Hlen & Hr & Hbir & Hb & Hc & Hone) Hlk.
  unfold load_mat, load_var. rewrite Ho, Hn. cbn [negb].
  assert (Hf : (match a_stk s with e :: _ => lookup n (e_fs e) | [] => if a_rd s then lookup n (a_file s) else None end) = Some (mx_val (VMat k m))).
  { unfold cont in Hlk. destruct (a_stk s); [rewrite Hrd by reflexivity|]; exact Hlk. }
  rewrite Hf. cbn [mx_val]. rewrite Hl. cbn [andb orb is_num negb dims].
  rewrite (firstn_all2 (n := s_rows m * s_cols m) l) by lia.
  destruct (Nat.eqb_spec (s_rows m) 0) as [?|_]; [lia|]. destruct (Nat.eqb_spec (s_cols m) 0) as [?|_]; [lia|]. cbn [orb].
  rewrite Hn. cbn [obind]. rewrite is_x_name, <- Hb.
  set (c' := (s_cols m - Nat.b2n (s_bias m))%nat). assert (Hc' : (0 < c')%nat) by (unfold c'; lia).
  set (t0 := clear t).
  assert (E0 : (if s_bias m then ((s_cols m - 1 =? 0)%nat, with_flag t0 (negb (s_cols m - 1 =? 0)%nat || s_bias t0), (s_cols m - 1)%nat)
                else (false, with_flag t0 false, s_cols m)) = (false, with_flag t0 (s_bias m), c')).
  { unfold c' in *. destruct (s_bias m); cbn [Nat.b2n] in *.
    - destruct (Nat.eqb_spec (s_cols m - 1) 0); [lia|]. reflexivity.
    - f_equal. lia. }
  rewrite E0. clear E0. cbn [fst snd].
  destruct (me (a_calls (tick s))) as [g|] eqn:Eg; [|exfalso; exact (Hme _ Eg)].
  destruct (resize_cleared (one k) g t (s_bias m) (s_rows m) c' Hr Hc') as (t1 & l1 & E1 & R1 & C1 & B1 & I1 & D1 & L1 & O1).
  assert (Hcc : (c' + Nat.b2n (s_bias m))%nat = s_cols m) by (unfold c'; lia). rewrite Hcc in *.
  fold t0 in E1. rewrite E1. cbn [obind]. rewrite D1. cbn [obind].
  assert (Hnb : s_numel_nb t1 = (s_rows m * c')%nat).
  { unfold s_numel_nb, s_rows_nb, s_cols_nb, s_bias_row, s_bias_col. rewrite R1, C1, B1, I1. cbn [negb]. rewrite Bool.andb_false_r, Bool.andb_true_r. cbn [Nat.b2n]. f_equal; unfold c'; lia. }
  rewrite Hnb. assert (Hle : (s_rows m * c' <= s_rows m * s_cols m)%nat) by (apply Nat.mul_le_mono_l; unfold c'; lia).
  destruct (fill_from_spec k l (s_rows m * c') 0 l1) as (l2 & E2 & L2 & H2); [lia|lia|].
  rewrite E2. cbn [obind]. eexists _, _. split; [reflexivity|]. split; [|reflexivity].
  cbn [eq_val with_mem s_rows s_cols s_bias s_bir s_data]. rewrite R1, C1, B1, I1, Hl.
  split; [reflexivity|]. split; [reflexivity|]. split; [reflexivity|]. split; [reflexivity|]. split; [congruence|]. f_equal.
  apply list_eq_bget. intros a. destruct (Nat.lt_ge_cases a (s_rows m * s_cols m)) as [Ha|Ha].
  2:{ unfold bget. rewrite (proj2 (nth_error_None l a)), (proj2 (nth_error_None l2 a)) by lia. reflexivity. }
  rewrite H2. cbn [Nat.leb andb]. destruct (Nat.ltb_spec a (0 + s_rows m * c')) as [_|Hge]; [reflexivity|].
  unfold c' in *. destruct (s_bias m); cbn [Nat.b2n] in *.
  - assert (Hx : exists r, (r < s_rows m)%nat /\ a = (r + s_rows m * (s_cols m - 1))%nat).
    { exists (a - s_rows m * (s_cols m - 1))%nat. assert (s_rows m * s_cols m = s_rows m * (s_cols m - 1) + s_rows m)%nat by nia. lia. }
    destruct Hx as (r & Hr1 & ->). rewrite O1 by auto. rewrite Hone by auto. reflexivity.
  - exfalso. replace (s_cols m - 0)%nat with (s_cols m) in Hge by lia. lia.
Qed.

Definition same_st s s' : Prop :=
  a_open s' = a_open s /\ a_rd s' = a_rd s /\ a_name s' = a_name s /\ a_stk s' = a_stk s /\ a_nest s' = a_nest s /\ a_err s' = a_err s /\ a_file s' = a_file s.
Definition ready s : Prop := a_open s = true /\ (a_stk s = [] -> a_rd s = true) /\ a_name s = None /\ a_err s = Success.
Lemma ready_same s s' : same_st s s' -> ready s -> ready s'.
Proof. unfold same_st, ready. intros (-> & -> & -> & -> & _ & -> & _). tauto. Qed.

Lemma load_spec : (forall i, me i <> None) ->
  (forall i, readable_item one i -> forall d s, shape_item i d -> ready s -> lookup (iname i) (cont s) = Some (mx_item i) ->
     exists d' s', load_item fd fs fi one me d s = Some (d', s') /\ eq_item i d' /\ same_st s s') /\
  (forall l, readable_items one l -> forall d s, shape_items l d -> ready s -> holds l (cont s) ->
     exists d' s', load_items fd fs fi one me d s = Some (d', s') /\ eq_items l d' /\ same_st s s').
Proof.
  intros Hme. apply item_items_ind.
  - intros n v Hv [n' w|n' w] s; [|intros []]. intros [<- Hsh] (Ho & Hrd & Hn & He) Hlk. cbn [load_item iname mx_item] in *.
    rewrite He, Ho, Hn. cbn [is_ok negb]. destruct v as [k z|k m], w as [k' z'|k' m']; try contradiction; cbn in Hsh; subst k'; cbn [load_value].
    + unfold load_scal, load_var. cbn [with_name a_open a_name a_stk a_rd a_file]. rewrite Ho. cbn [negb].
      assert (Hf : (match a_stk s with e :: _ => lookup n (e_fs e) | [] => if a_rd s then lookup n (a_file s) else None end) = Some (Num k 1 1 [z])).
      { unfold cont in Hlk. destruct (a_stk s); [rewrite Hrd by reflexivity|]; exact Hlk. }
      rewrite Hf. cbn. rewrite cls_eqb_refl. cbn. eexists _, _. split; [reflexivity|]. split; [cbn; auto|]. unfold same_st. cbn. auto 10.
    + destruct (load_mat_spec k m' n m (with_name s (Some n))) as (t' & s' & E & Q & ->); [exact Ho|exact Hrd|reflexivity|exact Hme|exact Hv|exact Hlk|].
      rewrite E. cbn [obind]. eexists _, _. split; [reflexivity|]. split; [split; [reflexivity|exact Q]|]. unfold same_st. cbn. auto 10.
  - intros n l IH [Hnd Hl] [n' w|n' w] s; [intros []|]. intros [<- Hsh] (Ho & Hrd & Hn & He) Hlk. cbn [load_item iname mx_item] in *.
    fold (load_items fd fs fi one me).
    rewrite He, Ho, Hn. cbn [is_ok negb]. unfold load_var. cbn [with_name a_open a_name a_stk a_rd a_file]. rewrite Ho. cbn [negb].
    assert (Hf : (match a_stk s with e :: _ => lookup n (e_fs e) | [] => if a_rd s then lookup n (a_file s) else None end) = Some (Str (put_all l []))).
    { unfold cont in Hlk. destruct (a_stk s); [rewrite Hrd by reflexivity|]; exact Hlk. }
    rewrite Hf. cbn [andb orb is_struct dims Nat.eqb]. cbn [with_name a_stk].
    match goal with |- context [load_items fd fs fi one me w ?st] => destruct (IH Hl w st) as (d' & s' & E & Q & SS) end.
    { exact Hsh. }
    { unfold ready. cbn. rewrite Ho, He. split; [reflexivity|]. split; [discriminate|]. auto. }
    { cbn. apply holds_put. exact Hnd. }
    rewrite E. cbn [obind]. eexists _, _. split; [reflexivity|]. split; [split; [reflexivity|exact Q]|].
    destruct SS as (S1 & S2 & S3 & S4 & S5 & S6 & S7). cbn in *. unfold same_st. cbn. rewrite S4. cbn. repeat split; congruence.
  - intros _ [|? ?] s; [|intros []]. intros _ _ _. eexists _, _. split; [reflexivity|]. split; [exact I|]. unfold same_st. auto 10.
  - intros i IHi l IHl [Hi Hl] [|j d] s; [intros []|]. intros [Si Sl] Hrdy [Hk Hh].
    destruct (IHi Hi j s Si Hrdy Hk) as (j' & s1 & E1 & Q1 & SS1).
    destruct (IHl Hl d s1 Sl (ready_same _ _ SS1 Hrdy)) as (d' & s2 & E2 & Q2 & SS2).
    { assert (C : cont s1 = cont s) by (destruct SS1 as (_ & _ & _ & S4 & _ & _ & S7); unfold cont; rewrite S4, S7; reflexivity). rewrite C. exact Hh. }
    exists (icons j' d'), s2.
    change (load_items fd fs fi one me (icons j d) s) with (do (i', s) <- load_item fd fs fi one me j s; do (l'', s) <- load_items fd fs fi one me d s; Some (icons i' l'', s)).
    rewrite E1. cbn [obind]. rewrite E2. cbn [obind]. split; [reflexivity|]. split; [split; assumption|].
    destruct SS1 as (A1 & A2 & A3 & A4 & A5 & A6 & A7), SS2 as (B1 & B2 & B3 & B4 & B5 & B6 & B7). unfold same_st. repeat split; congruence.
Qed.

Lemma readable_ok : (forall i, readable_item one i -> item_ok i) /\ (forall l, readable_items one l -> items_ok l).
Proof.
  apply item_items_ind.
  - intros n [k z|k m] H; [exact I|]. destruct H as (l & H & _). cbn. rewrite H. discriminate.
  - intros n l IH [_ H]. apply IH. exact H.
  - intros _. exact I.
  - intros i IHi l IHl [Hi Hl]. split; [apply IHi|apply IHl]; assumption.
Qed.

(** C127 *)
Theorem round_trip (ok : nat -> bool) rd f l dst :
  (forall k, ok k = true) -> (forall i, me i <> None) -> NoDup (names l) -> readable_items one l -> shape_items l dst ->
  exists s, save_items ok l (opened rd f) = Some s /\ a_err s = Success /\
  exists dst' s', load_items fd fs fi one me dst (opened true (a_file s)) = Some (dst', s') /\ a_err s' = Success /\ eq_items l dst'.
Proof.
  intros Hok Hme Hnd Hr Hs. destruct (save_complete ok rd f l (proj2 readable_ok l Hr)) as (s & E & H1 & H2).
  exists s. split; [exact E|]. split; [apply H2; exact Hok|]. destruct (H1 (H2 Hok)) as (-> & _).
  destruct (load_spec Hme) as [_ H]. destruct (H l Hr dst (opened true (put_all l f)) Hs) as (d' & s' & E' & Q & SS).
  { unfold ready. cbn. auto. }
  { apply holds_put. exact Hnd. }
  exists d', s'. split; [exact E'|]. split; [|exact Q]. destruct SS as (_ & _ & _ & _ & _ & -> & _). reflexivity.
Qed.
End L.
