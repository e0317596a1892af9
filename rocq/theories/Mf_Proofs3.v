(** Structures written piece by piece; closing; conversions. *)
From Coq Require Import String List.
From Verif Require Import Base BaseLemmas Smx_Model Mf_Model Mf_Spec Mf_Proofs Mf_Proofs2.
Import ListNotations.

Scheme block_mind := Induction for block Sort Prop
  with blocks_mind := Induction for blocks Sort Prop.
Combined Scheme block_blocks_ind from block_mind, blocks_mind.

Definition own (g : fields) : entry := mkE g false.
Definition goodst s c f : Prop :=
  a_open s = true /\ a_rd s = true /\ a_name s = None /\ a_err s = Success /\ a_stk s = map own c /\ a_file s = f.

Lemma no_empty_store n v f : (forall r c, v <> StrArr r c) -> no_empty_arr f -> no_empty_arr (store n v f).
Proof.
  intros Hv H m r c Hm. destruct (string_dec m n) as [->|Ne].
  - rewrite lookup_store_same in Hm. injection Hm as ->. exfalso. eapply Hv. reflexivity.
  - rewrite lookup_store_other in Hm by exact Ne. eapply H. exact Hm.
Qed.
Lemma mx_item_not_arr i r c : mx_item i <> StrArr r c.
Proof. destruct i as [n v|n l]; cbn; [destruct v; discriminate|discriminate]. Qed.

Section W.
Context (ok : nat -> bool) (Hok : forall k, ok k = true).

Lemma run_ops_app l1 : forall l2 s, run_ops ok (l1 ++ l2) s = do s' <- run_ops ok l1 s; run_ops ok l2 s'.
Proof.
  induction l1 as [|o l1 IH]; intros l2 s; [reflexivity|]. cbn [app run_ops]. destruct (run_op ok o s); cbn [obind]; [apply IH|reflexivity].
Qed.

(** Saving into the innermost container *)
Lemma save_to_set_top n v c f s : a_stk s = map own c -> a_file s = f -> a_name s = Some n ->
  exists s', save_to ok v s = (Success, s') /\ a_stk s' = map own (fst (set_top n v c f)) /\ a_file s' = snd (set_top n v c f) /\
  a_open s' = a_open s /\ a_rd s' = a_rd s /\ a_name s' = None /\ a_err s' = a_err s /\ a_nest s' = a_nest s.
Proof.
  intros Hs Hf Hn. unfold save_to. rewrite Hn, Hs. destruct c as [|g c]; cbn [map own].
  - rewrite Hok. eexists. split; [reflexivity|]. cbn. rewrite Hs, Hf. auto 10.
  - cbn [own e_fs]. destruct (lookup n g).
    + eexists. split; [reflexivity|]. cbn. rewrite Hf. auto 10.
    + rewrite Hok. eexists. split; [reflexivity|]. cbn. rewrite Hf. auto 10.
Qed.

Lemma begin_spec n u (d : bool) (c : list fields) f s : goodst s c f -> no_empty_arr f ->
  (u = true -> length c = if d then Nat.min 1 (length c) else 0%nat) ->
  let old := match d, c with true, g :: _ => Some (own g) | _, _ => @None entry end in
  let c1 := match d, c with true, _ :: c' => c' | _, _ => c end in
  exists s', struct_begin ok n u d s = (Success, s') /\ goodst s' (old_fields u n (top c1 f) :: c1) f /\
  a_nest s' = (n, old) :: a_nest s.
Proof.
  intros (Ho & Hr & Hn & He & Hs & Hf) Hne Hu. cbn zeta. unfold struct_begin. rewrite He, Ho, Hn. cbn [is_ok negb].
  set (old := match d, c with true, g :: _ => Some (own g) | _, _ => @None entry end).
  set (c1 := match d, c with true, _ :: c' => c' | _, _ => c end).
  assert (E1 : (match d, a_stk s with true, e :: st => (Some e, with_stk s st) | _, _ => (None, s) end) = (old, with_stk s (map own c1))).
  { unfold old, c1. rewrite Hs. destruct d, c; cbn [map]; try reflexivity; f_equal; destruct s; cbn in *; subst; reflexivity. }
  rewrite E1. clear E1. cbn beta iota.
  destruct u.
  - specialize (Hu eq_refl). assert (Hc1 : c1 = []).
    { unfold c1. destruct d, c as [|g c]; cbn in Hu; try reflexivity; try discriminate. destruct c; [reflexivity|discriminate]. }
    rewrite Hc1 in *. unfold load_var. cbn [with_name with_stk a_open a_name a_stk a_rd a_file map]. rewrite Ho, Hr. cbn [negb]. rewrite Hf.
    unfold old_fields. cbn [top].
    destruct (lookup n f) as [[k r c0 dd|fs|r c0|]|] eqn:El; cbn [is_struct is_num andb orb negb dims].
    + cbn. rewrite Hok. eexists. split; [reflexivity|]. split; [|reflexivity]. unfold goodst. cbn. rewrite Ho, Hr, Hf. auto 10.
    + cbn. eexists. split; [reflexivity|]. split; [|reflexivity]. unfold goodst. cbn. rewrite Ho, Hr, Hf, He. auto 10.
    + destruct (Hne n r c0 El) as [Hr0 Hc0]. destruct (Nat.eqb_spec r 0); [lia|]. destruct (Nat.eqb_spec c0 0); [lia|].
      cbn. rewrite Hok. eexists. split; [reflexivity|]. split; [|reflexivity]. unfold goodst. cbn. rewrite Ho, Hr, Hf, He. auto 10.
    + cbn. rewrite Hok. eexists. split; [reflexivity|]. split; [|reflexivity]. unfold goodst. cbn. rewrite Ho, Hr, Hf. auto 10.
    + cbn. rewrite Hok. eexists. split; [reflexivity|]. split; [|reflexivity]. unfold goodst. cbn. rewrite Ho, Hr, Hf. auto 10.
  - cbn. rewrite Hok. eexists. split; [reflexivity|]. split; [|reflexivity]. unfold goodst. cbn. rewrite Ho, Hr, Hn, Hf, He. auto 10.
Qed.

Lemma end_spec n old g c f nest s : goodst s (g :: c) f -> a_nest s = (n, old) :: nest ->
  exists s', struct_end ok s = Some (Success, s') /\
  a_open s' = true /\ a_rd s' = true /\ a_name s' = None /\ a_err s' = Success /\
  a_stk s' = (match old with Some o => [o] | None => [] end) ++ map own (fst (set_top n (Str g) c f)) /\
  a_file s' = snd (set_top n (Str g) c f) /\ a_nest s' = nest.
Proof.
  intros (Ho & Hr & Hn & He & Hs & Hf) Hne. unfold struct_end. rewrite He, Hne, Ho, Hn, Hs. cbn [is_ok negb map own e_alias guard obind e_fs].
  destruct (save_to_set_top n (Str g) c f (with_name (with_stk s (map own c)) (Some n)) eq_refl Hf eq_refl)
    as (s' & E & S1 & S2 & S3 & S4 & S5 & S6 & S7).
  unfold own in *. rewrite E. cbn beta iota. eexists. split; [reflexivity|]. cbn [note_err is_ok].
  cbn in S3, S4, S6. destruct old; cbn; rewrite S1, S2, S3, S4, S5, S6; auto 10.
Qed.

Lemma set_top_len n v c f : length (fst (set_top n v c f)) = length c.
Proof. destruct c; reflexivity. Qed.
Lemma set_top_ne n v c f : (forall r k, v <> StrArr r k) -> no_empty_arr f -> no_empty_arr (snd (set_top n v c f)).
Proof. intros Hv H. destruct c; cbn; [apply no_empty_store; assumption|exact H]. Qed.

Lemma blocks_spec :
  (forall b c f s, upd_top_b (length c) b -> goodst s c f -> no_empty_arr f ->
     exists s', run_ops ok (ops_b b) s = Some s' /\ goodst s' (fst (eff_b b c f)) (snd (eff_b b c f)) /\ a_nest s' = a_nest s /\
     length (fst (eff_b b c f)) = length c /\ no_empty_arr (snd (eff_b b c f))) /\
  (forall l c f s, upd_top_bs (length c) l -> goodst s c f -> no_empty_arr f ->
     exists s', run_ops ok (ops_bs l) s = Some s' /\ goodst s' (fst (eff_bs l c f)) (snd (eff_bs l c f)) /\ a_nest s' = a_nest s /\
     length (fst (eff_bs l c f)) = length c /\ no_empty_arr (snd (eff_bs l c f))).
Proof.
  apply block_blocks_ind.
  - intros i c f s Hi (Ho & Hr & Hn & He & Hs & Hf) Hne. cbn [upd_top_b] in Hi. cbn [ops_b run_ops run_op eff_b].
    destruct (save_spec ok) as [H _]. destruct (H i Hi s) as (s' & E & B & O & H1 & G); [split; [exact Ho|auto]|].
    rewrite E. cbn [obind]. exists s'. split; [reflexivity|]. pose proof (G Hok He) as He'. destruct (H1 He') as [_ Hc].
    destruct B as (B1 & B2 & B3 & B4). destruct O as [O1 O2].
    split.
    { unfold goodst. rewrite B2, Hr, O1, (O2 He'), He'. do 4 (split; [reflexivity|]).
      unfold cont in Hc. rewrite Hs in B4, Hc. destruct c as [|g c]; cbn [map own] in B4, Hc; destruct (a_stk s') as [|e st]; try contradiction.
      - cbn. split; [reflexivity|]. rewrite Hc, Hf. reflexivity.
      - destruct B4 as (-> & Ba & ->). cbn. split; [|exact Hf]. destruct e as [ef ea]. cbn in Ba, Hc. subst. reflexivity. }
    split; [exact B3|]. split; [apply set_top_len|]. apply set_top_ne; [apply mx_item_not_arr|exact Hne].
  - intros n u d l IH c f s [Hu Hl] Hg Hne.
    destruct (begin_spec n u d c f s Hg Hne) as (s1 & E1 & G1 & N1).
    { intros ->. specialize (Hu eq_refl). destruct d; [|exact Hu]. destruct c as [|g c]; [reflexivity|]. cbn in Hu. cbn. lia. }
    set (c1 := match d, c with true, _ :: c' => c' | _, _ => c end) in *.
    set (old := match d, c with true, g :: _ => Some (own g) | _, _ => @None entry end) in *.
    assert (Hlen : (if d then length c - 1 else length c)%nat = length c1).
    { unfold c1. destruct d, c; cbn; try reflexivity. lia. }
    rewrite Hlen in Hl.
    destruct (IH (old_fields u n (top c1 f) :: c1) f s1 Hl G1 Hne) as (s2 & E2 & G2 & N2 & L2 & F2).
    change (ops_b (BStruct n u d l)) with (OBegin n u d :: ops_bs l ++ [OEnd]).
    change (eff_b (BStruct n u d l) c f) with
      (let '(held, c) := match d, c with true, g :: c' => ([g], c') | _, _ => ([], c) end in
      match eff_bs l (old_fields u n (top c f) :: c) f with
      | (g :: c', f') => let '(c', f') := set_top n (Str g) c' f' in (held ++ c', f')
      | ([], f') => ([], f')
      end).
    assert (Eh : (match d, c with true, g :: c' => ([g], c') | _, _ => ([], c) end) = (match d, c with true, g :: _ => [g] | _, _ => [] end, c1)).
    { unfold c1. destruct d, c; reflexivity. }
    rewrite Eh. clear Eh. cbn beta iota.
    destruct (eff_bs l (old_fields u n (top c1 f) :: c1) f) as [c2 f2] eqn:Ee. cbn [fst snd] in *.
    destruct c2 as [|g2 c2]; [cbn in L2; discriminate|].
    rewrite N1 in N2. destruct (end_spec n old g2 c2 f2 (a_nest s) s2 G2 N2) as (s3 & E3 & A1 & A2 & A3 & A4 & A5 & A6 & A7).
    destruct (set_top n (Str g2) c2 f2) as [c3 f3] eqn:Et. cbn [fst snd] in *.
    exists s3. split.
    { cbn [run_ops run_op]. rewrite E1. cbn [snd obind]. rewrite run_ops_app, E2. cbn [obind run_ops run_op]. rewrite E3. reflexivity. }
    assert (L3 : length c3 = length c2) by (pose proof (set_top_len n (Str g2) c2 f2) as X; rewrite Et in X; exact X).
    cbn [length] in L2.
    split.
    { unfold goodst. rewrite A1, A2, A3, A4, A5, A6. do 4 (split; [reflexivity|]). split; [|reflexivity].
      unfold old. destruct d, c; reflexivity. }
    split; [exact A7|]. split.
    { rewrite app_length, L3. unfold c1 in L2. destruct d, c; cbn in *; lia. }
    { pose proof (set_top_ne n (Str g2) c2 f2) as X. rewrite Et in X. apply X; [discriminate|exact F2]. }
  - intros c f s _ Hg Hne. exists s. cbn. auto 10.
  - intros b IHb l IHl c f s [Hb Hl] Hg Hne.
    destruct (IHb c f s Hb Hg Hne) as (s1 & E1 & G1 & N1 & L1 & F1).
    change (ops_bs (bcons b l)) with (ops_b b ++ ops_bs l).
    change (eff_bs (bcons b l) c f) with (let '(c, f) := eff_b b c f in eff_bs l c f).
    destruct (eff_b b c f) as [c1 f1] eqn:Ee. cbn [fst snd] in *.
    rewrite <- L1 in Hl. destruct (IHl c1 f1 s1 Hl G1 F1) as (s2 & E2 & G2 & N2 & L2 & F2).
    exists s2. rewrite run_ops_app, E1. cbn [obind]. split; [exact E2|]. split; [exact G2|]. split; [congruence|]. split; [congruence|exact F2].
Qed.

(** C130 *)
Theorem blocks_file f l : upd_top_bs 0 l -> no_empty_arr f ->
  exists s', run_ops ok (ops_bs l) (opened true f) = Some s' /\ a_err s' = Success /\ a_stk s' = [] /\ a_nest s' = [] /\ a_name s' = None /\
  a_file s' = snd (eff_bs l [] f) /\ fst (close ok s') = Success.
Proof.
  intros Hl Hne. destruct blocks_spec as [_ H]. destruct (H l [] f (opened true f) Hl) as (s' & E & (G1 & G2 & G3 & G4 & G5 & G6) & N & L & _); [unfold goodst; cbn; auto 10|exact Hne|].
  destruct (fst (eff_bs l [] f)); [|discriminate]. cbn [map] in G5.
  exists s'. split; [exact E|]. split; [exact G4|]. split; [exact G5|]. split; [exact N|]. split; [exact G3|]. split; [exact G6|].
  unfold close. rewrite N, G1, G3, G5, Hok. reflexivity.
Qed.
End W.

(** C129 *)
Theorem close_partial ok s : let '(ec, s') := close ok s in
  (ec = Success <-> a_nest s = [] /\ a_name s = None /\ a_stk s = [] /\ (a_open s = true -> ok (a_calls s) = true)) /\
  a_err s' = ec /\ a_open s' = false /\ a_stk s' = [] /\ a_nest s' = [] /\ a_name s' = None /\ a_file s' = a_file s.
Proof.
  unfold close. destruct (a_nest s) as [|p nest], (a_name s) as [n|], (a_stk s) as [|e st], (a_open s), (ok (a_calls s)); cbn;
    (split; [|auto 10]); (split; [intros H; try discriminate; auto|intros (H1 & H2 & H3 & H4); try discriminate; try reflexivity; specialize (H4 eq_refl); discriminate]).
Qed.
Theorem close_refuted : exists ok i s s', save_item ok i (opened false []) = Some s /\ a_err s <> Success /\
  close ok s = (Success, s') /\ a_err s' = Success /\ a_file s' = [].
Proof.
  exists (fun k => negb (k =? 0)), (INamed "a"%string inil). eexists _, _. split; [reflexivity|]. split; [discriminate|]. split; [reflexivity|]. split; reflexivity.
Qed.

(** C127, refuted: names decide which column is the biases *)
Theorem round_trip_refuted fd fs fi one me : (forall i, me i <> None) ->
  exists l s l' s', items_ok l /\ save_items (fun _ => true) l (opened true []) = Some s /\ a_err s = Success /\
  load_items fd fs fi one me l (opened true (a_file s)) = Some (l', s') /\ a_err s' = Success /\ ~ eq_items l l'.
Proof.
  intros Hme. destruct (me 1) as [g|] eqn:Eg; [|exfalso; eapply Hme; exact Eg].
  exists (icons (INvp "train_x"%string (VMat Double (mkS 1 2 false false false false (Some [5; 7]%Z)))) inil).
  eexists. eexists. eexists. split; [cbn; split; [discriminate|exact I]|]. split; [reflexivity|]. split; [reflexivity|].
  split; [cbn; rewrite Eg; cbn; reflexivity|]. split; [reflexivity|]. cbn. intros [[_ (_ & _ & _ & H & _)] _]. discriminate.
Qed.
Theorem round_trip_refuted2 fd fs fi one me : (forall i, me i <> None) ->
  exists l s l' s', items_ok l /\ save_items (fun _ => true) l (opened true []) = Some s /\ a_err s = Success /\
  load_items fd fs fi one me l (opened true (a_file s)) = Some (l', s') /\ a_err s' = Success /\
  l' = icons (INvp "x"%string (VMat Double (mkS 1 2 false false false false (Some [5; one Double]%Z)))) inil /\
  l = icons (INvp "x"%string (VMat Double (mkS 1 2 true false false false (Some [5; one Double]%Z)))) inil.
Proof.
  intros Hme. destruct (me 1) as [g|] eqn:Eg; [|exfalso; eapply Hme; exact Eg].
  eexists. eexists. eexists. eexists. split; [|split; [|split; [|split; [|split; [|split; [|reflexivity]]]]]].
  6: reflexivity. 
  - cbn. split; [discriminate|exact I].
  - reflexivity.
  - reflexivity.
  - cbn. rewrite Eg. cbn. reflexivity.
  - reflexivity.
Qed.

(** C130, refuted *)
Theorem nested_update_refuted f : run_ops (fun _ => true)
  [OBegin "a" false false; OSave (INamed "b" (icons (INvp "z" (VScal Double 1%Z)) inil)); OBegin "b" true false; OEnd; OEnd]%string (opened true f) = None.
Proof. cbn. reflexivity. Qed.
Theorem empty_update_refuted : exists s e, run_ops (fun _ => true) [OBegin "a" true false; OEnd]%string (opened true [("a", StrArr 0 0)]%string) = Some s /\
  a_err s = e /\ e <> Success /\ a_nest s <> [].
Proof. eexists _, _. split; [reflexivity|]. split; [reflexivity|]. split; discriminate. Qed.

(** C131 *)
Section C.
Context (fd fs fi : cls -> Z -> Z) (one : cls -> Z) (me : nat -> mem_env Z).
Lemma fill_from_conv k src d (h : Z -> Z) : (forall z, List.In z d -> conv fd fs fi k src z = Some (h z)) ->
  forall n i l, (i + n <= length d)%nat -> (i + n <= length l)%nat ->
  exists l', fill_from fd fs fi k src d n i l = Some (Some l') /\ length l' = length l /\
  forall a, bget l' a = if (i <=? a) && (a <? i + n) then option_map h (bget d a) else bget l a.
Proof.
  intros Hh. induction n as [|n IH]; intros i l Hd Hl; cbn [fill_from].
  - exists l. split; [reflexivity|]. split; [reflexivity|]. intros a. destruct (Nat.leb_spec i a), (Nat.ltb_spec a (i + 0)); cbn [andb]; try reflexivity. lia.
  - destruct (bget_lt d i) as [z Hz]; [lia|]. unfold bget in Hz. rewrite Hz. cbn [obind]. rewrite (Hh z) by (eapply nth_error_In; exact Hz).
    destruct (bset_lt l i (h z)) as (l1 & E1); [lia|]. rewrite E1. cbn [obind]. destruct (bset_some _ _ _ _ E1) as (_ & Hlen & Ho).
    destruct (IH (S i) l1) as (l' & E & L & H); [lia|lia|]. exists l'. split; [exact E|]. split; [lia|].
    intros a. rewrite H. destruct (Nat.eq_dec a i) as [->|Ne].
    + destruct (Nat.leb_spec (S i) i); [lia|]. cbn [andb]. destruct (Nat.leb_spec i i), (Nat.ltb_spec i (i + S n)); try lia. cbn [andb].
      rewrite Ho, Nat.eqb_refl. unfold bget. rewrite Hz. reflexivity.
    + replace ((i <=? a) && (a <? i + S n)) with ((S i <=? a) && (a <? S i + n)) by lia.
      destruct ((S i <=? a) && (a <? S i + n)); [reflexivity|]. rewrite Ho. destruct (Nat.eqb_spec a i); [contradiction|reflexivity].
Qed.

Lemma conv_exact dst src z :
  (dst = src -> conv fd fs fi dst src z = Some z) /\
  (dst <> src -> forall sg w, src = Int sg w -> (w = 8 \/ w = 32 \/ w = 64)%Z -> (0 <= z < 2 ^ w)%Z -> conv fd fs fi dst src z = Some (fi dst z)).
Proof.
  split.
  - intros ->. unfold conv. rewrite cls_eqb_refl. reflexivity.
  - intros Hne sg w -> Hw Hz. unfold conv. destruct (cls_eqb dst (Int sg w)) eqn:E.
    + exfalso. apply Hne. destruct dst; cbn in E; try discriminate. apply andb_prop in E. destruct E as [E1 E2].
      apply Bool.eqb_prop in E1. apply Z.eqb_eq in E2. subst. reflexivity.
    + rewrite Z.mod_small by exact Hz. destruct Hw as [-> | [-> | -> ] ]; reflexivity.
Qed.

(** A matrix of the file, of whichever class of integers *)
Theorem load_ints_partial k sg w r c d n t f :
  (forall i, me i <> None) -> x_name n = false -> (0 < r)%nat -> (0 < c)%nat -> length d = (r * c)%nat ->
  k <> Int sg w -> (w = 8 \/ w = 32 \/ w = 64)%Z -> (forall z, List.In z d -> 0 <= z < 2 ^ w)%Z ->
  lookup n f = Some (Num (Int sg w) r c d) ->
  exists t' s', load_items fd fs fi one me (icons (INvp n (VMat k t)) inil) (opened true f) = Some (icons (INvp n (VMat k t')) inil, s') /\
  a_err s' = Success /\ s_rows t' = r /\ s_cols t' = c /\ s_bias t' = false /\ s_data t' = Some (map (fi k) d).
Proof.
  intros Hme Hx Hr Hc Hlen Hk Hw Hd Hl. cbn [load_items load_item opened a_err a_open a_name is_ok negb load_value].
  unfold load_mat, load_var, opened. cbn [with_name a_open a_name a_stk a_rd a_file negb]. rewrite Hl. cbn [is_num andb orb negb dims].
  destruct (Nat.eqb_spec r 0) as [?|_]; [lia|]. destruct (Nat.eqb_spec c 0) as [?|_]; [lia|]. cbn [orb with_name a_name obind]. rewrite is_x_name, Hx.
  destruct (me 1%nat) as [g|] eqn:Eg; [|exfalso; exact (Hme _ Eg)].
  match goal with |- context [resize _ (me ?x)] => change (me x) with (me 1%nat) end. rewrite Eg.
  destruct (resize_cleared (one k) g t false r c Hr Hc) as (t1 & l1 & E1 & R1 & C1 & B1 & I1 & D1 & L1 & _).
  rewrite E1. cbn [obind]. rewrite D1. cbn [obind Nat.b2n] in *. rewrite Nat.add_0_r in *.
  assert (Hnb : s_numel_nb t1 = (r * c)%nat).
  { unfold s_numel_nb, s_rows_nb, s_cols_nb, s_bias_row, s_bias_col. rewrite R1, C1, B1, I1. cbn. f_equal; lia. }
  rewrite Hnb. destruct (fill_from_conv k (Int sg w) d (fi k)) with (n := (r * c)%nat) (i := 0%nat) (l := l1) as (l2 & E2 & L2 & H2); [|lia|lia|].
  { intros z Hz. eapply conv_exact; [exact Hk|reflexivity|exact Hw|apply Hd; exact Hz]. }
  rewrite E2. cbn [obind]. eexists _, _. split; [reflexivity|]. cbn. rewrite R1, C1, B1. do 4 (split; [reflexivity|]). f_equal.
  apply list_eq_bget. intros a. rewrite H2. unfold bget. rewrite nth_error_map. cbn [Nat.leb andb].
  destruct (Nat.ltb_spec a (0 + r * c)); [reflexivity|].
  rewrite (proj2 (nth_error_None d a)), (proj2 (nth_error_None l1 a)) by lia. reflexivity.
Qed.
Theorem load_ints_refuted : (forall i, me i <> None) -> forall z, (- 2 ^ 31 <= z < 0)%Z ->
  exists s', load_items fd fs fi one me (icons (INvp "y" (VMat Double init)) inil) (opened true [("y", Num (Int true 32) 1 1 [z])])%string =
  Some (icons (INvp "y"%string (VMat Double (mkS 1 1 false false false false (Some [fi Double (2 ^ 32 + z)%Z])))) inil, s') /\ a_err s' = Success.
Proof.
  intros Hme z Hz. destruct (me 1%nat) as [g|] eqn:Eg; [|exfalso; exact (Hme _ Eg)].
  assert (E : (z mod 2 ^ 32 = 2 ^ 32 + z)%Z) by (symmetry; apply (Z.mod_unique z (2 ^ 32) (-1)); lia).
  rewrite <- E. eexists. split; [cbn; rewrite Eg; cbn; reflexivity|reflexivity].
Qed.
End C.
