(** The contents of the files of the dumping inspector. *)
From Coq Require Import String List.
From Verif Require Import Base Smx_Model Util_Model Mf_Model Mf_Spec Dp_Model Dp_Spec.
Import ListNotations.
Local Open Scope Z_scope.

(** An open archive with at most one structure at hand *)
Definition AR (a : ar) (o : option fields) (f : fields) : Prop :=
  a_open a = true /\ a_err a = Success /\ a_name a = None /\ a_file a = f /\
  a_stk a = match o with Some g => [mkE g false] | None => [] end.
Definition hold (o : option fields) : option entry := option_map (fun g => mkE g false) o.
Definition nil_of (o : option fields) : fields := match o with Some g => g | None => [] end.

Lemma save_in n v a g f : AR a (Some g) f -> has_data v ->
  exists a', save_item lib (INvp n v) a = Some a' /\ a_err a' = Success /\
             AR a' (Some (store n (mx_val v) g)) f /\ a_nest a' = a_nest a.
Proof.
  unfold AR. destruct a as [op rd nm stk nst er fl ca]. cbn. intros (-> & -> & -> & -> & ->) Hd.
  destruct v as [kk z | kk m]; cbn.
  - unfold save_var, save_to, note_err, lib. cbn. destruct (lookup n g); cbn; eexists; repeat split.
  - unfold has_data in Hd. destruct (s_data m) as [d|] eqn:E; [| contradiction]. cbn.
    unfold save_var, save_to, note_err, lib. cbn. destruct (lookup n g); cbn; eexists; repeat split.
Qed.

Lemma begin_in n a o f : AR a o f ->
  exists a', struct_begin lib n false true a = (Success, a') /\ AR a' (Some []) f /\ a_nest a' = (n, hold o) :: a_nest a.
Proof.
  unfold AR. destruct a as [op rd nm stk nst er fl ca]. cbn. intros (-> & -> & -> & -> & ->).
  destruct o; cbn; eexists; repeat split.
Qed.

Lemma end_in n a o g f r : AR a (Some g) f -> a_nest a = (n, hold o) :: r ->
  exists a', struct_end lib a = Some (Success, a') /\ AR a' o (store n (Str g) f) /\ a_nest a' = r.
Proof.
  unfold AR. destruct a as [op rd nm stk nst er fl ca]. cbn. intros (-> & -> & -> & -> & ->) ->.
  destruct o; cbn; eexists; repeat split.
Qed.

Lemma close_in a f : AR a None f -> a_nest a = [] ->
  exists a', close lib a = (Success, a') /\ a_open a' = false /\ a_file a' = f.
Proof.
  unfold AR. destruct a as [op rd nm stk nst er fl ca]. cbn. intros (-> & -> & -> & -> & ->) ->.
  cbn. eexists; repeat split.
Qed.

Scheme call_ind2 := Induction for call Sort Prop with calls_ind2 := Induction for calls Sort Prop.
Combined Scheme call_mut from call_ind2, calls_ind2.

Lemma set_ar_ar s a b : set_ar (set_ar s a) b = set_ar s b.
Proof. reflexivity. Qed.

Lemma quiet fwd : (forall c s, do_dump s = false -> run_call fwd c s = Some s) /\
                  (forall l s, do_dump s = false -> run_calls fwd l s = Some s).
Proof.
  apply call_mut.
  - intros n v s H. cbn. unfold do_dump_l. rewrite H. reflexivity.
  - intros l vin vout body IH s H. cbn [run_call]. unfold layer_begin, do_dump_l.
    change (do_dump (set_stk s (l :: d_stk s))) with (do_dump s). rewrite H. cbn [obind andb].
    rewrite IH by exact H. cbn [obind]. unfold layer_end, do_dump_l.
    change (do_dump (set_stk s (l :: d_stk s))) with (do_dump s). rewrite H. cbn. destruct s; reflexivity.
  - reflexivity.
  - intros c IHc l IHl s H. cbn [run_calls]. rewrite IHc by exact H. cbn [obind]. apply IHl, H.
Qed.

Lemma told_layer fwd ok nm l' vin vout body l own f :
  told fwd ok nm (Layer l' vin vout body) l own f =
  if ok l' && negb (l' =? l) then
    let gf := tolds fwd ok nm body l' (if fwd then [] else [("dLdA"%string, mx_val vin)]) f in
    (own, store (nm l') (Str (if fwd then store "A"%string (mx_val vout) (fst gf) else fst gf)) (snd gf))
  else tolds fwd ok nm body l' own f.
Proof. cbn [told]. fold (tolds fwd ok nm). destruct (ok l' && negb (l' =? l)); [| reflexivity].
  destruct (tolds fwd ok nm body l' _ f); reflexivity. Qed.
Lemma tolds_cons fwd ok nm c cs l own f :
  tolds fwd ok nm (ccons c cs) l own f = tolds fwd ok nm cs l (fst (told fwd ok nm c l own f)) (snd (told fwd ok nm c l own f)).
Proof. cbn [tolds]. fold (told fwd ok nm). destruct (told fwd ok nm c l own f); reflexivity. Qed.

Lemma file_indep0 fwd ok nm : 
  (forall c l o1 o2 f, snd (told fwd ok nm c l o1 f) = snd (told fwd ok nm c l o2 f)) /\
  (forall cs l o1 o2 f, snd (tolds fwd ok nm cs l o1 f) = snd (tolds fwd ok nm cs l o2 f)).
Proof.
  apply call_mut.
  - reflexivity.
  - intros l' vin vout body IH l o1 o2 f. rewrite !told_layer. destruct (ok l' && negb (l' =? l)); [reflexivity | apply IH].
  - reflexivity.
  - intros c IHc cs IHl l o1 o2 f. rewrite !tolds_cons, (IHc l o1 o2 f). apply IHl.
Qed.

Section R.
Context (fwd : bool) (w : bwlist) (nms : list string).
Definition ok_of (l : Z) : bool := match bw_allowed w l with Some b => b | None => false end.
Definition nm_of (l : Z) : string := match zget nms l with Some n => n | None => "_NoName"%string end.
Context (Hlen : Z.of_nat (length (bw_cond w)) <= 65535).

Lemma allowed_in l : 0 <= l < Z.of_nat (length (bw_cond w)) -> bw_allowed w l = Some (ok_of l).
Proof.
  intro H. unfold ok_of, bw_allowed, vc_ask, zget. destruct (Z.ltb_spec l 0); [lia|].
  unfold bget. destruct (nth_error (bw_cond w) (Z.to_nat l)) eqn:E; [reflexivity|].
  apply nth_error_None in E. lia.
Qed.

Definition prep s := d_bw s = w /\ d_names s = nms /\ do_dump s = true.
Definition inside (inl : bool) (l0 : Z) (own : option fields) (s : st) : Prop :=
  if inl then 0 <= l0 < Z.of_nat (length (bw_cond w)) /\ d_stk s <> [] /\ (ok_of l0 = true -> own <> None)
  else d_stk s = [] /\ own = None.

Definition good_run (own : option fields) s (r : option st) (o : fields * fields) : Prop :=
  exists a', r = Some (set_ar s a') /\ AR a' (option_map (fun _ => fst o) own) (snd o) /\ a_nest a' = a_nest (d_ar s).

Lemma calls_spec : 
  (forall c inl s own f, call_ok (length (bw_cond w)) inl c -> prep s -> AR (d_ar s) own f -> inside inl (cur s) own s ->
     good_run own s (run_call fwd c s) (told fwd ok_of nm_of c (cur s) (nil_of own) f)) /\
  (forall l inl s own f, calls_ok (length (bw_cond w)) inl l -> prep s -> AR (d_ar s) own f -> inside inl (cur s) own s ->
     good_run own s (run_calls fwd l s) (tolds fwd ok_of nm_of l (cur s) (nil_of own) f)).
Proof using Hlen.
  apply call_mut.
  - intros n v inl s own f [-> Hd] (Hw & Hn & Hdo) Ha (Hl & Hk & Ho). cbn [run_call told].
    unfold do_dump_l. rewrite Hdo, Hw, allowed_in by exact Hl. cbn [obind].
    destruct (ok_of (cur s)) eqn:E.
    + destruct own as [g|]; [| exfalso; apply Ho; reflexivity].
      destruct (save_in n v _ _ _ Ha Hd) as (a' & Hs & He & Ha' & Hne).
      unfold save. rewrite Hs. cbn [obind]. rewrite He. cbn. exists a'. cbn. auto.
    + exists (d_ar s). split; [destruct s; reflexivity|]. split; [| reflexivity]. destruct own; exact Ha.
  - intros l vin vout body IH inl s own f (Hl & Hvi & Hvo & Hb) (Hw & Hn & Hdo) Ha Hin.
    cbn [run_call]. rewrite told_layer. set (s1 := set_stk s (l :: d_stk s)).
    assert (Hc1 : cur s1 = l) by reflexivity.
    assert (Hup : upper_diff s1 = negb (l =? cur s)).
    { unfold upper_diff, s1, cur. cbn. destruct (d_stk s); [| reflexivity].
      destruct (Z.eqb_spec l no_layer) as [e|]; [unfold no_layer in e; lia | reflexivity]. }
    assert (Hp1 : prep s1) by (repeat split; assumption).
    assert (Hal : do_dump_l s1 l = Some (ok_of l)).
    { unfold do_dump_l. change (do_dump s1) with (do_dump s). rewrite Hdo. change (d_bw s1) with (d_bw s). rewrite Hw. apply allowed_in, Hl. }
    assert (Hnm : layer_name s1 = Some (nm_of l)).
    { unfold layer_name, nm_of. rewrite Hc1. change (d_names s1) with (d_names s). rewrite Hn. destruct (zget nms l); reflexivity. }
    unfold layer_begin. fold s1. rewrite Hal, Hup. cbn [obind].
    destruct (ok_of l && negb (l =? cur s)) eqn:E.
    + rewrite Hnm. cbn [obind]. change (d_ar s) with (d_ar s1) in Ha.
      destruct (begin_in (nm_of l) _ _ _ Ha) as (a2 & Hs2 & Ha2 & Hn2).
      unfold str_begin. rewrite Hs2. cbn [is_ok obind].
      assert (X : exists a3, (if fwd then Some (set_ar s1 a2) else save "dLdA"%string vin (set_ar s1 a2)) = Some (set_ar s1 a3) /\
                  AR a3 (Some (if fwd then [] else [("dLdA"%string, mx_val vin)])) f /\ a_nest a3 = (nm_of l, hold own) :: a_nest (d_ar s)).
      { destruct fwd.
        - exists a2. repeat split; try reflexivity; try apply Ha2. exact Hn2.
        - destruct (save_in "dLdA"%string vin _ _ _ Ha2 Hvi) as (a' & Hs & He & Ha' & Hne).
          exists a'. unfold save. cbn [d_ar set_ar]. rewrite Hs. cbn [obind]. rewrite He. cbn. repeat split; try apply Ha'. rewrite Hne. exact Hn2. }
      destruct X as (a3 & -> & Ha3 & Hn3). cbn [obind].
      destruct (IH true (set_ar s1 a3) _ f Hb ltac:(repeat split; assumption) Ha3) as (a4 & Hr & Ha4 & Hn4).
      { split; [exact Hl|]. split; [discriminate|]. intros _ X; discriminate X. }
      change (cur (set_ar s1 a3)) with l in *. cbn [nil_of option_map d_ar set_ar] in *.
      destruct (tolds fwd ok_of nm_of body l _ f) as [g f'] eqn:Et. cbn [fst snd] in *.
      rewrite Hr. cbn [obind]. rewrite set_ar_ar.
      unfold layer_end. change (do_dump_l (set_ar s1 a4) (cur (set_ar s1 a4))) with (do_dump_l s1 l). rewrite Hal.
      change (upper_diff (set_ar s1 a4)) with (upper_diff s1). rewrite Hup. cbn [obind]. rewrite E.
      assert (X : exists a5, (if fwd then save "A"%string vout (set_ar s1 a4) else Some (set_ar s1 a4)) = Some (set_ar s1 a5) /\
                  AR a5 (Some (if fwd then store "A"%string (mx_val vout) g else g)) f' /\ a_nest a5 = (nm_of l, hold own) :: a_nest (d_ar s)).
      { destruct fwd.
        - destruct (save_in "A"%string vout _ _ _ Ha4 Hvo) as (a' & Hs & He & Ha' & Hne).
          exists a'. unfold save. cbn [d_ar set_ar]. rewrite Hs. cbn [obind]. rewrite He. cbn. repeat split; try apply Ha'. rewrite Hne, Hn4. exact Hn3.
        - exists a4. repeat split; try apply Ha4. rewrite Hn4. exact Hn3. }
      destruct X as (a5 & -> & Ha5 & Hn5). cbn [obind].
      destruct (end_in _ _ own _ _ _ Ha5 Hn5) as (a6 & Hs6 & Ha6 & Hn6).
      unfold str_end. cbn [d_ar set_ar]. rewrite Hs6. cbn [obind is_ok]. cbn.
      exists a6. cbn. split; [destruct s; reflexivity|]. split; [| exact Hn6]. destruct own; exact Ha6.
    + cbn [obind].
      destruct (IH true s1 own f Hb Hp1 Ha) as (a4 & Hr & Ha4 & Hn4).
      { split; [exact Hl|]. split; [discriminate|]. intro Hok. change (ok_of l = true) in Hok. rewrite Hok in E. cbn in E.
        apply negb_false_iff, Z.eqb_eq in E. destruct inl; destruct Hin as [H1 H2].
        - apply H2. rewrite <- E. exact Hok.
        - exfalso. unfold cur in E. rewrite H1 in E. unfold no_layer in E. lia. }
      change (cur s1) with l in *. destruct (tolds fwd ok_of nm_of body l (nil_of own) f) as [g f'] eqn:Et. cbn [fst snd] in *.
      rewrite Hr. cbn [obind]. unfold layer_end.
      change (do_dump_l (set_ar s1 a4) (cur (set_ar s1 a4))) with (do_dump_l s1 l). rewrite Hal.
      change (upper_diff (set_ar s1 a4)) with (upper_diff s1). rewrite Hup. cbn [obind]. rewrite E. cbn.
      exists a4. split; [destruct s; reflexivity|]. auto.
  - intros inl s own f _ Hp Ha Hin. cbn. exists (d_ar s). split; [destruct s; reflexivity|]. split; [destruct own; exact Ha | reflexivity].
  - intros c IHc l IHl inl s own f [Hc Hl] Hp Ha Hin. cbn [run_calls]. rewrite tolds_cons.
    destruct (IHc inl s own f Hc Hp Ha Hin) as (a1 & Hr & Ha1 & Hn1).
    destruct (told fwd ok_of nm_of c (cur s) (nil_of own) f) as [g1 f1]. cbn [fst snd] in *.
    rewrite Hr. cbn [obind].
    assert (Hin1 : inside inl (cur s) (option_map (fun _ => g1) own) (set_ar s a1)).
    { destruct inl; cbn in *; [destruct Hin as (A & B & C) | destruct Hin as (A & ->)]; repeat split; try assumption; try lia; try reflexivity.
      intro H. specialize (C H). destruct own; [discriminate | contradiction]. }
    destruct (IHl inl (set_ar s a1) _ f1 Hl Hp Ha1 Hin1) as (a2 & Hr2 & Ha2 & Hn2).
    change (cur (set_ar s a1)) with (cur s) in *. exists a2. cbn [d_ar set_ar] in *.
    assert (Ho : nil_of (option_map (fun _ => g1) own) = match own with Some _ => g1 | None => [] end) by (destruct own; reflexivity).
    rewrite Ho in *. rewrite Hr2, set_ar_ar. split; [reflexivity|].
    split; [| rewrite Hn2; exact Hn1].
    destruct own as [g|]; [exact Ha2|].
    cbn in Ha2 |- *. rewrite (proj2 (file_indep0 fwd ok_of nm_of) l (cur s) g1 []). exact Ha2.
Qed.
End R.
