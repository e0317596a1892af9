From Coq Require Import Permutation Sorted.
From Verif Require Import Base BaseLemmas Workers_Model FindK_Model FindK_Spec FindK_Proofs.

Section F.
Context {V : Type} (lt eqv : V -> V -> bool) (bot : V).
Notation pairs := (list (V * option nat)).
Context (OK : order_ok lt eqv).

Lemma lt_irr a : lt a a = false. Proof. apply OK. Qed.
Lemma lt_tr a b c : lt a b = true -> lt b c = true -> lt a c = true. Proof. apply OK. Qed.
Lemma lt_eq a b : lt a b = false -> lt b a = false -> a = b. Proof. apply OK. Qed.
Lemma lt_le_tr a b c : lt a b = true -> lt c b = false -> lt a c = true.
Proof.
  intros H1 H2. destruct (lt a c) eqn:E; [reflexivity|]. destruct (lt b c) eqn:E2; [rewrite (lt_tr a b c H1 E2) in E; discriminate|].
  rewrite (lt_eq b c E2 H2) in H1. congruence.
Qed.
Lemma le_lt_tr a b c : lt b a = false -> lt b c = true -> lt a c = true.
Proof.
  intros H1 H2. destruct (lt a c) eqn:E; [reflexivity|]. destruct (lt a b) eqn:E2; [rewrite (lt_tr a b c E2 H2) in E; discriminate|].
  rewrite (lt_eq a b E2 H1) in E. congruence.
Qed.
Lemma le_tr a b c : lt b a = false -> lt c b = false -> lt c a = false.
Proof. intros H1 H2. destruct (lt c a) eqn:E; [|reflexivity]. rewrite (lt_le_tr c a b E H1) in H2. discriminate. Qed.
Lemma lt_le a b : lt a b = true -> lt b a = false.
Proof. intros H. destruct (lt b a) eqn:E; [|reflexivity]. rewrite <- (lt_irr a), (lt_tr a b a H E). reflexivity. Qed.

(** ** The distinct orders *)
Notation stepD := (astep lt false).
Notation splitD := (split_at lt false).
Definition Rd (p q : V * option nat) : Prop := lt (fst p) (fst q) = true \/ (fst p = bot /\ fst q = bot).

Lemma Rd_le p q : Rd p q -> lt (fst q) (fst p) = false.
Proof. intros [H|[-> ->]]; [apply lt_le; exact H|apply lt_irr]. Qed.

Lemma splitD_spec v R : StronglySorted Rd R ->
  Forall (fun p => lt v (fst p) = false) (fst (splitD v R)) /\ Forall (fun p => lt v (fst p) = true) (snd (splitD v R)).
Proof.
  induction 1 as [|p R HS IH HF]; [split; constructor|]. cbn [split_at]. unfold first_better. destruct (lt v (fst p)) eqn:E.
  - cbn [fst snd]. split; [constructor|]. constructor; [exact E|]. eapply Forall_impl; [|exact HF]. intros q Hq.
    apply (lt_le_tr v (fst p) (fst q) E). apply Rd_le. exact Hq.
  - destruct (splitD v R) as [lo hi]. cbn [fst snd] in *. split; [constructor; [exact E|apply IH]|apply IH].
Qed.

Lemma sorted_app_inv {T} (R : T -> T -> Prop) a b : StronglySorted R (a ++ b) ->
  StronglySorted R a /\ StronglySorted R b /\ Forall (fun x => Forall (R x) b) a.
Proof.
  induction a as [|x a IH]; cbn [app]; intros H; [repeat split; [constructor|exact H|constructor]|].
  inversion H; subst. destruct (IH H2) as (S1 & S2 & S3). apply Forall_app in H3. destruct H3. repeat split; [constructor| |constructor]; assumption.
Qed.
Lemma sorted_app {T} (R : T -> T -> Prop) a b : StronglySorted R a -> StronglySorted R b -> Forall (fun x => Forall (R x) b) a -> StronglySorted R (a ++ b).
Proof.
  intros H1 H2. induction H1 as [|x a HS IH HF]; intros H3; [exact H2|]. inversion H3; subst. cbn [app]. constructor; [auto|].
  apply Forall_app. split; assumption.
Qed.

(** what one step of the distinct search does *)
Lemma stepD_cases P i v : StronglySorted Rd P -> P <> [] ->
  (stepD P i v = P /\ (In v (map fst P) \/ forall w, In w (map fst P) -> lt v w = true)) \/
  (exists p0 lo hi, P = p0 :: lo ++ hi /\ stepD P i v = lo ++ (v, Some i) :: hi /\ ~ In v (map fst P) /\
     StronglySorted Rd (lo ++ (v, Some i) :: hi) /\ lt (fst p0) v = true /\
     (forall q, In q lo -> lt (fst q) v = true) /\ (forall q, In q hi -> lt v (fst q) = true)).
Proof.
  intros HS HN. destruct P as [|p0 R]; [congruence|]. inversion HS as [|? ? HSR HF]; subst. unfold astep, first_better.
  destruct (lt (fst p0) v) eqn:E0.
  2: { left. split; [reflexivity|]. destruct (lt v (fst p0)) eqn:E1.
       - right. intros w [<-|Hw]; [exact E1|]. apply in_map_iff in Hw. destruct Hw as (q & <- & Hq).
         rewrite Forall_forall in HF. apply (lt_le_tr v (fst p0)); [exact E1|]. apply Rd_le, HF, Hq.
       - left. left. apply lt_eq; assumption. }
  pose proof (split_app lt false v R) as HA. destruct (splitD_spec v R HSR) as [Hlo Hhi].
  destruct (splitD v R) as [lo hi]. cbn [fst snd] in *. subst R. cbn [orb].
  rewrite Forall_forall in Hlo, Hhi, HF. pose proof (sorted_app_inv _ _ _ HSR) as (S1 & S2 & S3).
  destruct lo as [|t lo] using rev_ind.
  - cbn [last app] in *. rewrite E0. right. exists p0, [], hi. split; [reflexivity|]. split; [reflexivity|]. split.
    { intros [E|Hin]; [rewrite E, lt_irr in E0; discriminate|]. apply in_map_iff in Hin. destruct Hin as (q & E & Hq).
      apply Hhi in Hq. rewrite E, lt_irr in Hq. discriminate. }
    split; [|split; [exact E0|split; [intros q []|exact Hhi]]]. constructor; [exact HSR|].
    apply Forall_forall. intros q Hq. left. apply Hhi. exact Hq.
  - clear IHlo. rewrite last_last. destruct (lt (fst t) v) eqn:Et.
    + right. exists p0, (lo ++ [t]), hi. split; [reflexivity|]. split; [reflexivity|].
      assert (Hlt : forall q, In q (lo ++ [t]) -> lt (fst q) v = true).
      { intros q Hq. apply in_app_or in Hq. destruct Hq as [Hq|[<-|[]]]; [|exact Et].
        apply sorted_app_inv in S1. destruct S1 as (_ & _ & S1). rewrite Forall_forall in S1. specialize (S1 q Hq). inversion S1; subst.
        apply (le_lt_tr (fst q) (fst t)); [apply Rd_le; assumption|exact Et]. }
      split.
      { intros [E|Hin]; [rewrite E, lt_irr in E0; discriminate|]. apply in_map_iff in Hin. destruct Hin as (q & E & Hq).
        apply in_app_or in Hq. destruct Hq as [Hq|Hq]; [apply Hlt in Hq|apply Hhi in Hq]; rewrite E, lt_irr in Hq; discriminate. }
      split; [|split; [exact E0|split; [exact Hlt|exact Hhi]]].
      apply sorted_app; [exact S1| |].
      * constructor; [exact S2|]. apply Forall_forall. intros q Hq. left. apply Hhi. exact Hq.
      * rewrite Forall_forall in S3 |- *. intros q Hq. constructor; [left; apply Hlt; exact Hq|apply S3; exact Hq].
    + left. split; [reflexivity|]. left. right. apply in_map_iff. exists t. split.
      * apply lt_eq; [exact Et|]. apply Hlo. apply in_or_app. right. left. reflexivity.
      * apply in_or_app. left. apply in_or_app. right. left. reflexivity.
Qed.

(** invariant of the search started from the values [V0], [seen] already visited *)
Definition InvD (V0 : list V) (seen : list V) (P : pairs) : Prop :=
  StronglySorted Rd P /\
  (forall c o, In (c, o) P -> match o with
     | Some i => nth_error seen i = Some c /\ (forall i', i' < i -> nth_error seen i' <> Some c) /\ ~ In c V0
     | None => In c V0 end) /\
  (forall v, In v V0 \/ In v seen -> In v (map fst P) \/ forall w, In w (map fst P) -> lt v w = true).

Lemma InvD_step V0 seen P v : InvD V0 seen P -> P <> [] -> InvD V0 (seen ++ [v]) (stepD P (length seen) v) /\ stepD P (length seen) v <> [].
Proof.
  intros (I1 & I2 & I3) HN.
  assert (Hold : forall c o, In (c, o) P -> match o with
     | Some i => nth_error (seen ++ [v]) i = Some c /\ (forall i', i' < i -> nth_error (seen ++ [v]) i' <> Some c) /\ ~ In c V0
     | None => In c V0 end).
  { intros c o Hin. specialize (I2 c o Hin). destruct o as [i|]; [|exact I2]. destruct I2 as (H1 & H2 & H3).
    assert (i < length seen) by (apply nth_error_Some; congruence). split; [rewrite nth_error_app1 by lia; exact H1|].
    split; [|exact H3]. intros i' Hi. rewrite nth_error_app1 by lia. apply H2. exact Hi. }
  destruct (stepD_cases P (length seen) v I1 HN) as [[-> Hv]|(p0 & lo & hi & EP & -> & Hnin & HS & H0 & Hlo & Hhi)].
  - split; [|exact HN]. split; [exact I1|]. split; [exact Hold|]. intros w [Hw|Hw]; [apply I3; left; exact Hw|].
    apply in_app_or in Hw. destruct Hw as [Hw|[<-|[]]]; [apply I3; right; exact Hw|exact Hv].
  - split; [|destruct lo; discriminate]. split; [exact HS|]. split.
    + intros c o Hin. apply in_app_or in Hin.
      assert (Hc : (c, o) = (v, Some (length seen)) \/ In (c, o) P).
      { rewrite EP. destruct Hin as [Hin|[E|Hin]]; [right; right; apply in_or_app; left; exact Hin|left; auto|right; right; apply in_or_app; right; exact Hin]. }
      destruct Hc as [Hc|Hc]; [|apply Hold; exact Hc]. inversion Hc; subst c o.
      assert (HnV : ~ (In v V0 \/ In v seen)).
      { intros Hv. destruct (I3 v Hv) as [Hin'|Hall]; [exact (Hnin Hin')|].
        specialize (Hall (fst p0)). rewrite EP in Hall. specialize (Hall (or_introl eq_refl)). rewrite (lt_le _ _ H0) in Hall. discriminate. }
      split; [rewrite nth_error_app2, Nat.sub_diag by lia; reflexivity|]. split; [|tauto].
      intros i' Hi. rewrite nth_error_app1 by lia. intros Hn. apply HnV. right. eapply nth_error_In. exact Hn.
    + assert (Hnew : forall w, In w (map fst (lo ++ (v, Some (length seen)) :: hi)) <-> w = v \/ In w (map fst (lo ++ hi))).
      { intros w. rewrite !map_app. cbn [map fst]. rewrite !in_app_iff. cbn [In]. intuition. }
      assert (Hgt : forall u, lt u v = true -> (forall w, In w (map fst (p0 :: lo ++ hi)) -> lt u w = true) -> forall w, In w (map fst (lo ++ (v, Some (length seen)) :: hi)) -> lt u w = true).
      { intros u Hu Hall w Hw. apply Hnew in Hw. destruct Hw as [->|Hw]; [exact Hu|]. apply Hall. right. exact Hw. }
      assert (Hp0 : In (fst p0) (map fst (lo ++ (v, Some (length seen)) :: hi)) \/ forall w, In w (map fst (lo ++ (v, Some (length seen)) :: hi)) -> lt (fst p0) w = true).
      { destruct lo as [|q lo].
        - right. intros w [<-|Hw]; [exact H0|]. apply in_map_iff in Hw. destruct Hw as (q & <- & Hq). apply (lt_tr _ v); [exact H0|]. apply Hhi, Hq.
        - rewrite EP in I1. inversion I1 as [|? ? HSR HF]; subst. rewrite Forall_forall in HF.
          destruct (HF q (or_introl eq_refl)) as [Hq|[E1 E2]]; [|left; left; congruence].
          right. intros w Hw. apply Hnew in Hw. destruct Hw as [->|Hw]; [exact H0|].
          apply in_map_iff in Hw. destruct Hw as (r & <- & Hr). destruct Hr as [<-|Hr]; [exact Hq|].
          inversion HSR as [|? ? _ HF2]; subst. rewrite Forall_forall in HF2.
          apply (lt_le_tr _ (fst q)); [exact Hq|]. apply Rd_le, HF2, Hr. }
      intros u Hu.
      assert (Hu' : u = v \/ (In u V0 \/ In u seen)) by (destruct Hu as [Hu|Hu]; [tauto|]; apply in_app_or in Hu; destruct Hu as [Hu|[->|[]]]; tauto).
      destruct Hu' as [->|Hu']; [left; apply Hnew; left; reflexivity|].
      destruct (I3 u Hu') as [Hin|Hall].
      * rewrite EP in Hin. destruct Hin as [<-|Hin]; [exact Hp0|]. left. apply Hnew. right. exact Hin.
      * right. rewrite EP in Hall. apply Hgt; [|exact Hall]. apply (lt_tr _ (fst p0)); [apply Hall; left; reflexivity|exact H0].
Qed.

Lemma InvD_run V0 src : forall seen P, InvD V0 seen P -> P <> [] -> InvD V0 (seen ++ src) (arun lt false P (length seen) src).
Proof.
  induction src as [|v src IH]; intros seen P HI HN; [rewrite app_nil_r; exact HI|]. cbn [arun].
  destruct (InvD_step V0 seen P v HI HN) as [HI' HN']. specialize (IH (seen ++ [v]) _ HI' HN').
  rewrite app_length, <- app_assoc in IH. exact IH.
Qed.

Lemma InvD_start k : InvD (repeat bot k) [] (repeat (bot, None) k).
Proof.
  split; [|split].
  - induction k as [|k IH]; [constructor|]. cbn [repeat]. constructor; [exact IH|]. apply Forall_forall. intros q Hq.
    apply repeat_spec in Hq. subst. right. split; reflexivity.
  - intros c o Hin. pose proof (repeat_spec _ _ _ Hin) as E. inversion E; subst. destruct k; [destruct Hin|left; reflexivity].
  - intros v [Hv|[]]. left. pose proof (repeat_spec _ _ _ Hv) as E. subst v. destruct k; [destruct Hv|left; reflexivity].
Qed.

Lemma sorted_nth {T} (R : T -> T -> Prop) l : StronglySorted R l -> forall i j a b, i < j -> nth_error l i = Some a -> nth_error l j = Some b -> R a b.
Proof.
  induction 1 as [|x l HS IH HF]; intros i j a b Hij Ha Hb; [destruct i; discriminate|].
  destruct j as [|j]; [lia|]. cbn [nth_error] in Hb. destruct i as [|i]; cbn [nth_error] in Ha.
  - inversion Ha; subst. rewrite Forall_forall in HF. apply HF. eapply nth_error_In. exact Hb.
  - eapply IH; [|exact Ha|exact Hb]. lia.
Qed.

Lemma arun_best_distinct k src : 0 < k -> length (arun lt false (repeat (bot, None) k) 0 src) = k ->
  best_distinct lt bot k src (col (arun lt false (repeat (bot, None) k) 0 src)).
Proof.
  intros Hk HL. pose proof (InvD_run (repeat bot k) src [] (repeat (bot, None) k) (InvD_start k)) as HI.
  cbn [app length] in HI. destruct HI as (I1 & I2 & I3); [destruct k; [lia|discriminate]|].
  set (P := arun lt false (repeat (bot, None) k) 0 src) in *. unfold best_distinct, col. cbn [fst snd]. rewrite !map_length.
  split; [exact HL|]. split; [exact HL|]. split; [|split].
  - intros i j a b Hij Ha Hb. rewrite nth_error_map in Ha, Hb.
    destruct (nth_error P i) as [p|] eqn:Ei; [|discriminate]. destruct (nth_error P j) as [q|] eqn:Ej; [|discriminate].
    cbn in Ha, Hb. inversion Ha; inversion Hb; subst a b. exact (sorted_nth _ _ I1 i j p q Hij Ei Ej).
  - intros j v Hv. rewrite nth_error_map in Hv |- *. destruct (nth_error P j) as [[c o]|] eqn:Ej; [|discriminate].
    cbn in Hv. inversion Hv; subst c. cbn [option_map snd]. specialize (I2 v o (nth_error_In _ _ Ej)). destruct o as [i|].
    + right. exists i. split; [reflexivity|]. split; [apply I2|apply I2].
    + left. split; [|reflexivity]. exact (repeat_spec _ _ _ I2).
  - intros v Hv. apply I3. right. exact Hv.
Qed.

(** ** The orders with repetitions *)
Notation stepN := (astep lt true).
Notation splitN := (split_at lt true).
Definition Rn (p q : V * option nat) : Prop := lt (fst q) (fst p) = false.

Lemma splitN_spec v R : StronglySorted Rn R ->
  Forall (fun p => lt (fst p) v = true) (fst (splitN v R)) /\ Forall (fun p => lt (fst p) v = false) (snd (splitN v R)).
Proof.
  induction 1 as [|p R HS IH HF]; [split; constructor|]. cbn [split_at]. unfold first_better. destruct (lt (fst p) v) eqn:E; cbn [negb].
  - destruct (splitN v R) as [lo hi]. cbn [fst snd] in *. split; [constructor; [exact E|apply IH]|apply IH].
  - cbn [fst snd]. split; [constructor|]. constructor; [exact E|]. eapply Forall_impl; [|exact HF]. intros q Hq.
    exact (le_tr v (fst p) (fst q) E Hq).
Qed.

Definition InvN (P0 P : pairs) (seen : pairs) : Prop :=
  StronglySorted Rn P /\ exists out, Permutation (P ++ out) (P0 ++ seen) /\
    forall d p, In d out -> In p P -> lt (fst p) (fst d) = false.

Lemma InvN_step P0 P seen i v : InvN P0 P seen -> P <> [] -> InvN P0 (stepN P i v) (seen ++ [(v, Some i)]) /\ stepN P i v <> [].
Proof.
  intros (I1 & out & HP & Hout) HN. destruct P as [|p0 R]; [congruence|]. inversion I1 as [|? ? HSR HF]; subst. rewrite Forall_forall in HF.
  unfold astep, first_better. destruct (lt v (fst p0)) eqn:E0; cbn [negb].
  - split; [|discriminate]. split; [exact I1|]. exists ((v, Some i) :: out). split.
    + rewrite app_assoc. eapply Permutation_trans; [apply Permutation_sym, Permutation_middle|].
      eapply Permutation_trans; [apply perm_skip; exact HP|]. apply Permutation_cons_append.
    + intros d p [<-|Hd] Hp; [|apply Hout; assumption]. cbn [fst]. apply lt_le. destruct Hp as [<-|Hp]; [exact E0|].
      apply (lt_le_tr v (fst p0)); [exact E0|]. apply HF. exact Hp.
  - pose proof (split_app lt true v R) as HA. destruct (splitN_spec v R HSR) as [Hlo Hhi].
    destruct (splitN v R) as [lo hi]. cbn [fst snd orb] in *. subst R. rewrite Forall_forall in Hlo, Hhi.
    pose proof (sorted_app_inv _ _ _ HSR) as (S1 & S2 & S3).
    split; [|destruct lo; discriminate]. split.
    + apply sorted_app; [exact S1| |].
      * constructor; [exact S2|]. apply Forall_forall. intros q Hq. apply Hhi. exact Hq.
      * rewrite Forall_forall in S3 |- *. intros q Hq. constructor; [apply lt_le, Hlo; exact Hq|apply S3; exact Hq].
    + exists (p0 :: out). split.
      * rewrite <- app_assoc. cbn [app]. rewrite app_assoc.
        eapply Permutation_trans; [|apply Permutation_app_tail, HP].
        assert (E1 : Permutation (lo ++ (v, Some i) :: hi ++ p0 :: out) ((v, Some i) :: p0 :: lo ++ hi ++ out)).
        { eapply Permutation_trans; [apply Permutation_sym, Permutation_middle|]. apply perm_skip.
          rewrite !app_assoc. apply Permutation_sym, Permutation_middle. }
        eapply Permutation_trans; [exact E1|]. cbn [app]. rewrite <- app_assoc.
        eapply Permutation_trans; [apply Permutation_cons_append|]. cbn [app]. rewrite <- !app_assoc. apply Permutation_refl.
      * assert (Hmem : forall p, In p (lo ++ (v, Some i) :: hi) -> p = (v, Some i) \/ In p (lo ++ hi)).
        { intros p Hp. apply in_app_or in Hp. rewrite in_app_iff. destruct Hp as [Hp|[Hp|Hp]]; auto. }
        intros d p Hd Hp. apply Hmem in Hp. destruct Hd as [<-|Hd]; destruct Hp as [->|Hp].
        -- exact E0.
        -- apply HF. exact Hp.
        -- cbn [fst]. apply (le_tr (fst d) (fst p0) v); [apply Hout; [exact Hd|left; reflexivity]|exact E0].
        -- apply Hout; [exact Hd|right; exact Hp].
Qed.

Lemma InvN_run P0 src : forall i seen P, InvN P0 P seen -> P <> [] ->
  InvN P0 (arun lt true P i src) (seen ++ combine src (map Some (seq i (length src)))).
Proof.
  induction src as [|v src IH]; intros i seen P HI HN; [cbn; rewrite app_nil_r; exact HI|]. cbn [arun length seq map combine].
  destruct (InvN_step P0 P seen i v HI HN) as [HI' HN']. specialize (IH (i + 1) _ _ HI' HN').
  rewrite <- app_assoc in IH. rewrite Nat.add_1_r in IH at 2. exact IH.
Qed.

Lemma arun_best k src : 0 < k -> length (arun lt true (repeat (bot, None) k) 0 src) = k ->
  best lt bot k src (col (arun lt true (repeat (bot, None) k) 0 src)).
Proof.
  intros Hk HL. pose proof (InvN_run (repeat (bot, None) k) src 0 [] (repeat (bot, None) k)) as HI. cbn [app] in HI.
  destruct HI as (I1 & out & HP & Hout).
  { split.
    - clear HL Hk. induction k as [|k IH]; [constructor|]. cbn [repeat]. constructor; [exact IH|]. apply Forall_forall. intros q Hq.
      apply repeat_spec in Hq. subst. apply lt_irr.
    - exists []. rewrite !app_nil_r. split; [apply Permutation_refl|intros d p []]. }
  { destruct k; [lia|discriminate]. }
  set (P := arun lt true (repeat (bot, None) k) 0 src) in *. unfold best, col. cbn [fst snd]. rewrite !map_length.
  split; [exact HL|]. split; [exact HL|]. split.
  - intros i j a b Hij Ha Hb. rewrite nth_error_map in Ha, Hb.
    destruct (nth_error P i) as [p|] eqn:Ei; [|discriminate]. destruct (nth_error P j) as [q|] eqn:Ej; [|discriminate].
    cbn in Ha, Hb. inversion Ha; inversion Hb; subst a b. exact (sorted_nth _ _ I1 i j p q Hij Ei Ej).
  - exists out. split.
    + assert (E : combine (map fst P) (map snd P) = P).
      { clear. induction P as [|[a b] P IH]; [reflexivity|]. cbn [map combine fst snd]. f_equal. exact IH. }
      rewrite E. exact HP.
    + intros v i w Hin Hw. apply in_map_iff in Hw. destruct Hw as (p & <- & Hp). exact (Hout (v, i) p Hin Hp).
Qed.
End F.
