From Coq Require Import Permutation Sorted.
From Verif Require Import Base BaseLemmas Workers_Model Workers_Spec Kern_Spec FindK_Model FindK_Spec FindK_Proofs FindK_Proofs2.

Section F.
Context {V : Type} (lt eqv : V -> V -> bool) (bot : V) (ns : bool).
Notation pairs := (list (V * option nat)).
Context (OK : order_ok lt eqv).

(** ** Values do not depend on indices *)
Lemma split_vals v : forall R R' : pairs, map fst R = map fst R' ->
  map fst (fst (split_at lt ns v R)) = map fst (fst (split_at lt ns v R')) /\
  map fst (snd (split_at lt ns v R)) = map fst (snd (split_at lt ns v R')).
Proof.
  induction R as [|p R IH]; intros [|p' R'] H; try discriminate; [split; reflexivity|].
  cbn [map] in H. inversion H as [[H1 H2]]. cbn [split_at]. rewrite H1. destruct (first_better lt ns (fst p') v).
  - cbn [fst snd map]. split; [reflexivity|]. congruence.
  - destruct (IH R' H2) as [IH1 IH2]. destruct (split_at lt ns v R), (split_at lt ns v R'). cbn [fst snd map] in *. split; congruence.
Qed.
Lemma step_vals v i i' (P P' : pairs) : map fst P = map fst P' -> map fst (astep lt ns P i v) = map fst (astep lt ns P' i' v).
Proof.
  destruct P as [|p R], P' as [|p' R']; intros H; try discriminate; [reflexivity|].
  cbn [map] in H. inversion H as [[H1 H2]]. unfold astep. rewrite H1. destruct (first_better lt ns v (fst p')); [|cbn [map]; congruence].
  destruct (split_vals v R R' H2) as [S1 S2]. destruct (split_at lt ns v R) as [lo hi], (split_at lt ns v R') as [lo' hi']. cbn [fst snd] in *.
  assert (E : fst (last lo p) = fst (last lo' p')).
  { clear -S1 H1. revert lo' S1. induction lo as [|a lo IH] using rev_ind; intros lo' S1.
    - destruct lo'; [exact H1|discriminate].
    - destruct lo' as [|b lo' _] using rev_ind; [rewrite map_app in S1; destruct (map fst lo); discriminate|].
      rewrite !last_last. rewrite !map_app in S1. apply app_inj_tail in S1. exact (proj2 S1). }
  rewrite E. destruct (ns || first_better lt ns v (fst (last lo' p'))); [|cbn [map]; congruence].
  rewrite !map_app. cbn [map fst]. congruence.
Qed.
Lemma run_vals src : forall i i' (P P' : pairs), map fst P = map fst P' -> map fst (arun lt ns P i src) = map fst (arun lt ns P' i' src).
Proof. induction src as [|v src IH]; intros i i' P P' H; [exact H|]. cbn [arun]. apply IH, step_vals, H. Qed.
Lemma run_app a b : forall i (P : pairs), arun lt ns P i (a ++ b) = arun lt ns (arun lt ns P i a) (i + length a) b.
Proof.
  induction a as [|v a IH]; intros i P; cbn [app arun length]; [rewrite Nat.add_0_r; reflexivity|].
  rewrite IH. f_equal. lia.
Qed.

(** ** Old values that remain are the best ones *)
Definition nones (P : pairs) : list V := map fst (filter (fun p => match snd p with None => true | _ => false end) P).
Lemma nones_app a b : nones (a ++ b) = nones a ++ nones b.
Proof. unfold nones. rewrite filter_app, map_app. reflexivity. Qed.

Definition suffix_of {T} (a l : list T) : Prop := exists q, l = q ++ a.
Lemma nones_step L (P : pairs) i v : suffix_of (nones P) L -> suffix_of (nones (astep lt ns P i v)) L.
Proof.
  destruct P as [|p R]; intros H; [exact H|]. unfold astep. destruct (first_better lt ns v (fst p)); [|exact H].
  pose proof (split_app lt ns v R) as E. destruct (split_at lt ns v R) as [lo hi]. cbn [fst snd] in E. subst R.
  destruct (ns || first_better lt ns v (fst (last lo p))); [|exact H].
  rewrite nones_app. change (nones ((v, Some i) :: hi)) with (nones hi). rewrite <- nones_app.
  destruct H as [q ->]. change (p :: lo ++ hi) with ([p] ++ (lo ++ hi)). exists (q ++ nones [p]). rewrite !nones_app, <- !app_assoc. reflexivity.
Qed.
Lemma nones_run L src : forall i (P : pairs), suffix_of (nones P) L -> suffix_of (nones (arun lt ns P i src)) L.
Proof. induction src as [|v src IH]; intros i P H; [exact H|]. cbn [arun]. apply IH, nones_step, H. Qed.

(** ** One aggregation step *)
Lemma find_val_spec v E : In v (map d_val E) -> forall A : list (@dse V),
  exists e, find_val eqv (A ++ E) v (length A) (length E) = Some (Some e) /\ In e E /\ d_val e = v.
Proof.
  destruct OK as (_ & _ & _ & HE). induction E as [|x E IH]; intros Hin A; [destruct Hin|].
  cbn [find_val length]. rewrite (bget_mid A E x _ eq_refl). cbn [obind]. destruct (eqv v (d_val x)) eqn:Ex.
  - apply HE in Ex. exists x. split; [reflexivity|]. split; [left; reflexivity|congruence].
  - destruct Hin as [Hx|Hin]; [symmetry in Hx; apply HE in Hx; congruence|].
    destruct (IH Hin (A ++ [x])) as (e & Ee & H1 & H2). rewrite <- app_assoc, app_length in Ee. cbn [app length] in Ee.
    exists e. split; [exact Ee|]. split; [right; exact H1|exact H2].
Qed.

Lemma bget_col1 (Pa : pairs) p S : bget (fst (col (Pa ++ p :: S))) (length Pa) = Some (fst p).
Proof. unfold col. cbn [fst]. rewrite nth_map_fst, nth_error_app2, Nat.sub_diag by lia. reflexivity. Qed.
Lemma bget_col2 (Pa : pairs) p S : bget (snd (col (Pa ++ p :: S))) (length Pa) = Some (snd p).
Proof. unfold col, bget. cbn [snd]. rewrite nth_error_map, nth_error_app2, Nat.sub_diag by lia. reflexivity. Qed.

Lemma nones_length (S : pairs) : length (nones S) <= length S.
Proof.
  unfold nones. rewrite map_length. induction S as [|p S IH]; [cbn; lia|]. cbn [filter length]. destruct (snd p); cbn [length]; lia.
Qed.
Lemma nones_full (S : pairs) : length (nones S) = length S -> nones S = map fst S.
Proof.
  induction S as [|[v o] S IH]; intros H; [reflexivity|]. unfold nones in H |- *. cbn [filter snd] in *. destruct o; cbn [map length] in *.
  - pose proof (nones_length S). unfold nones in H0. rewrite map_length in *. lia.
  - cbn [fst]. f_equal. apply IH. unfold nones. lia.
Qed.

Lemma aggregate_loop_spec batch : forall S Pa A E,
  length Pa = length A -> length S = length E -> suffix_of (nones S) (map d_val E) ->
  StronglySorted (fun a b => lt a b = true) (map d_val E) ->
  exists E', aggregate_loop eqv (col (Pa ++ S)) batch (length A) (length S) (A ++ E) = Some (A ++ E') /\
    map d_val E' = map fst S /\ (forall e, In e E' -> In e E \/ exists v i, In (v, Some i) S /\ e = mkD batch v (Some i)).
Proof.
  induction S as [|[v o] S IH]; intros Pa A E HA HE HN HS.
  - destruct E; [|discriminate]. exists []. split; [reflexivity|]. split; [reflexivity|intros e []].
  - destruct E as [|e0 E]; [discriminate|]. cbn [length] in HE. cbn [aggregate_loop length]. rewrite <- HA, bget_col1, bget_col2. cbn [obind snd fst].
    inversion HS as [|? ? HS' HF]; subst.
    assert (Hshift : forall x, suffix_of (nones S) (map d_val E) ->
      exists E', aggregate_loop eqv (col (Pa ++ (v, o) :: S)) batch (length Pa + 1) (length S) (A ++ x :: E) = Some (A ++ x :: E') /\
        map d_val E' = map fst S /\ (forall e, In e E' -> In e E \/ exists v i, In (v, Some i) S /\ e = mkD batch v (Some i))).
    { intros x Hs. destruct (IH (Pa ++ [(v, o)]) (A ++ [x]) E) as (E' & EE & H1 & H2);
        [rewrite !app_length; cbn [length]; lia|lia|exact Hs|exact HS'|].
      rewrite <- !app_assoc in EE. cbn [app] in EE. rewrite app_length in EE. cbn [length] in EE. rewrite <- HA in EE.
      exists E'. split; [exact EE|]. split; assumption. }
    assert (Hlen : forall e, suffix_of (nones S) (e :: map d_val E) -> suffix_of (nones S) (map d_val E)).
    { intros e [q Hq]. destruct q as [|q0 q]; [|inversion Hq as [[Hq1 Hq2]]; exists q; exact Hq2].
      exfalso. apply (f_equal (@length V)) in Hq. cbn [app length] in Hq. rewrite map_length in Hq. pose proof (nones_length S). lia. }
    destruct o as [i|].
    + rewrite (bset_mid' A E e0 _ _ HA). cbn [obind].
      destruct (Hshift (mkD batch v (Some i))) as (E' & EE & H1 & H2).
      { apply (Hlen (d_val e0)). exact HN. }
      rewrite EE. eexists. split; [reflexivity|]. split; [cbn [map d_val fst]; f_equal; exact H1|].
      intros e [<-|He]; [right; exists v, i; split; [left; reflexivity|reflexivity]|].
      destruct (H2 e He) as [Hin|(v' & i' & Hin & ->)]; [left; right; exact Hin|right; exists v', i'; split; [right; exact Hin|reflexivity]].
    + rewrite (bget_mid A E e0 _ HA). cbn [obind]. change (nones ((v, None) :: S)) with (v :: nones S) in HN.
      destruct HN as [q Hq]. cbn [map] in Hq. destruct OK as (Oirr & _ & _ & HEq).
      destruct q as [|q0 q]; cbn [app] in Hq.
      * inversion Hq as [[E1 E2]]. assert (Eb : eqv (d_val e0) (d_val e0) = true) by (apply HEq; reflexivity). rewrite Eb.
        exists (e0 :: E). split; [reflexivity|]. split; [|intros e He; left; exact He].
        cbn [map fst]. f_equal. rewrite E2. apply nones_full. rewrite <- E2, map_length. lia.
      * inversion Hq as [[E1 E2]].
        assert (Hv : In v (map d_val E)) by (rewrite E2; apply in_or_app; right; left; reflexivity).
        rewrite Forall_forall in HF. pose proof (HF v Hv) as Hlt.
        destruct (eqv v (d_val e0)) eqn:Eb; [apply HEq in Eb; rewrite Eb, Oirr in Hlt; discriminate|].
        destruct (find_val_spec v E Hv (A ++ [e0])) as (e' & Ee & Hin & Hval). rewrite <- app_assoc, app_length in Ee. cbn [app length] in Ee.
        rewrite app_length. cbn [length]. rewrite HA.
        replace (length A + Datatypes.S (length E) - (length A + 1)) with (length E) by lia. rewrite Ee. cbn [obind].
        rewrite bset_mid. cbn [obind]. destruct (Hshift e') as (E' & EE & H1 & H2).
        { exists (q ++ [v]). rewrite <- app_assoc. exact E2. }
        rewrite HA in EE. rewrite EE. eexists. split; [reflexivity|]. split; [cbn [map fst]; f_equal; assumption|].
        intros e [<-|He]; [left; right; exact Hin|].
        destruct (H2 e He) as [Hi|(v' & i' & Hi & ->)]; [left; right; exact Hi|right; exists v', i'; split; [right; exact Hi|reflexivity]].
Qed.

(** ** All batches *)
Definition vals (k : nat) (src : list V) : list V := map fst (arun lt ns (repeat (bot, None) k) 0 src).
Definition strictly (l : list V) : Prop := StronglySorted (fun a b => lt a b = true) l.

Lemma vals_app k a b (P : pairs) : map fst P = vals k a -> map fst (arun lt ns (map (fun p => (fst p, None)) P) 0 b) = vals k (a ++ b).
Proof.
  intros H. unfold vals in *. rewrite run_app. apply run_vals. rewrite <- H, map_map. reflexivity.
Qed.

Lemma run_idx src0 : forall src i (P : pairs), (forall j v, nth_error src j = Some v -> nth_error src0 (i + j) = Some v) ->
  forall v j, In (v, Some j) (arun lt ns P i src) -> In (v, Some j) P \/ nth_error src0 j = Some v.
Proof.
  induction src as [|w src IH]; intros i P Hs v j Hin; [left; exact Hin|]. cbn [arun] in Hin.
  destruct (IH (i + 1) (astep lt ns P i w)) with (v := v) (j := j) as [H|H]; [|exact Hin| |right; exact H].
  { intros j' v' Hj. specialize (Hs (S j') v' Hj). replace (i + 1 + j') with (i + S j') by lia. exact Hs. }
  clear Hin. destruct P as [|p R]; [left; exact H|]. unfold astep in H. destruct (first_better lt ns w (fst p)); [|left; exact H].
  pose proof (split_app lt ns w R) as E. destruct (split_at lt ns w R) as [lo hi]. cbn [fst snd] in E. subst R.
  destruct (ns || first_better lt ns w (fst (last lo p))); [|left; exact H].
  apply in_app_or in H. destruct H as [H|[H|H]].
  - left. right. apply in_or_app. left. exact H.
  - inversion H; subst. right. specialize (Hs 0 v eq_refl). rewrite Nat.add_0_r in Hs. exact Hs.
  - left. right. apply in_or_app. right. exact H.
Qed.

Lemma next_batches_spec k : 0 < k -> forall bs done (P : pairs) D,
  length P = k -> map fst P = vals k (concat done) -> map d_val D = vals k (concat done) ->
  Forall (located done) D -> done <> [] ->
  (forall m, strictly (vals k (concat (done ++ firstn m bs)))) ->
  exists c D', next_batches lt eqv bot ns bs (length done) (col P) D = Some (c, D') /\
    fst c = vals k (concat (done ++ bs)) /\ map d_val D' = vals k (concat (done ++ bs)) /\ Forall (located (done ++ bs)) D'.
Proof.
  intros Hk. induction bs as [|b bs IH]; intros done P D HL HP HD HF HN Hstr.
  - exists (col P), D. rewrite app_nil_r. split; [reflexivity|]. split; [exact HP|]. split; assumption.
  - cbn [next_batches]. destruct (find_k_next lt bot ns b P k Hk HL) as [E HL']. rewrite E. cbn [obind].
    set (P1 := arun lt ns (map (fun p => (fst p, None)) P) 0 b) in *.
    pose proof (vals_app k (concat done) b P HP) as HP1. fold P1 in HP1.
    assert (LD : length D = k) by (rewrite <- (map_length d_val D), HD, <- HP, map_length; exact HL).
    destruct (aggregate_loop_spec (length done) P1 [] [] D) as (D1 & EA & HV & HI); [reflexivity|lia| | |].
    { unfold P1. apply nones_run. exists []. cbn [app]. rewrite HD, <- HP. unfold nones. clear.
      induction P as [|p P IH]; [reflexivity|]. cbn [map filter snd fst]. f_equal. exact IH. }
    { rewrite HD. specialize (Hstr 0). cbn [firstn] in Hstr. rewrite app_nil_r in Hstr. exact Hstr. }
    cbn [app length] in EA. unfold aggregate_next. assert (EL : length D = length P1) by congruence. rewrite EL, EA. cbn [obind].
    assert (EC : concat (done ++ [b]) = concat done ++ b) by (rewrite concat_app; cbn [concat]; rewrite app_nil_r; reflexivity).
    destruct (IH (done ++ [b]) P1 D1) as (c & D' & EE & H1 & H2 & H3).
    + exact HL'.
    + rewrite EC. exact HP1.
    + rewrite EC, HV. exact HP1.
    + apply Forall_forall. intros e He. destruct (HI e He) as [Hin|(v & i & Hin & ->)].
      * rewrite Forall_forall in HF. destruct (HF e Hin) as (b' & i & B1 & B2 & B3). exists b', i.
        split; [|split; assumption]. rewrite nth_error_app1; [exact B1|]. apply nth_error_Some. congruence.
      * exists b, i. cbn [d_batch d_idx d_val]. split; [rewrite nth_error_app2, Nat.sub_diag by lia; reflexivity|]. split; [reflexivity|].
        destruct (run_idx b b 0 (map (fun p => (fst p, None)) P)) with (v := v) (j := i) as [Hx|Hx]; [auto|exact Hin| |exact Hx].
        apply in_map_iff in Hx. destruct Hx as (q & Eq & _). discriminate.
    + destruct done; discriminate.
    + intros m. specialize (Hstr (S m)). rewrite <- app_assoc. exact Hstr.
    + rewrite app_length in EE. cbn [length] in EE. rewrite <- app_assoc in H1, H2, H3. cbn [app] in H1, H2, H3.
      exists c, D'. split; [exact EE|]. split; [exact H1|]. split; [exact H2|exact H3].
Qed.

Lemma aggregate_all_spec k b0 bs c : 0 < k -> length (fst c) = k -> length (snd c) = k ->
  (forall m, strictly (vals k (b0 ++ concat (firstn m bs)))) ->
  (forall w, In w (vals k b0) -> w <> bot) ->
  exists c' D, aggregate_all lt eqv bot ns b0 bs c = Some (c', D) /\
    fst c' = vals k (b0 ++ concat bs) /\ export_values D = rev (vals k (b0 ++ concat bs)) /\ Forall (located (b0 :: bs)) D.
Proof.
  intros Hk L1 L2 Hstr Hb. unfold aggregate_all. destruct (find_k_first lt bot ns b0 c k Hk L1 L2) as [E HL]. rewrite E. cbn [obind].
  set (P := arun lt ns (repeat (bot, None) k) 0 b0) in *.
  assert (HC : combine (fst (col P)) (snd (col P)) = P).
  { unfold col. cbn [fst snd]. clear. induction P as [|[a b] P IH]; [reflexivity|]. cbn [map combine fst snd]. f_equal. exact IH. }
  unfold aggregate_first. rewrite HC.
  destruct (next_batches_spec k Hk bs [b0] P (map (fun '(v, i) => mkD 0 v i) P)) as (c' & D & E1 & H1 & H2 & H3).
  - exact HL.
  - cbn [concat]. rewrite app_nil_r. reflexivity.
  - cbn [concat]. rewrite app_nil_r, map_map. unfold vals. fold P. apply map_ext. intros [v i]. reflexivity.
  - apply Forall_forall. intros e He. apply in_map_iff in He. destruct He as ([v o] & <- & Hin). destruct o as [i|].
    + exists b0, i. split; [reflexivity|]. split; [reflexivity|]. cbn [d_val].
      destruct (run_idx b0 b0 0 (repeat (bot, None) k)) with (v := v) (j := i) as [Hx|Hx]; [auto|exact Hin| |exact Hx].
      apply repeat_spec in Hx. discriminate.
    + exfalso. apply (Hb v).
      * unfold vals. fold P. apply in_map_iff. exists (v, None). split; [reflexivity|exact Hin].
      * destruct (nones_run (repeat bot k) b0 0 (repeat (bot, None) k)) as [q Hq].
        { exists []. cbn [app]. unfold nones. clear. induction k; [reflexivity|]. cbn [repeat filter snd map fst]. f_equal. exact IHk. }
        assert (Hn : In v (nones P)).
        { unfold nones. apply in_map_iff. exists (v, None). split; [reflexivity|]. apply filter_In. split; [exact Hin|reflexivity]. }
        fold P in Hq. apply (repeat_spec k bot v). rewrite Hq. apply in_or_app. right. exact Hn.
  - discriminate.
  - intros m. cbn [app concat]. apply Hstr.
  - cbn [length app concat] in *. exists c', D. split; [exact E1|]. split; [exact H1|]. split; [|exact H3].
    unfold export_values. rewrite H2. reflexivity.
Qed.
End F.
