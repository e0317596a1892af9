(** [layer_settings]: the lists, maps and iterators implement the settings. *)
From Verif Require Import Base BaseLemmas Ls_Model Ls_Spec.

Section P.
Context {V : Type}.
Implicit Types (w : world V) (h : nat -> option V) (x : obj) (c : @conf V).

Definition rep h x c : Prop :=
  exists i0 ids keys, o_keeper x = i0 :: ids /\ h i0 = Some (fst c) /\ NoDup (i0 :: ids) /\ NoDup keys /\
    Forall2 (fun i k => m_find (o_map x) k = Some i /\ h i = snd c k /\ snd c k <> None) ids keys /\
    forall k, ~ In k keys -> m_find (o_map x) k = None /\ snd c k = None.

Definition inv w (cs : nat -> option conf) : Prop :=
  (forall o, match w_obj w o, cs o with
             | Some x, Some c => rep (w_heap w) x c /\ forall i, In i (o_keeper x) -> i < w_next w
             | None, None => True | _, _ => False end) /\
  (forall o o' x x' i, o <> o' -> w_obj w o = Some x -> w_obj w o' = Some x' -> In i (o_keeper x) -> ~ In i (o_keeper x')).

Lemma Forall2_In_l {A B} (R : A -> B -> Prop) l l' a : Forall2 R l l' -> In a l -> exists b, In b l' /\ R a b.
Proof.
  induction 1 as [|y z l l' HR H IH]; intros Hi; [destruct Hi|]. destruct Hi as [->|Hi]; [exists z; split; [left; reflexivity|exact HR]|].
  destruct (IH Hi) as (b & H1 & H2). exists b. split; [right; exact H1|exact H2].
Qed.
Lemma Forall2_In_r {A B} (R : A -> B -> Prop) l l' b : Forall2 R l l' -> In b l' -> exists a, In a l /\ R a b.
Proof.
  induction 1 as [|y z l l' HR H IH]; intros Hi; [destruct Hi|]. destruct Hi as [->|Hi]; [exists y; split; [left; reflexivity|exact HR]|].
  destruct (IH Hi) as (a & H1 & H2). exists a. split; [right; exact H1|exact H2].
Qed.
Lemma Forall2_impl_In {A B} (R R' : A -> B -> Prop) l l' :
  Forall2 R l l' -> (forall a b, In a l -> In b l' -> R a b -> R' a b) -> Forall2 R' l l'.
Proof.
  induction 1 as [|y z l l' HR H IH]; intros HI; constructor.
  - apply HI; [left; reflexivity|left; reflexivity|exact HR].
  - apply IH. intros a b Ha Hb. apply HI; right; assumption.
Qed.

(** Only the nodes of the object matter *)
Lemma rep_frame h h' x c : (forall i, In i (o_keeper x) -> h' i = h i) -> rep h x c -> rep h' x c.
Proof.
  intros HE (i0 & ids & keys & Hk & H0 & N1 & N2 & F & G). rewrite Hk in HE.
  exists i0, ids, keys. split; [exact Hk|]. split; [rewrite HE; [exact H0|left; reflexivity]|].
  split; [exact N1|]. split; [exact N2|]. split; [|exact G].
  eapply Forall2_impl_In; [exact F|]. intros i k Hi _ (P1 & P2 & P3). rewrite HE; [auto|right; exact Hi].
Qed.

(** ** Maps *)
Lemma m_find_filter m k k' : k' <> k -> m_find (filter (fun e => negb (fst e =? k)) m) k' = m_find m k'.
Proof.
  intros Hne. induction m as [|[a b] m IH]; [reflexivity|]. cbn [filter fst m_find].
  destruct (Nat.eqb_spec a k) as [->|Ha]; cbn [negb].
  - destruct (Nat.eqb_spec k k'); [congruence|exact IH].
  - cbn [m_find]. destruct (a =? k'); [reflexivity|exact IH].
Qed.
Lemma m_set_find m k i k' : m_find (m_set m k i) k' = if k' =? k then Some i else m_find m k'.
Proof.
  unfold m_set. cbn [m_find]. destruct (Nat.eqb_spec k k') as [->|H].
  - rewrite Nat.eqb_refl. reflexivity.
  - destruct (Nat.eqb_spec k' k); [congruence|]. apply m_find_filter. congruence.
Qed.

(** ** Reading *)
Lemma rep_default h x c : rep h x c -> (do i <- hd_error (o_keeper x); h i) = Some (fst c).
Proof. intros (i0 & ids & keys & Hk & H0 & _). rewrite Hk. exact H0. Qed.
Lemma rep_get h x c k : rep h x c ->
  match m_find (o_map x) k with None => do i <- hd_error (o_keeper x); h i | Some i => h i end = Some (setting c k).
Proof.
  intros R. pose proof (rep_default h x c R) as Hd. destruct R as (i0 & ids & keys & Hk & H0 & N1 & N2 & F & G).
  unfold setting. destruct (in_dec Nat.eq_dec k keys) as [Hi|Hi].
  - destruct (Forall2_In_r _ _ _ _ F Hi) as (i & _ & P1 & P2 & P3). rewrite P1, P2.
    destruct (snd c k); [reflexivity|congruence].
  - destruct (G k Hi) as [-> ->]. exact Hd.
Qed.

(** ** for_each *)
Lemma each_spec (f : V -> V) : forall l h vs0,
  NoDup l -> Forall2 (fun i v => h i = Some v) l vs0 ->
  exists h', each f l h = Some (vs0, h') /\ (forall i, In i l -> h' i = option_map f (h i)) /\
    (forall i, ~ In i l -> h' i = h i).
Proof.
  induction l as [|i l IH]; intros h vs0 HN HF; inversion HF as [|? v ? vs Hv HF' E1 E2]; subst.
  - exists h. split; [reflexivity|]. split; [intros i []|reflexivity].
  - inversion HN as [|? ? Hni HN']; subst. cbn [each]. rewrite Hv. cbn [obind].
    assert (Hs : forall k, k <> i -> h_set h i (Some (f v)) k = h k).
    { intros k Hk. unfold h_set. destruct (Nat.eqb_spec k i); [congruence|reflexivity]. }
    destruct (IH (h_set h i (Some (f v))) vs HN') as (h' & E & P1 & P2).
    { eapply Forall2_impl_In; [exact HF'|]. intros k u Hk _ Hu. cbn beta. rewrite Hs; [exact Hu|]. intros ->. exact (Hni Hk). }
    rewrite E. cbn [obind]. exists h'. split; [reflexivity|]. split.
    + intros k [<-|Hk].
      * rewrite P2 by exact Hni. unfold h_set. rewrite Nat.eqb_refl, Hv. reflexivity.
      * rewrite P1 by exact Hk. rewrite Hs; [reflexivity|]. intros ->. exact (Hni Hk).
    + intros k Hk. rewrite P2; [apply Hs|]; intros Hx; apply Hk; [left; congruence|right; exact Hx].
Qed.

Lemma rep_each h x c (f : V -> V) : rep h x c ->
  exists keys h', each f (o_keeper x) h = Some (fst c :: map (setting c) keys, h') /\
    NoDup keys /\ (forall k, In k keys <-> snd c k <> None) /\
    rep h' x (f (fst c), fun k => option_map f (snd c k)) /\ forall i, ~ In i (o_keeper x) -> h' i = h i.
Proof.
  intros (i0 & ids & keys & Hk & H0 & N1 & N2 & F & G).
  destruct (each_spec f (o_keeper x) h (fst c :: map (setting c) keys)) as (h' & E & P1 & P2).
  { rewrite Hk. exact N1. }
  { rewrite Hk. constructor; [exact H0|]. clear - F. induction F as [|i k ids keys (Q1 & Q2 & Q3) F IH]; constructor; [|exact IH].
    rewrite Q2. unfold setting. destruct (snd c k); [reflexivity|congruence]. }
  exists keys, h'. split; [exact E|]. split; [exact N2|]. split; [|split; [|exact P2]].
  - intros k. split.
    + intros Hi. destruct (Forall2_In_r _ _ _ _ F Hi) as (i & _ & _ & _ & Q). exact Q.
    + intros Hn. destruct (in_dec Nat.eq_dec k keys) as [Hi|Hi]; [exact Hi|]. destruct (G k Hi). congruence.
  - rewrite Hk in P1. exists i0, ids, keys. cbn [fst snd]. split; [exact Hk|].
    split; [rewrite P1 by (left; reflexivity); rewrite H0; reflexivity|]. split; [exact N1|]. split; [exact N2|]. split.
    + eapply Forall2_impl_In; [exact F|]. intros i k Hi _ (Q1 & Q2 & Q3). split; [exact Q1|].
      rewrite P1 by (right; exact Hi). rewrite Q2. split; [reflexivity|]. destruct (snd c k); [discriminate|congruence].
    + intros k Hi. destruct (G k Hi) as [-> ->]. split; reflexivity.
Qed.

(** ** add *)
Lemma Forall2_filter_key h x c ids keys i k :
  Forall2 (fun i k => m_find (o_map x) k = Some i /\ h i = snd c k /\ snd c k <> None) ids keys ->
  m_find (o_map x) k = Some i ->
  Forall2 (fun i k => m_find (o_map x) k = Some i /\ h i = snd c k /\ snd c k <> None)
    (remove_node ids i) (filter (fun k' => negb (k' =? k)) keys) \/ (exists k', In k' keys /\ k' <> k /\ m_find (o_map x) k' = Some i).
Proof.
  intros F Hk. induction F as [|j k' ids keys HR F IH]; [left; constructor|].
  destruct IH as [IH|(k2 & H1 & H2 & H3)]; [|right; exists k2; split; [right; exact H1|auto]].
  cbn [remove_node filter]. destruct (Nat.eqb_spec k' k) as [->|Hne].
  - destruct HR as (Q1 & _). rewrite Hk in Q1. injection Q1 as ->. rewrite Nat.eqb_refl. cbn [negb]. left. exact IH.
  - destruct (Nat.eqb_spec j i) as [->|Hj].
    + right. exists k'. split; [left; reflexivity|]. split; [exact Hne|]. destruct HR as (Q1 & _). exact Q1.
    + cbn [negb]. left. constructor; assumption.
Qed.

Lemma keys_inj h x c ids keys k k' i :
  Forall2 (fun i k => m_find (o_map x) k = Some i /\ h i = snd c k /\ snd c k <> None) ids keys ->
  NoDup ids -> NoDup keys -> In k keys -> In k' keys -> m_find (o_map x) k = Some i -> m_find (o_map x) k' = Some i -> k = k'.
Proof.
  induction 1 as [|j a ids keys (Q1 & _) F IH]; intros N1 N2 H1 H2 E1 E2; [destruct H1|].
  inversion N1 as [|? ? M1 N1']; subst. inversion N2 as [|? ? M2 N2']; subst.
  assert (Hno : forall b, In b keys -> m_find (o_map x) b = m_find (o_map x) a -> False).
  { intros b Hb Eb. destruct (Forall2_In_r _ _ _ _ F Hb) as (j' & Hj & R1 & _). rewrite Q1, R1 in Eb.
    injection Eb as ->. exact (M1 Hj). }
  destruct H1 as [<-|H1], H2 as [<-|H2]; [reflexivity| | |].
  - destruct (Hno k' H2). congruence.
  - destruct (Hno k H1). congruence.
  - exact (IH N1' N2' H1 H2 E1 E2).
Qed.

Lemma remove_node_not l i : ~ In i l -> remove_node l i = l.
Proof.
  induction l as [|j l IH]; intros H; [reflexivity|]. cbn [remove_node filter].
  destruct (Nat.eqb_spec j i) as [->|Hj]; [destruct H; left; reflexivity|]. cbn [negb]. f_equal. apply IH.
  intros Hx. apply H. right. exact Hx.
Qed.
Lemma in_remove_node l i j : In j (remove_node l i) <-> In j l /\ j <> i.
Proof. unfold remove_node. rewrite filter_In. rewrite negb_true_iff, Nat.eqb_neq. tauto. Qed.

Lemma NoDup_app_one {A} (l : list A) a : NoDup l -> ~ In a l -> NoDup (l ++ [a]).
Proof.
  intros HN Ha. induction HN as [|b l Hb HN IH]; cbn; [constructor; [intros []|constructor]|].
  constructor.
  - rewrite in_app_iff. intros [H|[H|[]]]; [exact (Hb H)|]. apply Ha. left. congruence.
  - apply IH. intros H. apply Ha. right. exact H.
Qed.

(** Adding a setting, on the level of one object: [n] is the new node *)
Definition keeper_after x k : list nat :=
  match m_find (o_map x) k with None => o_keeper x | Some i => remove_node (o_keeper x) i end.
Lemma rep_add h h' x c k s n :
  rep h x c -> ~ In n (o_keeper x) -> h' n = Some s ->
  (forall i, In i (keeper_after x k) -> h' i = h i) ->
  rep h' (mkO (keeper_after x k ++ [n]) (m_set (o_map x) k n)) (fst c, fun k' => if k' =? k then Some s else snd c k') /\
  match m_find (o_map x) k with Some i => In i (o_keeper x) | None => True end.
Proof.
  intros (i0 & ids & keys & Hk & H0 & N1 & N2 & F & G) Hn Hs HE.
  inversion N1 as [|? ? M0 M1]; subst.
  assert (Hgone : exists ids' keys', keeper_after x k = i0 :: ids' /\ NoDup (i0 :: ids') /\ NoDup keys' /\ ~ In k keys' /\
    (forall i, In i ids' -> In i ids) /\ (forall k', k' <> k -> In k' keys' <-> In k' keys) /\
    Forall2 (fun i k => m_find (o_map x) k = Some i /\ h i = snd c k /\ snd c k <> None) ids' keys' /\
    match m_find (o_map x) k with Some i => In i (o_keeper x) | None => True end).
  { unfold keeper_after. destruct (m_find (o_map x) k) as [i|] eqn:Em.
    - assert (Hin : In k keys). { destruct (in_dec Nat.eq_dec k keys) as [Hi|Hi]; [exact Hi|]. destruct (G k Hi). congruence. }
      destruct (Forall2_In_r _ _ _ _ F Hin) as (i' & Hi' & P1 & _). rewrite Em in P1. injection P1 as <-.
      assert (Hne : i0 <> i) by (intros ->; exact (M0 Hi')).
      exists (remove_node ids i), (filter (fun k' => negb (k' =? k)) keys).
      rewrite Hk. split.
      { cbn [remove_node filter]. destruct (Nat.eqb_spec i0 i); [congruence|]. reflexivity. }
      split; [constructor; [rewrite in_remove_node; tauto|apply NoDup_filter; exact M1]|].
      split; [apply NoDup_filter; exact N2|].
      split; [rewrite filter_In, Nat.eqb_refl; cbn; intuition discriminate|].
      split; [intros j Hj; apply in_remove_node in Hj; tauto|].
      split.
      { intros k' Hk'. rewrite filter_In. destruct (Nat.eqb_spec k' k); [congruence|]. cbn. tauto. }
      split; [|right; exact Hi'].
      destruct (Forall2_filter_key h x c ids keys i k F Em) as [H|(k' & H1 & H2 & H3)]; [exact H|].
      destruct H2. symmetry. exact (keys_inj h x c ids keys k k' i F M1 N2 Hin H1 Em H3).
    - exists ids, keys. split; [exact Hk|]. split; [exact N1|]. split; [exact N2|].
      split; [intros Hi; destruct (Forall2_In_r _ _ _ _ F Hi) as (i & _ & P1 & _); congruence|].
      split; [auto|]. split; [tauto|]. split; [exact F|exact I]. }
  destruct Hgone as (ids' & keys' & E' & N1' & N2' & Hk' & Hsub & Hkeys & F' & HI). split; [|exact HI].
  rewrite E' in *.
  assert (Hn' : ~ In n (i0 :: ids')).
  { intros [->|Hx]; apply Hn; rewrite Hk; [left; reflexivity|right; apply Hsub; exact Hx]. }
  exists i0, (ids' ++ [n]), (keys' ++ [k]). cbn [o_keeper o_map fst snd app].
  split; [reflexivity|]. split; [rewrite HE; [exact H0|left; reflexivity]|].
  split; [exact (NoDup_app_one (i0 :: ids') n N1' Hn')|].
  split; [apply NoDup_app_one; assumption|]. split.
  - apply Forall2_app.
    + eapply Forall2_impl_In; [exact F'|]. intros i k' Hi Hik (Q1 & Q2 & Q3). rewrite m_set_find.
      destruct (Nat.eqb_spec k' k) as [->|Hne]; [contradiction|]. rewrite HE; [auto|right; exact Hi].
    + constructor; [|constructor]. rewrite m_set_find, Nat.eqb_refl. repeat split; [exact Hs|discriminate].
  - intros k' Hi. rewrite in_app_iff in Hi. rewrite m_set_find. destruct (Nat.eqb_spec k' k) as [->|Hne].
    + destruct Hi. right. left. reflexivity.
    + apply G. rewrite <- (Hkeys k' Hne). tauto.
Qed.

(** ** Worlds *)
Lemma upd_nth {B} (l : list B) i v j : nth_error (upd l i v) j = if (j =? i) && (i <? length l) then Some v else nth_error l j.
Proof.
  revert i j. induction l as [|a l IH]; intros i j; cbn [upd].
  - cbn [length]. destruct i; cbn; destruct j; cbn; rewrite ?andb_false_r; reflexivity.
  - destruct i as [|i]; cbn [length].
    + destruct j as [|j]; reflexivity.
    + destruct j as [|j]; [reflexivity|]. cbn [nth_error]. rewrite IH. reflexivity.
Qed.
Lemma w_obj_lt w o x : w_obj w o = Some x -> o < length (w_objs w).
Proof. unfold w_obj. intros E. apply nth_error_Some. destruct (nth_error (w_objs w) o); [discriminate|discriminate E]. Qed.
Lemma w_obj_put w o y o' : o < length (w_objs w) -> w_obj (w_put w o y) o' = if o' =? o then y else w_obj w o'.
Proof.
  intros H. unfold w_obj, w_put. cbn [w_objs]. rewrite upd_nth. destruct (Nat.ltb_spec o (length (w_objs w))); [|lia].
  rewrite andb_true_r. destruct (o' =? o); reflexivity.
Qed.
Lemma w_obj_app w h n y o' :
  w_obj (mkW h n (w_objs w ++ [Some y])) o' = if o' =? length (w_objs w) then Some y else w_obj w o'.
Proof.
  unfold w_obj. cbn [w_objs]. destruct (Nat.eqb_spec o' (length (w_objs w))) as [->|Hne].
  - rewrite nth_error_app2, Nat.sub_diag by lia. reflexivity.
  - destruct (Nat.lt_ge_cases o' (length (w_objs w))) as [Hl|Hl].
    + rewrite nth_error_app1 by exact Hl. reflexivity.
    + rewrite (proj2 (nth_error_None (w_objs w ++ [Some y]) o')), (proj2 (nth_error_None (w_objs w) o')); [reflexivity|lia|].
      rewrite app_length. cbn. lia.
Qed.

(** One object changes, to [y] with the nodes it had and perhaps the new one *)
Lemma inv_change w cs o x y c' h' n' :
  inv w cs -> w_obj w o = Some x -> w_next w <= n' ->
  (forall i, ~ In i (o_keeper x) -> i < w_next w -> h' i = w_heap w i) ->
  rep h' y c' -> (forall i, In i (o_keeper y) -> In i (o_keeper x) \/ w_next w <= i < n') ->
  inv (w_put (mkW h' n' (w_objs w)) o (Some y)) (fun o' => if o' =? o then Some c' else cs o').
Proof.
  intros [I1 I2] Hx Hn Hh R Hy. pose proof (w_obj_lt _ _ _ Hx) as Hl.
  assert (HW : forall o', w_obj (w_put (mkW h' n' (w_objs w)) o (Some y)) o' = if o' =? o then Some y else w_obj w o').
  { intros o'. rewrite w_obj_put by exact Hl. reflexivity. }
  assert (Hold : forall o' x', w_obj w o' = Some x' -> forall i, In i (o_keeper x') -> i < w_next w).
  { intros o' x' Ex i Hi. specialize (I1 o'). rewrite Ex in I1. destruct (cs o'); [|destruct I1]. apply I1. exact Hi. }
  split.
  - intros o'. rewrite HW. destruct (Nat.eqb_spec o' o) as [->|Hne].
    + cbn [w_put w_heap w_next]. split; [exact R|]. intros i Hi. destruct (Hy i Hi) as [H|H]; [|lia].
      specialize (Hold o x Hx i H). lia.
    + specialize (I1 o'). destruct (w_obj w o') as [x'|] eqn:Ex; destruct (cs o') as [cc|]; try exact I1.
      destruct I1 as [R' L']. cbn [w_put w_heap w_next]. split.
      * eapply rep_frame; [|exact R']. intros i Hi. apply Hh; [|apply L'; exact Hi].
        exact (I2 o' o x' x i Hne Ex Hx Hi).
      * intros i Hi. specialize (L' i Hi). lia.
  - intros o1 o2 x1 x2 i Hne. rewrite !HW. destruct (Nat.eqb_spec o1 o) as [->|H1]; destruct (Nat.eqb_spec o2 o) as [->|H2].
    + congruence.
    + intros E1 E2 Hi Hi2. injection E1 as <-. specialize (Hold o2 x2 E2 i Hi2). destruct (Hy i Hi) as [H|H]; [|lia].
      exact (I2 o o2 x x2 i Hne Hx E2 H Hi2).
    + intros E1 E2 Hi Hi2. injection E2 as <-. specialize (Hold o1 x1 E1 i Hi). destruct (Hy i Hi2) as [H|H]; [|lia].
      exact (I2 o1 o x1 x i Hne E1 Hx Hi H).
    + intros E1 E2 Hi. exact (I2 o1 o2 x1 x2 i Hne E1 E2 Hi).
Qed.

Lemma inv_ext w cs cs' : (forall o, cs o = cs' o) -> inv w cs -> inv w cs'.
Proof. intros H [I1 I2]. split; [|exact I2]. intros o. rewrite <- H. apply I1. Qed.

Lemma inv_obj w cs o c : inv w cs -> cs o = Some c ->
  exists x, w_obj w o = Some x /\ rep (w_heap w) x c /\ forall i, In i (o_keeper x) -> i < w_next w.
Proof.
  intros [I1 _] Ec. specialize (I1 o). rewrite Ec in I1. destruct (w_obj w o) as [x|]; [|destruct I1].
  exists x. split; [reflexivity|]. exact I1.
Qed.

Lemma h_set_eq h i v : h_set h i v i = v.
Proof. unfold h_set. rewrite Nat.eqb_refl. reflexivity. Qed.
Lemma h_set_ne h i v k : k <> i -> h_set h i v k = h k.
Proof. unfold h_set. intros H. destruct (Nat.eqb_spec k i); [congruence|reflexivity]. Qed.

Lemma construct_inv w cs d : inv w cs ->
  inv (snd (construct w d)) (fun o => if o =? length (w_objs w) then Some (d, fun _ => None) else cs o).
Proof.
  intros [I1 I2]. unfold construct. cbn [w_new w_objs w_heap w_next snd].
  assert (Hold : forall o' x', w_obj w o' = Some x' -> forall i, In i (o_keeper x') -> i < w_next w).
  { intros o' x' Ex i Hi. specialize (I1 o'). rewrite Ex in I1. destruct (cs o'); [|destruct I1]. apply I1. exact Hi. }
  split.
  - intros o. rewrite w_obj_app. destruct (Nat.eqb_spec o (length (w_objs w))) as [->|Hne].
    + cbn [w_heap w_next o_keeper]. split; [|intros i [<-|[]]; lia].
      exists (w_next w), [], []. cbn. rewrite h_set_eq. split; [reflexivity|]. split; [reflexivity|].
      split; [constructor; [intros []|constructor]|]. split; [constructor|]. split; [constructor|]. auto.
    + specialize (I1 o). destruct (w_obj w o) as [x|]; destruct (cs o) as [c|]; try exact I1.
      destruct I1 as [R L]. cbn [w_heap w_next]. split; [|intros i Hi; specialize (L i Hi); lia].
      eapply rep_frame; [|exact R]. intros i Hi. apply h_set_ne. specialize (L i Hi). lia.
  - intros o1 o2 x1 x2 i Hne. rewrite !w_obj_app.
    destruct (Nat.eqb_spec o1 (length (w_objs w))) as [->|H1]; destruct (Nat.eqb_spec o2 (length (w_objs w))) as [->|H2].
    + congruence.
    + intros E1 E2 Hi Hi2. injection E1 as <-. cbn in Hi. destruct Hi as [<-|[]]. specialize (Hold _ _ E2 _ Hi2). lia.
    + intros E1 E2 Hi Hi2. injection E2 as <-. cbn in Hi2. destruct Hi2 as [<-|[]]. specialize (Hold _ _ E1 _ Hi). lia.
    + intros E1 E2. exact (I2 o1 o2 x1 x2 i Hne E1 E2).
Qed.

Lemma add_inv w cs o k s c : inv w cs -> cs o = Some c ->
  exists w', add w o k s = Some w' /\ length (w_objs w') = length (w_objs w) /\
    inv w' (fun o' => if o' =? o then Some (fst c, fun k' => if k' =? k then Some s else snd c k') else cs o').
Proof.
  intros HI Ec. destruct (inv_obj w cs o c HI Ec) as (x & Ex & R & L).
  unfold add. rewrite Ex. cbn [obind].
  assert (Hne : exists i0 l0, o_keeper x = i0 :: l0) by (destruct R as (i0 & ids & _ & Hk & _); eauto).
  destruct Hne as (i0 & l0 & Hk0). rewrite Hk0. cbn [negb guard obind]. rewrite <- Hk0.
  assert (Hn : ~ In (w_next w) (o_keeper x)) by (intros Hi; specialize (L _ Hi); lia).
  set (h1 := match m_find (o_map x) k with None => w_heap w | Some i => h_set (w_heap w) i None end).
  set (h' := h_set h1 (w_next w) (Some s)).
  assert (HK : forall i, In i (keeper_after x k) -> In i (o_keeper x) /\ h' i = w_heap w i).
  { intros i Hi. unfold keeper_after in Hi. unfold h', h1. destruct (m_find (o_map x) k) as [j|].
    - apply in_remove_node in Hi. destruct Hi as [Hi Hij]. split; [exact Hi|]. rewrite h_set_ne; [apply h_set_ne; exact Hij|].
      specialize (L i Hi). lia.
    - split; [exact Hi|]. apply h_set_ne. specialize (L i Hi). lia. }
  destruct (rep_add (w_heap w) h' x c k s (w_next w) R Hn) as [R' Hin]; [apply h_set_eq|intros i Hi; apply HK; exact Hi|].
  set (w' := w_put (mkW h' (S (w_next w)) (w_objs w)) o (Some (mkO (keeper_after x k ++ [w_next w]) (m_set (o_map x) k (w_next w))))).
  exists w'. split.
  - unfold w', h', h1, keeper_after. destruct (m_find (o_map x) k) as [j|].
    + assert (Eb : existsb (Nat.eqb j) (o_keeper x) = true).
      { apply existsb_exists. exists j. split; [exact Hin|apply Nat.eqb_refl]. }
      rewrite Eb. reflexivity.
    + reflexivity.
  - split; [unfold w', w_put; cbn [w_objs]; clear; generalize (w_objs w); intros l; revert o;
            induction l as [|a l IH]; intros [|o]; cbn; auto|].
    apply (inv_change w cs o x); [exact HI|exact Ex|lia| |exact R'|].
    + intros i Hi Hlt. unfold h', h1. rewrite h_set_ne by lia. destruct (m_find (o_map x) k) as [j|]; [|reflexivity].
      apply h_set_ne. intros ->. exact (Hi Hin).
    + cbn [o_keeper]. intros i Hi. apply in_app_iff in Hi. destruct Hi as [Hi|[<-|[]]]; [left; apply HK; exact Hi|right; lia].
Qed.

Lemma upd_length' {B} (l : list B) i v : length (upd l i v) = length l.
Proof. revert i. induction l as [|a l IH]; intros [|i]; cbn; auto. Qed.

Lemma default_inv w cs o d c : inv w cs -> cs o = Some c ->
  exists w', set_default w o d = Some w' /\ length (w_objs w') = length (w_objs w) /\
    inv w' (fun o' => if o' =? o then Some (d, snd c) else cs o').
Proof.
  intros HI Ec. destruct (inv_obj w cs o c HI Ec) as (x & Ex & R & L).
  unfold set_default. rewrite Ex. cbn [obind].
  destruct R as (i0 & ids & keys & Hk & H0 & N1 & N2 & F & G). rewrite Hk. cbn [w_free w_new w_heap w_next w_objs].
  eexists. split; [reflexivity|]. split; [unfold w_put; cbn [w_objs]; apply upd_length'|].
  rewrite Hk in L. inversion N1 as [|? ? M0 M1]; subst.
  apply (inv_change w cs o x); [exact HI|exact Ex|lia| | |].
  - intros i Hi Hlt. rewrite h_set_ne by lia. apply h_set_ne. intros ->. apply Hi. rewrite Hk. left. reflexivity.
  - exists (w_next w), ids, keys. cbn [o_keeper o_map fst snd]. rewrite h_set_eq. split; [reflexivity|]. split; [reflexivity|].
    split; [constructor; [intros Hi; specialize (L _ (or_intror Hi)); lia|exact M1]|]. split; [exact N2|]. split; [|exact G].
    eapply Forall2_impl_In; [exact F|]. intros i k Hi _ (Q1 & Q2 & Q3). rewrite h_set_ne by (specialize (L _ (or_intror Hi)); lia).
    rewrite h_set_ne; [auto|]. intros ->. exact (M0 Hi).
  - cbn [o_keeper]. intros i [<-|Hi]; [right; lia|left; rewrite Hk; right; exact Hi].
Qed.

Lemma put_same w o x : w_obj w o = Some x -> w_put w o (Some x) = w.
Proof.
  intros E. destruct w as [h n os]. unfold w_put, w_obj in *. cbn [w_objs w_heap w_next] in *. f_equal.
  revert o E. induction os as [|a os IH]; intros [|o] E; cbn in *; try discriminate; [congruence|]. f_equal. apply IH. exact E.
Qed.

Lemma each_inv w cs o (f : V -> V) c : inv w cs -> cs o = Some c ->
  exists keys w', for_each w o f = Some (fst c :: map (setting c) keys, w') /\
    NoDup keys /\ (forall k, In k keys <-> snd c k <> None) /\ length (w_objs w') = length (w_objs w) /\
    inv w' (fun o' => if o' =? o then Some (f (fst c), fun k => option_map f (snd c k)) else cs o').
Proof.
  intros HI Ec. destruct (inv_obj w cs o c HI Ec) as (x & Ex & R & L).
  destruct (rep_each (w_heap w) x c f R) as (keys & h' & E & N & K & R' & Fr).
  unfold for_each. rewrite Ex. cbn [obind].
  assert (Hne : exists i0 l0, o_keeper x = i0 :: l0) by (destruct R as (i0 & ids & _ & Hk & _); eauto).
  destruct Hne as (i0 & l0 & Hk0). rewrite E. rewrite Hk0. cbn [negb guard obind]. cbn [obind].
  exists keys. eexists. split; [reflexivity|]. split; [exact N|]. split; [exact K|]. split; [reflexivity|].
  assert (Ep : w_put (mkW h' (w_next w) (w_objs w)) o (Some x) = mkW h' (w_next w) (w_objs w)) by (apply put_same; exact Ex).
  rewrite <- Ep. apply (inv_change w cs o x); [exact HI|exact Ex|lia| |exact R'|].
  - intros i Hi _. apply Fr. exact Hi.
  - intros i Hi. left. exact Hi.
Qed.

Lemma free_all l : forall w, w_objs (fold_left w_free l w) = w_objs w /\ w_next (fold_left w_free l w) = w_next w /\
  forall i, ~ In i l -> w_heap (fold_left w_free l w) i = w_heap w i.
Proof.
  induction l as [|a l IH]; intros w; cbn [fold_left]; [repeat split|].
  destruct (IH (w_free w a)) as (H1 & H2 & H3). rewrite H1, H2. repeat split. intros i Hi. rewrite H3 by (intros H; apply Hi; right; exact H).
  apply h_set_ne. intros ->. apply Hi. left. reflexivity.
Qed.

Lemma destroy_inv w cs o c : inv w cs -> cs o = Some c ->
  exists w', destroy w o = Some w' /\ length (w_objs w') = length (w_objs w) /\
    inv w' (fun o' => if o' =? o then None else cs o').
Proof.
  intros HI Ec. destruct (inv_obj w cs o c HI Ec) as (x & Ex & R & L).
  unfold destroy. rewrite Ex. cbn [obind]. eexists. split; [reflexivity|].
  destruct (free_all (o_keeper x) w) as (F1 & F2 & F3).
  split; [unfold w_put; cbn [w_objs]; rewrite upd_length', F1; reflexivity|].
  pose proof (w_obj_lt _ _ _ Ex) as Hl. destruct HI as [I1 I2].
  assert (HW : forall o', w_obj (w_put (fold_left w_free (o_keeper x) w) o None) o' = if o' =? o then None else w_obj w o').
  { intros o'. rewrite w_obj_put by (rewrite F1; exact Hl). unfold w_obj. rewrite F1. reflexivity. }
  split.
  - intros o'. rewrite HW. destruct (Nat.eqb_spec o' o) as [->|Hne]; [exact I|].
    specialize (I1 o'). destruct (w_obj w o') as [x'|] eqn:Ex'; destruct (cs o') as [cc|]; try exact I1.
    destruct I1 as [R' L']. cbn [w_put w_heap w_next]. rewrite F2. split; [|exact L'].
    eapply rep_frame; [|exact R']. intros i Hi. apply F3. exact (I2 o' o x' x i Hne Ex' Ex Hi).
  - intros o1 o2 x1 x2 i Hne. rewrite !HW. destruct (o1 =? o); [discriminate|]. destruct (o2 =? o); [discriminate|].
    apply I2. exact Hne.
Qed.
End P.
