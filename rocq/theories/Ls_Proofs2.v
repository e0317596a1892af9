(** [layer_settings]: sequences of operations, and copies. *)
From Verif Require Import Base BaseLemmas Ls_Model Ls_Spec Ls_Proofs.

Section P.
Context {V : Type}.
Implicit Types (w : world V) (ps : list (op V)).

Definition news ps : nat := length (filter (fun p => match p with ONew _ => true | _ => false end) ps).
Definition conf_step (o n : nat) (p : op V) (c : option conf) : option conf :=
  match p with ONew d => if n =? o then Some (d, fun _ => None) else c | _ => do c' <- c; c_op o p c' end.

Lemma conf_after_app l1 : forall l2 o n c, conf_after (l1 ++ l2) o n c = conf_after l2 o (news l1 + n) (conf_after l1 o n c).
Proof.
  induction l1 as [|p l1 IH]; intros l2 o n c; [reflexivity|]. cbn [app conf_after]. rewrite IH. f_equal.
  unfold news. cbn [filter]. destruct p; cbn [length]; lia.
Qed.
Lemma final_snoc ps p o : final (ps ++ [p]) o = conf_step o (news ps) p (final ps o).
Proof. unfold final. rewrite conf_after_app, Nat.add_0_r. reflexivity. Qed.
Lemma news_snoc ps p : news (ps ++ [p]) = news ps + match p with ONew _ => 1 | _ => 0 end.
Proof. unfold news. rewrite filter_app, app_length. f_equal. destruct p; reflexivity. Qed.
Lemma run_snoc ps p : forall w, run (ps ++ [p]) w = do w' <- run ps w; apply p w'.
Proof.
  induction ps as [|q ps IH]; intros w; cbn [app run].
  - cbn [obind]. destruct (apply p w); reflexivity.
  - destruct (apply q w) as [w'|]; [|reflexivity]. cbn [obind]. apply IH.
Qed.
Lemma legal_snoc ps p : legal (ps ++ [p]) -> legal ps /\ forall o, target p = Some o -> final ps o <> None.
Proof.
  intros H. split.
  - intros l1 q l2 o -> Ht. apply (H l1 q (l2 ++ [p]) o); [rewrite <- app_assoc; reflexivity|exact Ht].
  - intros o Ht. exact (H ps p [] o eq_refl Ht).
Qed.

Lemma run_inv ps : legal ps -> exists w, run ps (w_init V) = Some w /\ length (w_objs w) = news ps /\ inv w (final ps).
Proof.
  induction ps as [|p ps IH] using rev_ind; intros HL.
  - exists (w_init V). split; [reflexivity|]. split; [reflexivity|]. split.
    + intros o. unfold w_obj, final. cbn. destruct o; exact I.
    + intros o o' x x' i _ E. unfold w_obj in E. cbn in E. destruct o; discriminate.
  - destruct (legal_snoc ps p HL) as [HL' HT]. destruct (IH HL') as (w & E & Hn & HI).
    rewrite run_snoc, E. cbn [obind].
    assert (Hc : forall o, target p = Some o -> exists c, final ps o = Some c).
    { intros o Ho. specialize (HT o Ho). destruct (final ps o) as [c|]; [eauto|congruence]. }
    assert (Hmiss : forall o o', (o =? o') = (o' =? o)) by (intros; apply Nat.eqb_sym).
    destruct p as [d|o i s|o d|o f|o]; cbn [apply target] in *.
    + eexists. split; [reflexivity|]. split.
      * rewrite news_snoc, <- Hn. unfold construct. cbn [w_new snd w_objs]. rewrite app_length. reflexivity.
      * eapply inv_ext; [|apply construct_inv; exact HI]. intros o. cbn beta. rewrite final_snoc, <- Hn. cbn [conf_step].
        rewrite Hmiss. reflexivity.
    + destruct (Hc o eq_refl) as [c Ec]. destruct (add_inv w _ o i s c HI Ec) as (w' & E' & L' & I').
      exists w'. split; [exact E'|]. split; [rewrite news_snoc, L', Hn; lia|].
      eapply inv_ext; [|exact I']. intros o'. cbn beta. rewrite final_snoc. cbn [conf_step c_op]. rewrite Hmiss.
      destruct (Nat.eqb_spec o o') as [->|Hne].
      * rewrite Ec. cbn [obind]. destruct c as [d g]. cbn [c_op]. rewrite Nat.eqb_refl. reflexivity.
      * destruct (final ps o') as [[d g]|]; [|reflexivity]. cbn [obind c_op]. destruct (Nat.eqb_spec o o'); [congruence|reflexivity].
    + destruct (Hc o eq_refl) as [c Ec]. destruct (default_inv w _ o d c HI Ec) as (w' & E' & L' & I').
      exists w'. split; [exact E'|]. split; [rewrite news_snoc, L', Hn; lia|].
      eapply inv_ext; [|exact I']. intros o'. cbn beta. rewrite final_snoc. cbn [conf_step c_op]. rewrite Hmiss.
      destruct (Nat.eqb_spec o o') as [->|Hne].
      * rewrite Ec. cbn [obind]. destruct c as [d0 g]. cbn [c_op]. rewrite Nat.eqb_refl. reflexivity.
      * destruct (final ps o') as [[d0 g]|]; [|reflexivity]. cbn [obind c_op]. destruct (Nat.eqb_spec o o'); [congruence|reflexivity].
    + destruct (Hc o eq_refl) as [c Ec]. destruct (each_inv w _ o f c HI Ec) as (keys & w' & E' & _ & _ & L' & I').
      rewrite E'. cbn [obind]. exists w'. split; [reflexivity|]. split; [rewrite news_snoc, L', Hn; lia|].
      eapply inv_ext; [|exact I']. intros o'. cbn beta. rewrite final_snoc. cbn [conf_step c_op]. rewrite Hmiss.
      destruct (Nat.eqb_spec o o') as [->|Hne].
      * rewrite Ec. cbn [obind]. destruct c as [d0 g]. cbn [c_op]. rewrite Nat.eqb_refl. reflexivity.
      * destruct (final ps o') as [[d0 g]|]; [|reflexivity]. cbn [obind c_op]. destruct (Nat.eqb_spec o o'); [congruence|reflexivity].
    + destruct (Hc o eq_refl) as [c Ec]. destruct (destroy_inv w _ o c HI Ec) as (w' & E' & L' & I').
      exists w'. split; [exact E'|]. split; [rewrite news_snoc, L', Hn; lia|].
      eapply inv_ext; [|exact I']. intros o'. cbn beta. rewrite final_snoc. cbn [conf_step c_op]. rewrite Hmiss.
      destruct (Nat.eqb_spec o o') as [->|Hne].
      * rewrite Ec. cbn [obind]. destruct c as [d0 g]. cbn [c_op]. rewrite Nat.eqb_refl. reflexivity.
      * destruct (final ps o') as [[d0 g]|]; [|reflexivity]. cbn [obind c_op]. destruct (Nat.eqb_spec o o'); [congruence|reflexivity].
Qed.

Theorem settings_kept ps : legal ps ->
  exists w, run ps (w_init V) = Some w /\
    forall o c, final ps o = Some c ->
      get_default w o = Some (fst c) /\
      (forall idx, get w o idx = Some (setting c idx)) /\
      forall f, exists keys w', for_each w o f = Some (fst c :: map (setting c) keys, w') /\
        NoDup keys /\ forall k, In k keys <-> snd c k <> None.
Proof.
  intros HL. destruct (run_inv ps HL) as (w & E & _ & HI). exists w. split; [exact E|]. intros o c Ec.
  destruct (inv_obj w _ o c HI Ec) as (x & Ex & R & L).
  split; [unfold get_default; rewrite Ex; cbn [obind]; apply rep_default; exact R|]. split.
  - intros idx. unfold get, get_default. rewrite Ex. cbn [obind]. exact (rep_get (w_heap w) x c idx R).
  - intros f. destruct (each_inv w _ o f c HI Ec) as (keys & w' & E' & N & K & _). exists keys, w'. auto.
Qed.

(** ** Copies *)
Lemma copy_nodes_spec l : forall w, (forall i, In i l -> i < w_next w /\ w_heap w i <> None) ->
  exists ks w', copy_nodes l w = Some (ks, w') /\ w_objs w' = w_objs w /\ w_next w <= w_next w' /\
    (forall i, i < w_next w -> w_heap w' i = w_heap w i) /\
    match l, ks with i :: _, k :: _ => w_heap w' k = w_heap w i | [], [] => True | _, _ => False end.
Proof.
  induction l as [|i l IH]; intros w H; cbn [copy_nodes].
  - exists [], w. repeat split; auto.
  - destruct (H i (or_introl eq_refl)) as [Hi Hv]. destruct (w_heap w i) as [v|] eqn:Ev; [|congruence]. cbn [obind w_new].
    set (w1 := mkW (h_set (w_heap w) (w_next w) (Some v)) (S (w_next w)) (w_objs w)).
    assert (Hh : forall j, j < w_next w -> w_heap w1 j = w_heap w j) by (intros j Hj; apply h_set_ne; lia).
    destruct (IH w1) as (ks & w' & E & O & N & Hk & _).
    { intros j Hj. destruct (H j (or_intror Hj)) as [H1 H2]. rewrite Hh by exact H1. split; [cbn; lia|exact H2]. }
    rewrite E. cbn [obind]. exists (w_next w :: ks), w'. split; [reflexivity|]. split; [exact O|].
    split; [cbn in N; lia|]. split.
    + intros j Hj. rewrite Hk by (cbn; lia). apply Hh. exact Hj.
    + rewrite Hk by (cbn; lia). cbn. apply h_set_eq.
Qed.

Theorem copy_reads ps o c : legal ps -> final ps o = Some c ->
  exists w o' w', run ps (w_init V) = Some w /\ copy w o = Some (o', w') /\
    get_default w' o' = Some (fst c) /\ forall idx, get w' o' idx = Some (setting c idx).
Proof.
  intros HL Ec. destruct (run_inv ps HL) as (w & E & _ & HI).
  destruct (inv_obj w _ o c HI Ec) as (x & Ex & R & L).
  pose proof R as (i0 & ids & keys & Hk & H0 & N1 & N2 & F & G).
  destruct (copy_nodes_spec (o_keeper x) w) as (ks & w1 & Ec1 & O1 & Nx & Hh & Hd).
  { intros i Hi. split; [apply L; exact Hi|]. rewrite Hk in Hi. destruct Hi as [<-|Hi]; [congruence|].
    destruct (Forall2_In_l _ _ _ _ F Hi) as (k & _ & _ & P2 & P3). congruence. }
  exists w. unfold copy. rewrite Ex. cbn [obind]. rewrite Ec1. cbn [obind]. eexists _, _.
  split; [exact E|]. split; [reflexivity|].
  assert (Ho : w_obj (mkW (w_heap w1) (w_next w1) (w_objs w1 ++ [Some (mkO ks (o_map x))])) (length (w_objs w1)) = Some (mkO ks (o_map x))).
  { rewrite w_obj_app, Nat.eqb_refl. reflexivity. }
  rewrite Hk in Hd. destruct ks as [|k0 ks]; [destruct Hd|].
  assert (D : get_default (mkW (w_heap w1) (w_next w1) (w_objs w1 ++ [Some (mkO (k0 :: ks) (o_map x))])) (length (w_objs w1)) = Some (fst c)).
  { unfold get_default. rewrite Ho. cbn. congruence. }
  split; [exact D|]. intros idx. unfold get. rewrite Ho. cbn [obind o_map].
  pose proof (rep_get (w_heap w) x c idx R) as Hg. destruct (m_find (o_map x) idx) as [i|] eqn:Em.
  - cbn [w_heap]. rewrite Hh; [exact Hg|]. apply L. rewrite Hk. right.
    destruct (in_dec Nat.eq_dec idx keys) as [Hi|Hi]; [|destruct (G idx Hi); congruence].
    destruct (Forall2_In_r _ _ _ _ F Hi) as (i' & Hi' & P1 & _). rewrite Em in P1. injection P1 as <-. exact Hi'.
  - rewrite D. destruct (in_dec Nat.eq_dec idx keys) as [Hi|Hi].
    + destruct (Forall2_In_r _ _ _ _ F Hi) as (i' & Hi' & P1 & _). congruence.
    + unfold setting. destruct (G idx Hi) as [_ ->]. reflexivity.
Qed.
End P.
