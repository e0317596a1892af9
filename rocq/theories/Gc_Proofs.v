(** Gradient check: passes over the network. *)
From Coq Require Import Reals.
From Verif Require Import Base BaseLemmas TData_Model Gc_Model Gc_Spec.
Local Open Scope nat_scope.

Scheme glayer_mi := Induction for glayer Sort Prop with glist_mi := Induction for glist Sort Prop.
Combined Scheme glayer_mutind from glayer_mi, glist_mi.
Scheme inside_mi := Minimality for inside Sort Prop.

Lemma upd_upd {A} (l : list A) i a b : upd (upd l i a) i b = upd l i b.
Proof. revert i; induction l as [|x l IH]; destruct i; cbn; f_equal; auto. Qed.
Lemma upd_id {A} (l : list A) i d : upd l i (nth i l d) = l.
Proof. revert i; induction l as [|x l IH]; destruct i; cbn; f_equal; auto. Qed.
Lemma bget_nth {A} (l : list A) i d : i < length l -> bget l i = Some (nth i l d).
Proof. revert i; induction l as [|x l IH]; destruct i; cbn; intros; auto; try lia. apply IH. lia. Qed.
Lemma bset_upd {A} (l : list A) i v : i < length l -> bset l i v = Some (upd l i v).
Proof. revert i; induction l as [|x l IH]; destruct i; cbn; intros; auto; try lia. rewrite IH by lia. reflexivity. Qed.
Lemma nth_upd_same {A} (l : list A) i v d : i < length l -> nth i (upd l i v) d = v.
Proof. revert i; induction l as [|x l IH]; destruct i; cbn; intros; auto; try lia. apply IH. lia. Qed.
Lemma nth_upd_other {A} (l : list A) i j v d : i <> j -> nth j (upd l i v) d = nth j l d.
Proof. revert i j; induction l as [|x l IH]; destruct i, j; cbn; intros; auto; try lia. Qed.

Lemma nodup_app_l {A} (a b : list A) : NoDup (a ++ b) -> NoDup a.
Proof. induction a; cbn; intros H; constructor; inversion H; subst; auto. intros Q. apply H2, in_or_app. auto. Qed.
Lemma nodup_app_r {A} (a b : list A) : NoDup (a ++ b) -> NoDup b.
Proof. induction a; cbn; intros H; auto. inversion H; auto. Qed.

Section P.
Context {G : Type} (E : genv G) (N : gnet) (T : setts).
Notation st := (st G). Notation net := (net G).

(** the inspector with another batch size and stale m_origElVal *)
Definition seti (i : insp) (b : nat) (o : xf) : insp :=
  mkI (i_stack i) (i_check i) (i_grp i) (i_phase i) (i_row i) (i_col i) (i_an i) b None o (i_may i).
Definition setan (i : insp) (a : xf) (b : nat) : insp :=
  mkI (i_stack i) (i_check i) (i_grp i) (i_phase i) (i_row i) (i_col i) a b (i_ptr i) (i_orig i) (i_may i).

(** m_realBatchSize after the layers *)
Definition hit (i : insp) (g : group) (idx : nat) : bool := (i_check i =? idx) && grp_eqb g (i_grp i).
Fixpoint rows_l (i : insp) (m : nat) (l : glayer) (old : nat) : nat :=
  match l with
  | GFC idx _ _ _ => if hit i GW idx || hit i GA idx then m else old
  | GId idx _ => if hit i GA idx then m else old
  | GPack idx _ k ls => if hit i GA idx then m else rows_ls i (k * m) ls old
  end
with rows_ls (i : insp) (m : nat) (ls : glist) (old : nat) : nat :=
  match ls with GNil => old | GCons l ls => rows_ls i m ls (rows_l i m l old) end.
(** the parameter exists *)
Fixpoint coord_l (i : insp) (m : nat) (l : glayer) : Prop :=
  match l with
  | GFC idx n inc _ => (hit i GW idx = true -> i_row i < n /\ i_col i < inc + 1) /\ (hit i GA idx = true -> i_row i < m /\ i_col i < n)
  | GId idx n => hit i GA idx = true -> i_row i < m /\ i_col i < n
  | GPack idx n k ls => (hit i GA idx = true -> i_row i < m /\ i_col i < n) /\ coord_ls i (k * m) ls
  end
with coord_ls (i : insp) (m : nat) (ls : glist) : Prop :=
  match ls with GNil => True | GCons l ls => coord_l i m l /\ coord_ls i m ls end.
Fixpoint wok_l (W : list (list xf)) (l : glayer) : Prop :=
  match l with
  | GFC idx n inc _ => idx < length W /\ length (nth idx W []) = n * (inc + 1)
  | GId _ _ => True
  | GPack _ _ _ ls => wok_ls W ls
  end
with wok_ls W (ls : glist) : Prop := match ls with GNil => True | GCons l ls => wok_l W l /\ wok_ls W ls end.
(** neurons of the checked layer, for the offset of the weight *)
Fixpoint rowlen_l (ck : nat) (l : glayer) (d : nat) : nat :=
  match l with
  | GFC idx n _ _ => if ck =? idx then n else d
  | GId _ _ => d
  | GPack _ _ _ ls => rowlen_ls ck ls d
  end
with rowlen_ls (ck : nat) (ls : glist) (d : nat) : nat :=
  match ls with GNil => d | GCons l ls => rowlen_ls ck ls (rowlen_l ck l d) end.

Definition effW (i : insp) (W : list (list xf)) (n : nat) : list (list xf) :=
  if grp_eqb GW (i_grp i) && numeric (i_phase i) then moved W (i_check i) n (i_row i) (i_col i) (step_of T (i_phase i)) else W.
Definition effA (i : insp) : option (nat * nat * bool) :=
  if grp_eqb GA (i_grp i) && numeric (i_phase i)
  then Some (i_check i, i_col i, match i_phase i with PPlus => true | _ => false end) else None.

(** [nlen]: neurons of the checked layer where it is a fully connected one *)
Fixpoint nlen_l (i : insp) (nl : nat) (l : glayer) : Prop :=
  match l with
  | GFC idx n _ _ => hit i GW idx = true -> nl = n
  | GId _ _ => True
  | GPack _ _ _ ls => nlen_ls i nl ls
  end
with nlen_ls (i : insp) (nl : nat) (ls : glist) : Prop :=
  match ls with GNil => True | GCons l ls => nlen_l i nl l /\ nlen_ls i nl ls end.

Lemma set_W_id (n : net) : set_W (n_W n) n = n.
Proof. destruct n; reflexivity. Qed.
Lemma set_W2 (n : net) a b : set_W a (set_W b n) = set_W a n.
Proof. destruct n; reflexivity. Qed.
Lemma n_W_set (n : net) a : n_W (set_W a n) = a.
Proof. destruct n; reflexivity. Qed.

Definition nb (i : insp) (old new : nat) : nat := if numeric (i_phase i) then new else old.

Lemma act_top g i idx stk : i_stack i = idx :: stk -> 0 < i_check i ->
  act_on g i = hit i g idx.
Proof.
  intros H Hc. unfold act_on, hit. rewrite H, (proj2 (Nat.ltb_lt _ _) Hc). cbn [andb]. reflexivity.
Qed.
Lemma upper_top i idx stk : i_stack i = idx :: stk -> ~ In idx stk -> upper_different i = true.
Proof.
  intros H Hn. unfold upper_different. rewrite H. destruct stk as [|b stk]; [reflexivity|].
  destruct (Nat.eqb_spec idx b) as [->|]; [|reflexivity]. elim Hn. left. reflexivity.
Qed.

(** the tail of a layer's fprop: activations and fprop_end *)
Lemma act_pop idx n m (s : st) stk :
  i_stack (s_i s) = idx :: stk -> 0 < i_check (s_i s) -> ~ In idx stk -> i_ptr (s_i s) = None ->
  (hit (s_i s) GA idx = true -> i_row (s_i s) < m /\ i_col (s_i s) < n) ->
  (do s <- activations idx n m s; pop s) =
  Some (mkS (s_n s)
    (mkI stk (i_check (s_i s)) (i_grp (s_i s)) (i_phase (s_i s)) (i_row (s_i s)) (i_col (s_i s)) (i_an (s_i s))
       (nb (s_i s) (i_bs (s_i s)) (if hit (s_i s) GA idx then m else i_bs (s_i s))) None (i_orig (s_i s)) (i_may (s_i s)))
    (rev (moved_act (effA (s_i s)) idx) ++ s_h s)).
Proof.
  intros Hs Hc Hn Hp Hco. unfold activations. rewrite (act_top _ _ _ _ Hs Hc), (upper_top _ _ _ Hs Hn).
  destruct s as [n0 i h]. cbn [s_i s_n s_h] in *. unfold effA, nb.
  destruct (hit i GA idx) eqn:Hh.
  - destruct (Hco eq_refl) as [H1 H2]. unfold hit in Hh. apply andb_prop in Hh as [Hi Hg].
    rewrite Hg. cbn [andb]. destruct (numeric (i_phase i)) eqn:Hnu; cbn [andb obind].
    + rewrite (proj2 (Nat.ltb_lt _ _) H1), (proj2 (Nat.ltb_lt _ _) H2). cbn [andb guard obind].
      unfold pop. cbn [log with_i s_i i_check i_stack]. rewrite (proj2 (Nat.ltb_lt _ _) Hc), Hs.
      cbn. rewrite Hi, Hp. reflexivity.
    + unfold pop. cbn [s_i]. rewrite (proj2 (Nat.ltb_lt _ _) Hc), Hs. cbn. rewrite Hp. reflexivity.
  - assert (X : moved_act (if grp_eqb GA (i_grp i) && numeric (i_phase i) then Some (i_check i, i_col i, match i_phase i with PPlus => true | _ => false end) else None) idx = []).
    { unfold hit in Hh. destruct (grp_eqb GA (i_grp i)); cbn [andb] in *; [|reflexivity].
      destruct (numeric (i_phase i)); [|reflexivity]. cbn. rewrite andb_true_r in Hh. rewrite Hh. reflexivity. }
    rewrite X. cbn [andb obind]. unfold pop. cbn [s_i]. rewrite (proj2 (Nat.ltb_lt _ _) Hc), Hs. cbn [rev app with_i s_n s_i s_h]. rewrite Hp.
    destruct (numeric (i_phase i)); reflexivity.
Qed.

Lemma fc_fprop_ok idx n inc u m (s : st) nl :
  0 < i_check (s_i s) -> i_ptr (s_i s) = None -> n_block (s_n s) = true -> ~ In idx (i_stack (s_i s)) ->
  wok_l (n_W (s_n s)) (GFC idx n inc u) -> coord_l (s_i s) m (GFC idx n inc u) -> nlen_l (s_i s) nl (GFC idx n inc u) ->
  exists o, fc_fprop E T idx n inc m s =
    Some (mkS (s_n s) (seti (s_i s) (nb (s_i s) (i_bs (s_i s)) (rows_l (s_i s) m (GFC idx n inc u) (i_bs (s_i s)))) o)
      (rev (fwd_l (effW (s_i s) (n_W (s_n s)) nl) (effA (s_i s)) m (GFC idx n inc u)) ++ s_h s)).
Proof.
  intros Hc Hp Hb Hn [Hw1 Hw2] [Hco1 Hco2] Hnl. cbn [nlen_l] in Hnl.
  destruct s as [n0 i h]. cbn [s_i s_n s_h] in *. unfold fc_fprop, push. cbn [s_i].
  rewrite (proj2 (Nat.ltb_lt _ _) Hc). unfold with_i. cbn [s_n s_i s_h].
  set (i1 := mkI (idx :: i_stack i) (i_check i) (i_grp i) (i_phase i) (i_row i) (i_col i) (i_an i) (i_bs i) (i_ptr i) (i_orig i) (i_may i)).
  assert (Hpre : (if n_train n0 then pre_training_fprop E idx (mkS n0 i1 h) else mkS n0 i1 h) = mkS n0 i1 h).
  { destruct (n_train n0); [|reflexivity]. unfold pre_training_fprop. cbn [s_n]. rewrite Hb. reflexivity. }
  rewrite Hpre. clear Hpre.
  unfold makePreActivations. cbn [s_i s_n s_h].
  rewrite (act_top GW i1 idx (i_stack i) eq_refl Hc).
  change (hit i1 GW idx) with (hit i GW idx). change (i_phase i1) with (i_phase i).
  destruct (hit i GW idx && numeric (i_phase i)) eqn:Hh.
  - apply andb_prop in Hh as [Hh Hnu]. destruct (Hco1 Hh) as [H1 H2]. specialize (Hnl Hh). subst nl.
    unfold hit in Hh. pose proof (andb_prop _ _ Hh) as [Hi Hg]. apply Nat.eqb_eq in Hi.
    change (i_row i1) with (i_row i). change (i_col i1) with (i_col i).
    rewrite (proj2 (Nat.ltb_lt _ _) H1), (proj2 (Nat.ltb_lt _ _) H2). cbn [andb guard obind].
    rewrite (bget_nth _ _ [] Hw1). cbn [obind].
    set (w := nth idx (n_W n0) []) in *. set (p := i_row i + n * i_col i).
    assert (Hpl : p < length w) by (rewrite Hw2; unfold p; nia).
    rewrite (bget_nth _ _ XNaN Hpl). cbn [obind]. rewrite (bset_upd _ _ _ Hpl). cbn [obind s_n s_i s_h log].
    rewrite n_W_set. rewrite (bget_nth _ _ []) by (rewrite upd_length; exact Hw1). cbn [obind].
    rewrite nth_upd_same by exact Hw1.
    unfold preactivations. cbn [s_i s_n s_h log].
    match goal with |- context [act_on GW ?x] => set (i2 := x) end.
    rewrite (act_top GW i2 idx (i_stack i) eq_refl Hc). change (hit i2 GW idx) with (hit i GW idx).
    unfold hit. rewrite Hh. change (i_phase i2) with (i_phase i). rewrite Hnu. cbn [andb]. cbn [i2 i_ptr].
    rewrite n_W_set. rewrite (bget_nth _ _ []) by (rewrite upd_length; exact Hw1). cbn [obind]. rewrite nth_upd_same by exact Hw1.
    cbn [i2 i_orig]. rewrite bset_upd by (rewrite upd_length; exact Hpl). cbn [obind].
    rewrite !upd_upd, !upd_id, set_W2. unfold w at 1. rewrite upd_id, set_W_id.
    match goal with |- context [activations idx n m ?x] => set (s3 := x) end.
    exists (nth p w XNaN).
    pose proof (act_pop idx n m s3 (i_stack i) eq_refl Hc Hn eq_refl) as X. rewrite X; clear X.
    + unfold s3. cbn [s_n s_i s_h i_check i_grp i_phase i_row i_col i_an i_bs i_orig i_may].
      unfold seti, nb. cbn [i_phase i_bs rows_l]. rewrite Hnu.
      unfold i2. cbn [i_stack i_check i_grp i_phase i_row i_col i_an i_bs i_ptr i_orig i_may].
      assert (HGA : hit i GA idx = false).
      { unfold hit. destruct (i_grp i); cbn in *; [discriminate Hg|apply andb_false_r]. }
      replace (hit _ GA idx) with false by (symmetry; exact HGA).
      unfold hit at 1. rewrite Hh. cbn [orb].
      f_equal. f_equal. cbn [fwd_l rev]. 
      replace (moved_act _ idx) with (@nil event).
      2:{ unfold effA. destruct (i_grp i); cbn in *; [discriminate Hg|reflexivity]. }
      replace (moved_act (effA i) idx) with (@nil event).
      2:{ unfold effA. destruct (i_grp i); cbn in *; [discriminate Hg|reflexivity]. }
      cbn [rev app]. f_equal. f_equal.
      unfold effW. rewrite Hg, Hnu. cbn [andb]. unfold moved. rewrite Hi. rewrite nth_upd_same by exact Hw1. reflexivity.
    + intros Q. exfalso. change (hit i GA idx = true) in Q. unfold hit in Q. apply andb_prop in Q as [_ Q].
      destruct (i_grp i); cbn in *; [discriminate Hg|discriminate Q].
  - cbn [obind]. cbn [s_n s_i s_h]. rewrite (bget_nth _ _ [] Hw1). cbn [obind].
    unfold preactivations. cbn [s_i s_n s_h log].
    rewrite (act_top GW i1 idx (i_stack i) eq_refl Hc). change (hit i1 GW idx) with (hit i GW idx). change (i_phase i1) with (i_phase i).
    rewrite Hh. cbn [obind].
    match goal with |- context [activations idx n m ?x] => set (s3 := x) end.
    exists (i_orig i).
    pose proof (act_pop idx n m s3 (i_stack i) eq_refl Hc Hn Hp) as X. rewrite X; clear X; [|exact Hco2].
    unfold s3. cbn [s_n s_i s_h log].
    unfold i1. cbn [i_stack i_check i_grp i_phase i_row i_col i_an i_bs i_ptr i_orig i_may].
    unfold seti, nb. cbn [i_phase i_bs rows_l i_check i_grp].
    change (hit _ GA idx) with (hit i GA idx). change (effA _) with (effA i).
    f_equal. f_equal.
    + f_equal. destruct (numeric (i_phase i)) eqn:Hnu; [|reflexivity]. rewrite andb_true_r in Hh. rewrite Hh. reflexivity.
    + cbn [fwd_l rev]. rewrite <- app_assoc. cbn [app]. f_equal. f_equal. f_equal.
      unfold effW. destruct (grp_eqb GW (i_grp i)) eqn:Hg; cbn [andb]; [|reflexivity].
      destruct (numeric (i_phase i)) eqn:Hnu; [|reflexivity].
      unfold moved. symmetry. apply nth_upd_other. intros Q.
      unfold hit in Hh. rewrite Hg, Q, Nat.eqb_refl in Hh. discriminate Hh.
Qed.

Fixpoint ids_l (l : glayer) : list nat :=
  match l with GFC idx _ _ _ => [idx] | GId idx _ => [idx] | GPack idx _ _ ls => idx :: ids_ls ls end
with ids_ls (ls : glist) : list nat := match ls with GNil => [] | GCons l ls => ids_l l ++ ids_ls ls end.

Lemma seti2 i a b o o' : seti (seti i a o) b o' = seti i b o'.
Proof. reflexivity. Qed.
Lemma rows_seti : (forall l i a o m b, rows_l (seti i a o) m l b = rows_l i m l b) /\
  (forall ls i a o m b, rows_ls (seti i a o) m ls b = rows_ls i m ls b).
Proof.
  apply glayer_mutind; intros; cbn; auto.
  - rewrite H. reflexivity.
  - rewrite H, H0. reflexivity.
Qed.
Lemma coord_seti : (forall l i a o m, coord_l (seti i a o) m l <-> coord_l i m l) /\
  (forall ls i a o m, coord_ls (seti i a o) m ls <-> coord_ls i m ls).
Proof.
  apply glayer_mutind; intros; cbn; try tauto.
  - rewrite H. tauto.
  - rewrite H, H0. tauto.
Qed.
Lemma nlen_seti : (forall l i a o nl, nlen_l (seti i a o) nl l <-> nlen_l i nl l) /\
  (forall ls i a o nl, nlen_ls (seti i a o) nl ls <-> nlen_ls i nl ls).
Proof.
  apply glayer_mutind; intros; cbn; try tauto.
  - rewrite H. tauto.
  - rewrite H, H0. tauto.
Qed.
(** pushing another layer changes nothing of these *)
Definition pushed (x : nat) (i : insp) : insp :=
  mkI (x :: i_stack i) (i_check i) (i_grp i) (i_phase i) (i_row i) (i_col i) (i_an i) (i_bs i) (i_ptr i) (i_orig i) (i_may i).
Lemma rows_push x : (forall l i m b, rows_l (pushed x i) m l b = rows_l i m l b) /\
  (forall ls i m b, rows_ls (pushed x i) m ls b = rows_ls i m ls b).
Proof.
  apply glayer_mutind; intros; cbn; auto.
  - rewrite H. reflexivity.
  - rewrite H, H0. reflexivity.
Qed.
Lemma coord_push x : (forall l i m, coord_l (pushed x i) m l <-> coord_l i m l) /\
  (forall ls i m, coord_ls (pushed x i) m ls <-> coord_ls i m ls).
Proof.
  apply glayer_mutind; intros; cbn; try tauto.
  - rewrite H. tauto.
  - rewrite H, H0. tauto.
Qed.
Lemma nlen_push x : (forall l i nl, nlen_l (pushed x i) nl l <-> nlen_l i nl l) /\
  (forall ls i nl, nlen_ls (pushed x i) nl ls <-> nlen_ls i nl ls).
Proof.
  apply glayer_mutind; intros; cbn; try tauto.
  - rewrite H. tauto.
  - rewrite H, H0. tauto.
Qed.

Definition fprop_post (s : st) (b : nat) (evs : list event) (r : option st) : Prop :=
  exists o, r = Some (mkS (s_n s) (seti (s_i s) (nb (s_i s) (i_bs (s_i s)) b) o) (rev evs ++ s_h s)).

Lemma fprop_ok : (forall l m (s : st) nl,
    0 < i_check (s_i s) -> i_ptr (s_i s) = None -> n_block (s_n s) = true ->
    NoDup (ids_l l) -> (forall x, In x (ids_l l) -> ~ In x (i_stack (s_i s))) ->
    wok_l (n_W (s_n s)) l -> coord_l (s_i s) m l -> nlen_l (s_i s) nl l ->
    fprop_post s (rows_l (s_i s) m l (i_bs (s_i s))) (fwd_l (effW (s_i s) (n_W (s_n s)) nl) (effA (s_i s)) m l) (fprop_l E T m l s)) /\
  (forall ls m (s : st) nl,
    0 < i_check (s_i s) -> i_ptr (s_i s) = None -> n_block (s_n s) = true ->
    NoDup (ids_ls ls) -> (forall x, In x (ids_ls ls) -> ~ In x (i_stack (s_i s))) ->
    wok_ls (n_W (s_n s)) ls -> coord_ls (s_i s) m ls -> nlen_ls (s_i s) nl ls ->
    fprop_post s (rows_ls (s_i s) m ls (i_bs (s_i s))) (fwd_ls (effW (s_i s) (n_W (s_n s)) nl) (effA (s_i s)) m ls) (fprop_ls E T m ls s)).
Proof.
  apply glayer_mutind.
  - intros idx n inc u m s nl Hc Hp Hb Hd Hn Hw Hco Hnl.
    apply fc_fprop_ok; auto. apply Hn. left. reflexivity.
  - intros idx n m s nl Hc Hp Hb Hd Hn Hw Hco Hnl. cbn [fprop_l]. exists (i_orig (s_i s)).
    unfold push. rewrite (proj2 (Nat.ltb_lt _ _) Hc).
    match goal with |- context [activations idx n m ?x] => set (s3 := x) end.
    rewrite (act_pop idx n m s3 (i_stack (s_i s)) eq_refl Hc (Hn idx (or_introl eq_refl)) Hp Hco). reflexivity.
  - intros idx n k ls IH m s nl Hc Hp Hb Hd Hn Hw Hco Hnl.
    cbn [ids_l] in Hd, Hn. apply NoDup_cons_iff in Hd as [Hd1 Hd2]. destruct Hco as [Hco1 Hco2].
    change (fprop_l E T m (GPack idx n k ls) s) with (do s <- fprop_ls E T (k * m) ls (push idx s); do s <- activations idx n m s; pop s).
    unfold push. rewrite (proj2 (Nat.ltb_lt _ _) Hc).
    change (mkI (idx :: i_stack (s_i s)) _ _ _ _ _ _ _ _ _ _) with (pushed idx (s_i s)).
    destruct (IH (k * m) (with_i (pushed idx (s_i s)) s) nl) as [o Ho]; auto.
    + cbn [s_i with_i pushed i_stack]. intros x Hx [->|Hx']; [apply Hd1, Hx|]. apply (Hn x); [right; exact Hx|exact Hx'].
    + cbn [s_i with_i]. apply coord_push, Hco2.
    + cbn [s_i with_i]. apply nlen_push, Hnl.
    + rewrite Ho. cbn [obind]. exists o.
      match goal with |- context [activations idx n m ?x] => set (s3 := x) end.
      rewrite (act_pop idx n m s3 (i_stack (s_i s)) eq_refl Hc (Hn idx (or_introl eq_refl)) eq_refl Hco1).
      unfold s3. cbn [s_n s_i s_h with_i]. rewrite (proj2 (rows_push idx)).
      unfold seti, nb. cbn [pushed i_stack i_check i_grp i_phase i_row i_col i_an i_bs i_ptr i_orig i_may rows_l].
      change (hit _ GA idx) with (hit (s_i s) GA idx).
      change (effA _) with (effA (s_i s)). change (effW _ ?w nl) with (effW (s_i s) w nl) at 1.
      f_equal. f_equal.
      * f_equal. destruct (numeric (i_phase (s_i s))); [|reflexivity]. destruct (hit (s_i s) GA idx); reflexivity.
      * cbn [fwd_l]. rewrite rev_app_distr, <- app_assoc. reflexivity.
  - intros m s nl Hc Hp _ _ _ _ _ _. exists (i_orig (s_i s)). cbn. f_equal. destruct s as [n0 i h]. cbn [s_n s_i s_h rows_ls] in *.
    unfold seti, nb. replace (if numeric (i_phase i) then i_bs i else i_bs i) with (i_bs i) by (destruct (numeric _); reflexivity).
    rewrite <- Hp. destruct i; reflexivity.
  - intros l IHl ls IHls m s nl Hc Hp Hb Hd Hn Hw Hco Hnl.
    cbn [ids_ls] in Hd, Hn. destruct Hw as [Hw1 Hw2], Hco as [Hco1 Hco2], Hnl as [Hnl1 Hnl2].
    pose proof (nodup_app_l _ _ Hd) as Hd1.
    pose proof (nodup_app_r _ _ Hd) as Hd2.
    destruct (IHl m s nl) as [o Ho]; auto. { intros x Hx. apply Hn, in_or_app. left. exact Hx. }
    change (fprop_ls E T m (GCons l ls) s) with (do s <- fprop_l E T m l s; fprop_ls E T m ls s). rewrite Ho. cbn [obind].
    match goal with |- context [fprop_ls E T m ls ?x] => set (s2 := x) end.
    destruct (IHls m s2 nl) as [o2 Ho2]; auto.
    + intros x Hx. apply Hn, in_or_app. right. exact Hx.
    + apply coord_seti, Hco2.
    + apply nlen_seti, Hnl2.
    + exists o2. rewrite Ho2. unfold s2. cbn [s_n s_i s_h].
      rewrite (proj2 rows_seti). rewrite seti2.
      change (effA (seti _ _ _)) with (effA (s_i s)). change (effW (seti _ _ _) ?w nl) with (effW (s_i s) w nl).
      cbn [fwd_ls]. rewrite rev_app_distr, <- app_assoc. f_equal. f_equal.
      unfold nb. cbn [seti i_phase i_bs]. cbn [rows_ls]. f_equal.
      destruct (numeric (i_phase (s_i s))); reflexivity.
Qed.

(** ** Back-propagation *)
Fixpoint anb_l (i : insp) (h : list event) (m : nat) (l : glayer) (old : xf * nat) : xf * nat :=
  match l with
  | GFC idx n inc u => 
      if hit i GA idx then (ge_dLdA E (VBack idx :: h) idx (i_row i) (i_col i), m)
      else if hit i GW idx && u then (ge_dLdW E (VBack idx :: h) idx (i_row i) (i_col i), m) else old
  | GId idx n => if hit i GA idx then (ge_dLdA E (VBack idx :: h) idx (i_row i) (i_col i), m) else old
  | GPack idx n k ls => anb_ls i (VBack idx :: h) (k * m) ls
      (if hit i GA idx then (ge_dLdA E (VBack idx :: h) idx (i_row i) (i_col i), m) else old)
  end
with anb_ls (i : insp) (h : list event) (m : nat) (ls : glist) (old : xf * nat) : xf * nat :=
  match ls with
  | GNil => old
  | GCons l ls => anb_l i (rev (map VBack (back_ls ls)) ++ h) m l (anb_ls i h m ls old)
  end.
Definition setab (i : insp) (ab : xf * nat) : insp := setan i (fst ab) (snd ab).
Definition ab_of (i : insp) : xf * nat := (i_an i, i_bs i).

Lemma anb_set : (forall l i ab h m old, anb_l (setab i ab) h m l old = anb_l i h m l old) /\
  (forall ls i ab h m old, anb_ls (setab i ab) h m ls old = anb_ls i h m ls old).
Proof.
  apply glayer_mutind; intros; cbn; auto.
  rewrite H. f_equal. apply H0.
Qed.
Lemma anb_push x : (forall l i h m old, anb_l (pushed x i) h m l old = anb_l i h m l old) /\
  (forall ls i h m old, anb_ls (pushed x i) h m ls old = anb_ls i h m ls old).
Proof.
  apply glayer_mutind; intros; cbn; auto.
  rewrite H. f_equal. apply H0.
Qed.
Lemma coord_set : (forall l i ab m, coord_l (setab i ab) m l <-> coord_l i m l) /\
  (forall ls i ab m, coord_ls (setab i ab) m ls <-> coord_ls i m ls).
Proof.
  apply glayer_mutind; intros; cbn; try tauto.
  - rewrite H. tauto.
  - rewrite H, H0. tauto.
Qed.
Lemma setab2 i a b : setab (setab i a) b = setab i b.
Proof. reflexivity. Qed.

Definition bprop_post (s : st) (ab : xf * nat) (bk : list nat) (r : option st) : Prop :=
  r = Some (mkS (s_n s) (setab (s_i s) ab) (rev (map VBack bk) ++ s_h s)).

Lemma final_dLdA_ok idx n m (s : st) stk : i_stack (s_i s) = idx :: stk -> 0 < i_check (s_i s) -> ~ In idx stk ->
  i_phase (s_i s) = PAnalytical -> (hit (s_i s) GA idx = true -> i_row (s_i s) < m /\ i_col (s_i s) < n) ->
  final_dLdA E idx n m s = Some (with_i (setab (s_i s) (if hit (s_i s) GA idx then (ge_dLdA E (s_h s) idx (i_row (s_i s)) (i_col (s_i s)), m) else ab_of (s_i s))) s).
Proof.
  intros Hs Hc Hn Hp Hco. unfold final_dLdA. rewrite (act_top _ _ _ _ Hs Hc), (upper_top _ _ _ Hs Hn), Hp. cbn [numeric negb].
  destruct (hit (s_i s) GA idx); cbn [andb].
  - destruct (Hco eq_refl) as [H1 H2]. rewrite (proj2 (Nat.ltb_lt _ _) H1), (proj2 (Nat.ltb_lt _ _) H2). cbn [andb guard obind].
    f_equal. unfold with_i. f_equal. unfold setab, setan. rewrite Hp. reflexivity.
  - f_equal. unfold with_i. destruct s as [n0 [] h]; reflexivity.
Qed.

Lemma pop_ok (s : st) x stk : i_stack (s_i s) = x :: stk -> 0 < i_check (s_i s) ->
  pop s = Some (with_i (mkI stk (i_check (s_i s)) (i_grp (s_i s)) (i_phase (s_i s)) (i_row (s_i s)) (i_col (s_i s)) (i_an (s_i s)) (i_bs (s_i s)) (i_ptr (s_i s)) (i_orig (s_i s)) (i_may (s_i s))) s).
Proof. intros Hs Hc. unfold pop. rewrite (proj2 (Nat.ltb_lt _ _) Hc), Hs. reflexivity. Qed.

Lemma fc_bprop_ok hidden idx n inc u m (s : st) :
  0 < i_check (s_i s) -> n_block (s_n s) = true -> ~ In idx (i_stack (s_i s)) -> i_phase (s_i s) = PAnalytical ->
  (hidden = false -> hit (s_i s) GA idx = false) ->
  coord_l (s_i s) m (GFC idx n inc u) ->
  bprop_post s (anb_l (s_i s) (s_h s) m (GFC idx n inc u) (ab_of (s_i s))) [idx] (fc_bprop E hidden idx n inc u m s).
Proof.
  intros Hc Hb Hn Hp Hh [Hco1 Hco2]. unfold bprop_post, fc_bprop, push. rewrite (proj2 (Nat.ltb_lt _ _) Hc).
  change (mkI (idx :: i_stack (s_i s)) _ _ _ _ _ _ _ _ _ _) with (pushed idx (s_i s)).
  set (s1 := log (VBack idx) (with_i (pushed idx (s_i s)) s)).
  set (ab1 := if hit (s_i s) GA idx then (ge_dLdA E (VBack idx :: s_h s) idx (i_row (s_i s)) (i_col (s_i s)), m) else ab_of (s_i s)).
  assert (H1 : (if hidden then final_dLdA E idx n m s1 else Some s1) = Some (with_i (setab (s_i s1) ab1) s1)).
  { destruct hidden.
    - apply (final_dLdA_ok idx n m s1 (i_stack (s_i s)) eq_refl Hc Hn Hp Hco2).
    - unfold ab1. rewrite Hh by reflexivity. unfold s1. destruct s as [n0 [] h]; reflexivity. }
  rewrite H1. cbn [obind]. clear H1.
  set (s2 := with_i (setab (s_i s1) ab1) s1).
  set (ab2 := if hit (s_i s) GW idx && u then (ge_dLdW E (VBack idx :: s_h s) idx (i_row (s_i s)) (i_col (s_i s)), m) else ab1).
  assert (H2 : (if u then do s <- the_dLdW E idx n inc m s2; Some (apply_grad E idx s) else Some s2) = Some (with_i (setab (s_i s1) ab2) s1)).
  { unfold ab2. destruct u; [|rewrite andb_false_r; reflexivity]. rewrite andb_true_r.
    unfold the_dLdW. rewrite (act_top GW (s_i s2) idx (i_stack (s_i s)) eq_refl Hc).
    change (i_phase (s_i s2)) with (i_phase (s_i s)). rewrite Hp. cbn [numeric negb]. rewrite andb_true_r.
    change (hit (s_i s2) GW idx) with (hit (s_i s) GW idx).
    destruct (hit (s_i s) GW idx).
    - destruct (Hco1 eq_refl) as [Q1 Q2].
      change (i_row (s_i s2)) with (i_row (s_i s)). change (i_col (s_i s2)) with (i_col (s_i s)).
      rewrite (proj2 (Nat.ltb_lt _ _) Q1), (proj2 (Nat.ltb_lt _ _) Q2). cbn [andb guard obind].
      unfold apply_grad. change (n_block (s_n (with_i _ s2))) with (n_block (s_n s)). rewrite Hb.
      unfold s2, s1, setab, setan, pushed, with_i, log. cbn. rewrite ?Hp. reflexivity.
    - cbn [obind]. unfold apply_grad. change (n_block (s_n s2)) with (n_block (s_n s)). rewrite Hb. reflexivity. }
  rewrite H2. cbn [obind]. clear H2.
  match goal with |- context [pop ?x] => rewrite (pop_ok x idx (i_stack (s_i s)) eq_refl Hc) end.
  unfold s1. cbn [anb_l]. fold ab1.
  assert (Hab : ab2 = if hit (s_i s) GA idx then (ge_dLdA E (VBack idx :: s_h s) idx (i_row (s_i s)) (i_col (s_i s)), m)
      else if hit (s_i s) GW idx && u then (ge_dLdW E (VBack idx :: s_h s) idx (i_row (s_i s)) (i_col (s_i s)), m) else ab_of (s_i s)).
  { unfold ab2, ab1, hit. destruct (i_check (s_i s) =? idx), (i_grp (s_i s)), u; reflexivity. }
  rewrite <- Hab. reflexivity.
Qed.

Lemma bprop_ok : (forall l m (s : st),
    0 < i_check (s_i s) -> n_block (s_n s) = true -> i_phase (s_i s) = PAnalytical ->
    NoDup (ids_l l) -> (forall x, In x (ids_l l) -> ~ In x (i_stack (s_i s))) -> coord_l (s_i s) m l ->
    bprop_post s (anb_l (s_i s) (s_h s) m l (ab_of (s_i s))) (back_l l) (bprop_l E m l s)) /\
  (forall ls m (s : st),
    0 < i_check (s_i s) -> n_block (s_n s) = true -> i_phase (s_i s) = PAnalytical ->
    NoDup (ids_ls ls) -> (forall x, In x (ids_ls ls) -> ~ In x (i_stack (s_i s))) -> coord_ls (s_i s) m ls ->
    bprop_post s (anb_ls (s_i s) (s_h s) m ls (ab_of (s_i s))) (back_ls ls) (bprop_ls E m ls s)).
Proof.
  apply glayer_mutind.
  - intros idx n inc u m s Hc Hb Hp Hd Hn Hco. apply fc_bprop_ok; auto; [apply Hn; left; reflexivity|discriminate].
  - intros idx n m s Hc Hb Hp Hd Hn Hco. unfold bprop_post.
    change (bprop_l E m (GId idx n) s) with (do s <- final_dLdA E idx n m (log (VBack idx) (push idx s)); pop s).
    unfold push. rewrite (proj2 (Nat.ltb_lt _ _) Hc).
    match goal with |- context [final_dLdA E idx n m ?x] => set (s1 := x) end.
    rewrite (final_dLdA_ok idx n m s1 (i_stack (s_i s)) eq_refl Hc (Hn idx (or_introl eq_refl)) Hp Hco). cbn [obind].
    match goal with |- context [pop ?x] => rewrite (pop_ok x idx (i_stack (s_i s)) eq_refl Hc) end. reflexivity.
  - intros idx n k ls IH m s Hc Hb Hp Hd Hn Hco. unfold bprop_post.
    cbn [ids_l] in Hd, Hn. apply NoDup_cons_iff in Hd as [Hd1 Hd2]. destruct Hco as [Hco1 Hco2].
    change (bprop_l E m (GPack idx n k ls) s) with (do s <- final_dLdA E idx n m (log (VBack idx) (push idx s)); do s <- bprop_ls E (k * m) ls s; pop s).
    unfold push. rewrite (proj2 (Nat.ltb_lt _ _) Hc).
    match goal with |- context [final_dLdA E idx n m ?x] => set (s1 := x) end.
    rewrite (final_dLdA_ok idx n m s1 (i_stack (s_i s)) eq_refl Hc (Hn idx (or_introl eq_refl)) Hp Hco1). cbn [obind].
    set (ab1 := if hit _ _ _ then _ else _). set (s2 := with_i (setab (s_i s1) ab1) s1).
    assert (IH' : bprop_post s2 (anb_ls (s_i s2) (s_h s2) (k * m) ls (ab_of (s_i s2))) (back_ls ls) (bprop_ls E (k * m) ls s2)).
    { apply IH; auto.
      - cbn. intros x Hx [->|Hx']; [apply Hd1, Hx|]. apply (Hn x); [right; exact Hx|exact Hx'].
      - change (s_i s2) with (setab (pushed idx (s_i s)) ab1). apply coord_set, coord_push, Hco2. }
    rewrite IH'. cbn [obind]. match goal with |- context [pop ?x] => rewrite (pop_ok x idx (i_stack (s_i s)) eq_refl Hc) end.
    change (s_i s2) with (setab (pushed idx (s_i s)) ab1). rewrite (proj2 anb_set), (proj2 (anb_push idx)).
    change (ab_of (setab (pushed idx (s_i s)) ab1)) with (fst ab1, snd ab1). rewrite <- surjective_pairing.
    cbn [anb_l]. unfold with_i. cbn [s_n s_h]. f_equal. f_equal.
    cbn [back_l map rev]. rewrite <- app_assoc. reflexivity.
  - intros m s _ _ _ _ _ _. unfold bprop_post. cbn. f_equal. destruct s as [n0 [] h]; reflexivity.
  - intros l IHl ls IHls m s Hc Hb Hp Hd Hn Hco. unfold bprop_post.
    cbn [ids_ls] in Hd, Hn. destruct Hco as [Hco1 Hco2].
    change (bprop_ls E m (GCons l ls) s) with (do s <- bprop_ls E m ls s; bprop_l E m l s).
    rewrite IHls; auto; [| exact (nodup_app_r _ _ Hd) | intros x Hx; apply Hn, in_or_app; right; exact Hx].
    cbn [obind].
    match goal with |- bprop_l E m l ?x = _ => set (s2 := x) end.
    rewrite (IHl m s2); auto; [| exact (nodup_app_l _ _ Hd) | intros x Hx; apply Hn, in_or_app; left; exact Hx | apply coord_set, Hco1].
    unfold s2. cbn [s_n s_i s_h]. rewrite (proj1 anb_set), setab2.
    change (ab_of (setab ?i ?x)) with (fst x, snd x). rewrite <- surjective_pairing.
    cbn [anb_ls back_ls]. rewrite map_app, rev_app_distr, <- app_assoc. reflexivity.
Qed.
End P.
