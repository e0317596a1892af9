(** The files a training leaves. *)
From Coq Require Import String List.
From Verif Require Import Base BaseLemmas Smx_Model Util_Model Util_Proofs Mf_Model Mf_Spec Dp_Model Dp_Spec Dp_Proofs.
Import ListNotations.
Local Open Scope Z_scope.

Lemma run_cmds_app k l1 : forall l2 s, run_cmds k (l1 ++ l2) s = do s' <- run_cmds k l1 s; run_cmds k l2 s'.
Proof.
  induction l1 as [|c l1 IH]; intros l2 s; [reflexivity|]. cbn [app run_cmds].
  destruct (run_cmd k c s); cbn [obind]; [apply IH | reflexivity].
Qed.

(** ** The flags of epochs *)
Lemma ask_set v e b : 0 <= e < Z.of_nat (length v) -> 
  exists v', vc_set e b v = Some v' /\ length v' = length v /\
             forall e', 0 <= e' -> vc_ask v' e' = if e' =? e then Some b else vc_ask v e'.
Proof.
  intros He. unfold vc_set. rewrite zset_some by exact He. eexists. split; [reflexivity|]. split; [apply upd_length|].
  intros e' He'. unfold vc_ask, zget, bget. destruct (Z.ltb_spec e' 0); [lia|].
  rewrite upd_nth_error by lia. destruct (Nat.eqb_spec (Z.to_nat e') (Z.to_nat e)), (Z.eqb_spec e' e); try reflexivity; lia.
Qed.

Lemma mark_spec tot l : forall v, 0 < tot -> (forall e, List.In e l -> 0 <= e) -> Z.of_nat (length v) = tot ->
  exists v', mark tot l v = Some v' /\
    forall e, 0 <= e -> vc_ask v' e = if existsb (fun x => (if x <? tot then x else tot - 1) =? e) l then Some true else vc_ask v e.
Proof.
  induction l as [|x l IH]; intros v Ht Hl Hv.
  - exists v. split; reflexivity.
  - cbn [mark existsb].
    assert (Hx : 0 <= (if x <? tot then x else tot - 1) < Z.of_nat (length v)).
    { specialize (Hl x (or_introl eq_refl)). destruct (Z.ltb_spec x tot); lia. }
    destruct (ask_set v _ true Hx) as (v1 & E1 & L1 & A1).
    assert (E : (if x <? tot then vc_set x true v else vc_set (tot - 1) true v) = Some v1) by (destruct (x <? tot); exact E1).
    rewrite E. cbn [obind]. destruct (IH v1 Ht ltac:(intros; apply Hl; right; assumption) ltac:(lia)) as (v' & E' & A').
    exists v'. split; [exact E'|]. intros e He. rewrite A' by exact He. rewrite A1 by exact He.
    rewrite (Z.eqb_sym e). destruct ((if x <? tot then x else tot - 1) =? e); cbn; [destruct (existsb _ l); reflexivity | reflexivity].
Qed.

Definition chb (eps : list Z) (tot e : Z) : bool :=
  existsb (fun x => x =? e) eps || ((e =? tot - 1) && (match eps with [] => true | _ => existsb (fun x => tot <=? x) eps end)).
Lemma chb_iff eps tot e : chb eps tot e = true <-> chosen eps tot e.
Proof.
  unfold chb, chosen. rewrite orb_true_iff, andb_true_iff, existsb_exists, Z.eqb_eq.
  assert (A : (exists x, List.In x eps /\ (x =? e) = true) <-> List.In e eps).
  { split; [intros (x & Hx & E); apply Z.eqb_eq in E; subst; exact Hx | intro H; exists e; split; [exact H | apply Z.eqb_refl]]. }
  rewrite A.
  assert (B : (match eps with [] => true | _ => existsb (fun x => tot <=? x) eps end) = true <-> (eps = [] \/ exists x, List.In x eps /\ tot <= x)).
  { destruct eps as [|a t]; [split; auto |]. rewrite existsb_exists. split.
    - intros (x & Hx & E). right. exists x. split; [exact Hx | lia].
    - intros [X | (x & Hx & E)]; [discriminate X | exists x; split; [exact Hx | lia]]. }
  rewrite B. reflexivity.
Qed.

Lemma epoch_init_spec tot c : 0 < tot -> (forall e, List.In e (c_epochs c) -> 0 <= e) ->
  exists v eps, epoch_init tot c = Some (mkC eps v (c_lastE c) (c_lastB c) (c_init c) (c_n c) (c_stride c)) /\
    (c_epochs c <> [] -> eps = c_epochs c) /\ (forall e, List.In e eps -> 0 <= e) /\
    forall e, 0 <= e < tot -> vc_ask v e = Some (chb (c_epochs c) tot e).
Proof.
  intros Ht Hl. unfold epoch_init. set (eps := match c_epochs c with [] => [tot - 1] | l => l end).
  assert (He : forall e, List.In e eps -> 0 <= e).
  { unfold eps. destruct (c_epochs c); [intros e [<-|[]]; lia | exact Hl]. }
  assert (HL : Z.of_nat (length (vc_resize tot false [])) = tot).
  { unfold vc_resize. rewrite app_length, firstn_length, repeat_length. cbn [length]. lia. }
  destruct (mark_spec tot eps _ Ht He HL) as (v & E & A).
  exists v, eps. fold eps. rewrite E. cbn [obind]. split; [reflexivity|].
  split; [unfold eps; destruct (c_epochs c); congruence|]. split; [exact He|].
  intros e Hr. rewrite A by lia.
  assert (F : vc_ask (vc_resize tot false []) e = Some false).
  { unfold vc_ask, zget, bget. destruct (Z.ltb_spec e 0); [lia|]. unfold vc_resize in *. cbn [length] in *. rewrite Nat.sub_0_r in *.
    rewrite firstn_nil in *. cbn [app] in *. rewrite repeat_length in HL. apply nth_error_repeat. lia. }
  rewrite F.
  assert (X : existsb (fun x => (if x <? tot then x else tot - 1) =? e) eps = chb (c_epochs c) tot e).
  { apply eq_true_iff_eq. rewrite chb_iff. unfold chosen. rewrite existsb_exists. unfold eps. destruct (c_epochs c) as [|a t].
    - split.
      + intros (x & [<-|[]] & Hx). right. split; [| left; reflexivity]. destruct (Z.ltb_spec (tot - 1) tot); lia.
      + intros [[]|(-> & _)]. exists (tot - 1). split; [left; reflexivity|]. destruct (Z.ltb_spec (tot - 1) tot); lia.
    - split.
      + intros (x & Hx & E2). apply Z.eqb_eq in E2. destruct (Z.ltb_spec x tot); [left; subst; exact Hx | right; split; [lia|]].
        right. exists x. split; [exact Hx | lia].
      + intros [Hx | (-> & [D | (x & Hx & Hxt)])]; [| discriminate D |].
        * exists e. split; [exact Hx|]. destruct (Z.ltb_spec e tot); lia.
        * exists x. split; [exact Hx|]. destruct (Z.ltb_spec x tot); lia. }
  rewrite X. destruct (chb _ _ _); reflexivity.
Qed.

(** ** The conditions *)
Definition condI (k : kind) (tot : Z) (c cc : cond) : Prop :=
  c_n cc = c_n c /\ c_stride cc = c_stride c /\
  (k <> FirstBatches -> forall e, 0 <= e < tot -> vc_ask (c_flags cc) e = Some (chb (c_epochs c) tot e)) /\
  (k = EpochNumWLastBatch \/ k = EpochNumWFirstNLastBatch -> c_lastE cc = tot - 1) /\
  (k = CalcErrByEpochNum \/ k = CalcErrOnlyByEpochNum -> c_init cc = false) /\
  (c_epochs c <> [] -> c_epochs cc = c_epochs c).

Lemma cond_init_spec k tot c : 0 < tot -> askable k c -> exists cc, cond_init k tot c = Some cc /\ condI k tot c cc.
Proof.
  intros Ht Ha. unfold condI.
  destruct k; cbn [askable cond_init] in *.
  1-5: destruct Ha as [Ha Hs].
  - destruct (epoch_init_spec tot c Ht Ha) as (v & eps & -> & H1 & H2 & H3).
    eexists. split; [reflexivity|]. cbn. repeat split; auto; intros [X|X]; discriminate X.
  - destruct (epoch_init_spec tot (mkC (c_epochs c) (c_flags c) (tot - 1) (-1) (c_init c) (c_n c) (c_stride c)) Ht Ha) as (v & eps & -> & H1 & H2 & H3).
    eexists. split; [reflexivity|]. cbn in *. repeat split; auto; intros [X|X]; discriminate X.
  - destruct (epoch_init_spec tot (mkC (c_epochs c) (c_flags c) (tot - 1) (-1) (c_init c) (c_n c) (c_stride c)) Ht Ha) as (v & eps & -> & H1 & H2 & H3).
    eexists. split; [reflexivity|]. cbn in *. repeat split; auto; intros [X|X]; discriminate X.
  - destruct (epoch_init_spec tot c Ht Ha) as (v & eps & -> & H1 & H2 & H3).
    eexists. split; [reflexivity|]. cbn. repeat split; auto; try (intros [X|X]; discriminate X).
    intros _. apply not_true_is_false. rewrite existsb_exists. intros (x & Hx & E). specialize (H2 x Hx). unfold before_start in E. lia.
  - destruct (epoch_init_spec tot c Ht Ha) as (v & eps & -> & H1 & H2 & H3).
    eexists. split; [reflexivity|]. cbn. repeat split; auto; try (intros [X|X]; discriminate X).
    intros _. apply not_true_is_false. rewrite existsb_exists. intros (x & Hx & E). specialize (H2 x Hx). unfold before_start in E. lia.
  - destruct Ha as [Hn Hs]. destruct (Z.eqb_spec (c_n c) 0); [lia|]. destruct (Z.eqb_spec (c_stride c) 0); [lia|].
    eexists. split; [reflexivity|]. cbn. repeat split; auto; try (intros [X|X]; discriminate X). intro X; congruence.
Qed.

Definition lastb (eps : list Z) (tot e b nb : Z) : bool := chb eps tot e && (if e =? tot - 1 then b =? nb - 1 else 0 =? b).
Definition firstb (c : cond) (b : Z) : bool := (b <? c_n c) && (Z.rem b (c_stride c) =? 0).
Definition Wb (k : kind) (c : cond) (tot e b nb : Z) : bool :=
  match k with
  | EpochNum | CalcErrByEpochNum => chb (c_epochs c) tot e && (0 =? b)
  | EpochNumWLastBatch => lastb (c_epochs c) tot e b nb
  | EpochNumWFirstNLastBatch => if e =? 0 then firstb c b else lastb (c_epochs c) tot e b nb
  | CalcErrOnlyByEpochNum => false
  | FirstBatches => firstb c b
  end.
Lemma Wb_iff k c tot e b nb : 0 < c_stride c -> 0 <= b -> Wb k c tot e b nb = true <-> wanted k c tot e b nb.
Proof.
  intros Hs Hb.
  assert (L : lastb (c_epochs c) tot e b nb = true <-> chosen (c_epochs c) tot e /\ b = (if e =? tot - 1 then nb - 1 else 0)).
  { unfold lastb. rewrite andb_true_iff, chb_iff. destruct (e =? tot - 1); rewrite Z.eqb_eq; intuition. }
  assert (F : firstb c b = true <-> b < c_n c /\ (c_stride c | b)).
  { unfold firstb. rewrite andb_true_iff, Z.ltb_lt, Z.eqb_eq. rewrite Z.rem_divide by lia. reflexivity. }
  destruct k; cbn [Wb wanted].
  - rewrite andb_true_iff, chb_iff, Z.eqb_eq. intuition.
  - exact L.
  - destruct (e =? 0); [exact F | exact L].
  - rewrite andb_true_iff, chb_iff, Z.eqb_eq. intuition.
  - intuition congruence.
  - exact F.
Qed.

Definition WEb (k : kind) (c : cond) (tot e ds : Z) : bool :=
  match k with
  | CalcErrByEpochNum | CalcErrOnlyByEpochNum => (ds =? 0) && chb (c_epochs c) tot e
  | _ => false
  end.
Lemma WEb_iff k c tot e ds : WEb k c tot e ds = true <-> wanted_err k c tot e ds.
Proof.
  destruct k; cbn [WEb wanted_err]; try (intuition congruence); rewrite andb_true_iff, chb_iff, Z.eqb_eq; reflexivity.
Qed.

(** What epochs, batches and reports find *)
Lemma cond_epoch_spec k tot c cc e nb : condI k tot c cc -> 0 < c_stride c -> 0 <= e < tot ->
  exists b0 c2, cond_epoch k e nb cc = Some (b0, c2) /\ condI k tot c c2 /\
    forall b, 0 <= b -> cond_batch k b e c2 = Some (Wb k c tot e b nb).
Proof.
  intros (H1 & H2 & H3 & H4 & H5 & H6) Hs He.
  assert (L : forall c2 b, c_flags c2 = c_flags cc -> c_lastE c2 = c_lastE cc -> c_lastB c2 = nb - 1 -> k <> FirstBatches ->
     (k = EpochNumWLastBatch \/ k = EpochNumWFirstNLastBatch) -> last_batch b e c2 = Some (lastb (c_epochs c) tot e b nb)).
  { intros c2 b E1 E2 E3 E4 E5. unfold last_batch, lastb. rewrite E1, E2, E3, (H3 E4 e He), (H4 E5). reflexivity. }
  destruct k; cbn [cond_epoch cond_batch Wb].
  - rewrite (H3 ltac:(discriminate) e He). cbn [obind]. do 2 eexists. split; [reflexivity|]. split; [repeat split; auto|].
    intros b Hb. destruct (0 =? b); [rewrite (H3 ltac:(discriminate) e He), andb_true_r | rewrite andb_false_r]; reflexivity.
  - rewrite (H3 ltac:(discriminate) e He). cbn [obind]. do 2 eexists. split; [reflexivity|]. split; [repeat split; auto|].
    intros b Hb. apply L; auto; discriminate.
  - rewrite (H3 ltac:(discriminate) e He). cbn [obind]. do 2 eexists. split; [reflexivity|]. split; [repeat split; auto|].
    intros b Hb. cbn [c_n c_stride]. rewrite (Z.eqb_sym 0 e). destruct (e =? 0); [| apply L; auto; discriminate].
    rewrite H1, H2. unfold firstb. f_equal. f_equal. rewrite (Z.eqb_sym 0 (Z.rem b (c_stride c))).
    destruct (Z.eqb_spec 0 b) as [<-|_]; [rewrite Z.rem_0_l by lia; reflexivity|].
    destruct (Z.leb_spec (c_stride c) 1); [|reflexivity]. replace (c_stride c) with 1 by lia. rewrite Z.rem_1_r. reflexivity.
  - rewrite (H3 ltac:(discriminate) e He). cbn [obind]. do 2 eexists. split; [reflexivity|]. split; [repeat split; auto|].
    intros b Hb. destruct (0 =? b); [rewrite (H3 ltac:(discriminate) e He), andb_true_r | rewrite andb_false_r]; reflexivity.
  - do 2 eexists. split; [reflexivity|]. split; [repeat split; auto|]. reflexivity.
  - do 2 eexists. split; [reflexivity|]. split; [repeat split; auto|]. intros b Hb. rewrite H1, H2. reflexivity.
Qed.

Lemma cond_err_spec k tot c cc e ds : condI k tot c cc -> 0 < tot -> (k <> FirstBatches -> forall x, List.In x (c_epochs c) -> 0 <= x) ->
  -1 <= e < tot -> cond_err k e ds cc = Some (WEb k c tot e ds).
Proof.
  intros (H1 & H2 & H3 & H4 & H5 & H6) Ht Hn He.
  assert (X : k = CalcErrByEpochNum \/ k = CalcErrOnlyByEpochNum -> 
    (if ds =? train_set then (if e =? before_start then Some (c_init cc) else vc_ask (c_flags cc) e) else Some false)
     = Some ((ds =? 0) && chb (c_epochs c) tot e)).
  { intros Hk. unfold train_set, before_start. destruct (ds =? 0); [| reflexivity]. cbn [andb].
    assert (Hf : k <> FirstBatches) by (destruct Hk; subst; discriminate).
    destruct (Z.eqb_spec e (-1)) as [->|Hne].
    - rewrite (H5 Hk). f_equal. symmetry. apply not_true_is_false. rewrite chb_iff. intros [X | (X & _)]; [| lia].
      specialize (Hn Hf _ X). lia.
    - apply (H3 Hf). lia. }
  destruct k; cbn [cond_err WEb]; try reflexivity; apply X; auto.
Qed.
