From Coq Require Import Permutation.
From Verif Require Import Base BaseLemmas Workers_Model Workers_Spec Kern_Model Kern_Spec Kern_Proofs Priv_Model.

Section P.
Context {A : Type}.
Implicit Types (m d : list A) (w ws : list (wr A)).

Definition proj (a : nat) ws := filter (fun x => fst x =? a) ws.

(** last write to [a], else the old content *)
Definition final d ws a : option A :=
  match rev (proj a ws) with [] => bget d a | (_, v) :: _ => Some v end.

Lemma apply_final ws : forall d, Forall (fun x => fst x < length d) ws ->
  exists d', apply_writes d ws = Some d' /\ length d' = length d /\ forall a, bget d' a = final d ws a.
Proof.
  induction ws as [|[b v] ws IH]; intros d HF.
  - exists d. split; [reflexivity|]. split; [reflexivity|]. reflexivity.
  - inversion HF as [|? ? Hb HF']; subst. simpl in Hb.
    destruct (bset_lt d b v Hb) as [d1 Hd1]. pose proof (bset_length _ _ _ _ Hd1) as Hl.
    destruct (IH d1) as (d' & E & Hl' & Hf); [rewrite Hl; exact HF'|].
    exists d'. cbn [apply_writes]. rewrite Hd1. cbn [obind]. split; [exact E|]. split; [congruence|].
    intros a. rewrite Hf. unfold final, proj. cbn [filter fst].
    destruct (Nat.eqb_spec b a) as [->|Hn].
    + cbn [rev]. destruct (rev (filter (fun x => fst x =? a) ws)) as [|[c u] t]; cbn [app]; [|reflexivity].
      destruct (bset_some _ _ _ _ Hd1) as (_ & _ & Hs). rewrite Hs, Nat.eqb_refl. reflexivity.
    + destruct (rev (filter (fun x => fst x =? a) ws)) as [|[c u] t]; [|reflexivity].
      destruct (bset_some _ _ _ _ Hd1) as (_ & _ & Hs). rewrite Hs.
      destruct (Nat.eqb_spec a b); [congruence|reflexivity].
Qed.

(** Only thread [j] writes [a]. *)
Lemma interleaving_proj (ts : list (list (wr A))) ws : interleaving ts ws -> forall a j t,
  nth_error ts j = Some t ->
  (forall i ti, i <> j -> nth_error ts i = Some ti -> Forall (fun x => fst x <> a) ti) ->
  proj a ws = proj a t.
Proof.
  induction 1 as [ts HF|ts i x t ws Hi Hil IH]; intros a j tj Hj Ho.
  - rewrite Forall_forall in HF. rewrite (HF tj) by (eapply nth_error_In; eauto). reflexivity.
  - assert (Hlt : i < length ts) by (apply nth_error_Some; congruence).
    destruct (Nat.eq_dec i j) as [->|Hn].
    + assert (tj = x :: t) by congruence. subst tj. unfold proj in *. cbn [filter].
      rewrite (IH a j t).
      * reflexivity.
      * eapply upd_nth_same; eauto.
      * intros i' ti' Hi' Hti'. rewrite upd_nth_other in Hti' by congruence. eapply Ho; eauto.
    + assert (Hx : fst x <> a).
      { pose proof (Ho i _ Hn Hi) as Hf. inversion Hf; assumption. }
      unfold proj in *. cbn [filter]. destruct (Nat.eqb_spec (fst x) a) as [E|E]; [contradiction|].
      apply (IH a j tj).
      * rewrite upd_nth_other by congruence. exact Hj.
      * intros i' ti' Hi' Hti'. destruct (Nat.eq_dec i' i) as [->|Hn'].
        -- rewrite (upd_nth_same _ _ _ _ Hi) in Hti'. injection Hti' as <-.
           pose proof (Ho i _ Hn Hi) as Hf. inversion Hf; assumption.
        -- rewrite upd_nth_other in Hti' by congruence. eapply Ho; eauto.
Qed.

Lemma interleaving_none (ts : list (list (wr A))) ws : interleaving ts ws -> forall (P : wr A -> Prop),
  Forall (Forall P) ts -> Forall P ws.
Proof.
  intros H P HF. apply Forall_forall. intros x Hx.
  destruct (interleaving_in _ _ H x) as [H1 _]. specialize (H1 Hx). destruct H1 as (t & Ht & Hxt).
  rewrite Forall_forall in HF. specialize (HF t Ht). rewrite Forall_forall in HF. exact (HF x Hxt).
Qed.

(** ** Running one kernel *)
Definition runs (own : nat -> Prop) (k : list A -> option (list A * list (wr A))) m (post : list A -> Prop) : Prop :=
  exists m' w, k m = Some (m', w) /\ apply_writes m w = Some m' /\ length m' = length m /\
    Forall (fun x => own (fst x)) w /\ post m'.

Lemma apply_writes_app w1 w2 : forall m m1, apply_writes m w1 = Some m1 ->
  apply_writes m (w1 ++ w2) = apply_writes m1 w2.
Proof.
  induction w1 as [|[a v] w1 IH]; intros m m1 H; cbn [apply_writes app] in *; [congruence|].
  destruct (bset m a v) as [m'|]; cbn [obind] in *; [|discriminate]. apply IH. exact H.
Qed.

Lemma runs_mset (own : nat -> Prop) a v m (post : list A -> Prop) : a < length m -> own a ->
  (forall m', length m' = length m -> bget m' a = Some v -> (forall b, b <> a -> bget m' b = bget m b) -> post m') ->
  runs own (mset a v) m post.
Proof.
  intros Ha Ho Hp. destruct (bset_lt m a v Ha) as [m' Hm]. exists m', [(a, v)]. unfold mset. rewrite Hm. cbn [obind].
  pose proof (bset_length _ _ _ _ Hm) as Hl. destruct (bset_some _ _ _ _ Hm) as (_ & _ & Hs).
  split; [reflexivity|]. split; [cbn; rewrite Hm; reflexivity|]. split; [exact Hl|].
  split; [apply Forall_cons; [exact Ho|apply Forall_nil]|]. apply Hp; [exact Hl| |].
  - rewrite Hs, Nat.eqb_refl. reflexivity.
  - intros b Hb. rewrite Hs. destruct (Nat.eqb_spec b a); [contradiction|reflexivity].
Qed.

Lemma runs_skip own m (post : list A -> Prop) : post m -> runs own mskip m post.
Proof. intros H. exists m, []. repeat split; auto. Qed.

Lemma runs_seq own k1 k2 m (mid post : list A -> Prop) :
  runs own k1 m mid -> (forall m1, length m1 = length m -> mid m1 -> runs own k2 m1 post) -> runs own (mseq k1 k2) m post.
Proof.
  intros (m1 & w1 & E1 & A1 & L1 & O1 & P1) H. destruct (H m1 L1 P1) as (m2 & w2 & E2 & A2 & L2 & O2 & P2).
  exists m2, (w1 ++ w2). unfold mseq. rewrite E1. cbn [obind]. rewrite E2. cbn [obind].
  split; [reflexivity|]. split; [rewrite (apply_writes_app _ _ _ _ A1); exact A2|]. split; [congruence|].
  split; [apply Forall_app; split; assumption|exact P2].
Qed.

Lemma runs_conseq own k m (P Q : list A -> Prop) : runs own k m P -> (forall m', length m' = length m -> P m' -> Q m') ->
  runs own k m Q.
Proof. intros (m' & w & E & Aw & L & O & HP) H. exists m', w. auto 10. Qed.

Lemma runs_mfor (own : nat -> Prop) n : forall lo body m (I : nat -> list A -> Prop),
  I lo m ->
  (forall i m1, lo <= i < lo + n -> length m1 = length m -> I i m1 -> runs own (body i) m1 (I (S i))) ->
  runs own (mfor lo n body) m (I (lo + n)).
Proof.
  unfold mfor. induction n as [|n IH]; intros lo body m I HI Hb.
  - exists m, []. cbn [wfor]. rewrite Nat.add_0_r. repeat split; auto.
  - destruct (Hb lo m) as (m1 & w1 & E1 & A1 & L1 & O1 & P1); [lia|reflexivity|exact HI|].
    destruct (IH (S lo) body m1 I P1) as (m2 & w2 & E2 & A2 & L2 & O2 & P2).
    { intros i m' Hi Hl HI'. apply Hb; [lia|congruence|exact HI']. }
    exists m2, (w1 ++ w2). cbn [wfor]. rewrite E1. cbn [obind]. rewrite E2. cbn [obind].
    split; [reflexivity|]. split; [rewrite (apply_writes_app _ _ _ _ A1); exact A2|]. split; [congruence|].
    split; [apply Forall_app; split; assumption|]. replace (lo + S n) with (S lo + n) by lia. exact P2.
Qed.

(** ** Running kernels in parallel *)
Theorem computes_ppar (kern : prange -> list A -> option (list A * list (wr A))) parts d
  (own : prange -> nat -> Prop) (res : prange -> list A -> Prop) (post : list A -> Prop) :
  (forall p, In p parts -> runs (own p) (kern p) d (res p)) ->
  (forall i j pi pj a, i <> j -> nth_error parts i = Some pi -> nth_error parts j = Some pj -> own pi a -> own pj a -> False) ->
  (forall d', length d' = length d ->
    (forall p, In p parts -> exists mp, length mp = length d /\ res p mp /\ (forall a, own p a -> bget d' a = bget mp a)) ->
    (forall a, (forall p, In p parts -> ~ own p a) -> bget d' a = bget d a) -> post d') ->
  computes (ppar kern parts d) d post.
Proof.
  intros Hk Hdis Hpost.
  (* the traces *)
  assert (HT : forall ps, (forall p, In p ps -> In p parts) -> exists trs, ppar kern ps d = Some trs /\ length trs = length ps /\
    forall i p t, nth_error ps i = Some p -> nth_error trs i = Some t ->
      Forall (fun x => own p (fst x)) t /\ exists mp, apply_writes d t = Some mp /\ length mp = length d /\ res p mp).
  { induction ps as [|p ps IH]; intros Hin.
    - exists []. split; [reflexivity|]. split; [reflexivity|]. intros [|i] p t H; discriminate.
    - destruct (IH (fun q Hq => Hin q (or_intror Hq))) as (trs & E & L & H).
      destruct (Hk p (Hin p (or_introl eq_refl))) as (m' & w & Ek & Aw & Lm & Ow & Rm).
      exists (w :: trs). unfold ppar in *. cbn [par]. rewrite Ek. cbn [obind]. rewrite E. cbn [obind].
      split; [reflexivity|]. split; [simpl; congruence|].
      intros [|i] q t Hq Ht; cbn [nth_error] in *.
      + injection Hq as <-. injection Ht as <-. split; [exact Ow|]. exists m'. auto.
      + eapply H; eauto. }
  destruct (HT parts (fun p H => H)) as (trs & E & L & HTr). exists trs. split; [exact E|].
  assert (Hp : forall i t, nth_error trs i = Some t -> exists p, nth_error parts i = Some p).
  { intros i t Ht. destruct (nth_error parts i) as [p|] eqn:Ep; [eauto|].
    apply nth_error_None in Ep. assert (i < length trs) by (apply nth_error_Some; congruence). lia. }
  split.
  { intros i j ti tj a v v' Hij Hi Hj Hai Haj.
    destruct (Hp i ti Hi) as [pi Hpi]. destruct (Hp j tj Hj) as [pj Hpj].
    destruct (HTr i pi ti Hpi Hi) as [Oi _]. destruct (HTr j pj tj Hpj Hj) as [Oj _].
    rewrite Forall_forall in Oi, Oj. exact (Hdis i j pi pj a Hij Hpi Hpj (Oi _ Hai) (Oj _ Haj)). }
  intros ws Hws.
  assert (Hrange : Forall (fun x => fst x < length d) ws).
  { apply (interleaving_none _ _ Hws). apply Forall_forall. intros t Ht.
    apply In_nth_error in Ht. destruct Ht as [i Hi]. destruct (Hp i t Hi) as [p Hpi].
    destruct (HTr i p t Hpi Hi) as (_ & mp & Ap & _ & _). clear - Ap. revert d Ap.
    induction t as [|[a v] t IH]; intros d Ap; [apply Forall_nil|]. cbn [apply_writes] in Ap.
    destruct (bset d a v) as [d1|] eqn:Eb; cbn [obind] in Ap; [|discriminate].
    pose proof (bset_length _ _ _ _ Eb). destruct (bset_some _ _ _ _ Eb) as (Hlt & _).
    apply Forall_cons; [exact Hlt|]. rewrite <- H. apply IH. exact Ap. }
  destruct (apply_final ws d Hrange) as (d' & Ed & Ld & Hf). exists d'. split; [exact Ed|]. split; [exact Ld|].
  apply Hpost; [exact Ld| |].
  - intros p Hin. apply In_nth_error in Hin. destruct Hin as [j Hj].
    destruct (nth_error trs j) as [t|] eqn:Et.
    2:{ apply nth_error_None in Et. assert (j < length parts) by (apply nth_error_Some; congruence). lia. }
    destruct (HTr j p t Hj Et) as (Ot & mp & Ap & Lp & Rp). exists mp. split; [exact Lp|]. split; [exact Rp|].
    intros a Ha. rewrite Hf. unfold final. rewrite (interleaving_proj _ _ Hws a j t Et).
    + assert (Hr : Forall (fun x => fst x < length d) t).
      { clear - Ap. revert d Ap. induction t as [|[b v] t IH]; intros d Ap; [apply Forall_nil|]. cbn [apply_writes] in Ap.
        destruct (bset d b v) as [d1|] eqn:Eb; cbn [obind] in Ap; [|discriminate].
        pose proof (bset_length _ _ _ _ Eb). destruct (bset_some _ _ _ _ Eb) as (Hlt & _).
        apply Forall_cons; [exact Hlt|]. rewrite <- H. apply IH. exact Ap. }
      destruct (apply_final t d Hr) as (d2 & E2 & _ & Hf2). assert (d2 = mp) by congruence. subst d2.
      rewrite Hf2. reflexivity.
    + intros i ti Hi Hti. destruct (Hp i ti Hti) as [pi Hpi]. destruct (HTr i pi ti Hpi Hti) as [Oi _].
      eapply Forall_impl; [|exact Oi]. intros x Hx Hxa. cbv beta in Hx. rewrite Hxa in Hx. exact (Hdis i j pi p a Hi Hpi Hj Hx Ha).
  - intros a Ha. rewrite Hf. unfold final. replace (proj a ws) with (@nil (wr A)); [reflexivity|].
    assert (HN : Forall (fun x => fst x <> a) ws).
    { apply (interleaving_none _ _ Hws). apply Forall_forall. intros t Ht.
      apply In_nth_error in Ht. destruct Ht as [i Hi]. destruct (Hp i t Hi) as [p Hpi].
      destruct (HTr i p t Hpi Hi) as (Ot & _). eapply Forall_impl; [|exact Ot].
      intros x Hx E1. cbv beta in Hx. rewrite E1 in Hx. exact (Ha p (nth_error_In _ _ Hpi) Hx). }
    clear - HN. induction ws as [|x ws IH]; [reflexivity|]. inversion HN; subst. unfold proj in *. cbn [filter].
    destruct (Nat.eqb_spec (fst x) a); [contradiction|]. apply IH. assumption.
Qed.

(** a single thread *)
Lemma computes_one (k : list A -> option (list A * list (wr A))) d (post : list A -> Prop) :
  runs (fun _ => True) k d post -> computes (do (_, w) <- k d; Some [w]) d post.
Proof.
  intros (m' & w & E & Aw & L & _ & HP). rewrite E. cbn [obind]. exists [w]. split; [reflexivity|]. split.
  - intros [|[|i]] [|[|j]] ti tj a v v' Hij Hi Hj; try discriminate; congruence.
  - intros ws Hws. exists m'. split; [|auto]. 
    replace ws with w; [exact Aw|].
    remember [w] as ts eqn:Ets. clear - Hws Ets. revert w Ets. induction Hws as [ts HF|ts i x t ws Hi _ IH]; intros w ->.
    + inversion HF; subst. reflexivity.
    + destruct i as [|[|]]; try discriminate. cbn in Hi. injection Hi as ->. f_equal. apply IH. reflexivity.
Qed.
End P.
