(** Names of layers; writing weights and reading them back. *)
From Coq Require Import String Ascii List DecimalString DecimalNat DecimalFacts.
From Verif Require Import Base BaseLemmas Smx_Model Mf_Model Mf_Spec Mf_Proofs Mf_Proofs2 Mf_Proofs3 Ww_Model Ww_Spec.
Import ListNotations.

Scheme lay_mind := Induction for lay Sort Prop
  with lays_mind := Induction for lays Sort Prop.
Combined Scheme lay_lays_ind from lay_mind, lays_mind.

(** ** Names *)
Fixpoint has_us (s : string) : Prop := match s with EmptyString => False | String a r => a = "_"%char \/ has_us r end.
Lemma us_app c d : has_us (c ++ "_" ++ d)%string.
Proof. induction c as [|a c IH]; cbn; [left; reflexivity|right; exact IH]. Qed.
Lemma dec_no_us i : ~ has_us (dec i).
Proof.
  unfold dec. induction (Nat.to_uint i) as [|u IH|u IH|u IH|u IH|u IH|u IH|u IH|u IH|u IH|u IH]; cbn; intros H; try exact H;
    destruct H as [H|H]; try discriminate; exact (IH H).
Qed.
Lemma dec_inj i j : dec i = dec j -> i = j.
Proof.
  unfold dec. intros H. apply (f_equal NilEmpty.uint_of_string) in H. rewrite !NilEmpty.usu in H. injection H as H.
  exact (DecimalNat.Unsigned.to_uint_inj _ _ H).
Qed.
Lemma last_part c : forall c' d d', ~ has_us d -> ~ has_us d' -> (c ++ "_" ++ d = c' ++ "_" ++ d')%string -> d = d'.
Proof.
  induction c as [|a c IH]; intros [|a' c'] d d' Hd Hd' E; cbn in E.
  - injection E as E. exact E.
  - injection E as _ E. exfalso. apply Hd. rewrite E. apply us_app.
  - injection E as _ E. exfalso. apply Hd'. rewrite <- E. apply us_app.
  - injection E as _ E. eapply IH; [exact Hd|exact Hd'|exact E].
Qed.
Lemma name_is l : exists c, name l = lname c (idx l).
Proof. destruct l; eexists; reflexivity. Qed.
Lemma name_inj l m : name l = name m -> idx l = idx m.
Proof.
  destruct (name_is l) as [c ->], (name_is m) as [c' ->]. intros H. apply dec_inj. eapply last_part; [apply dec_no_us|apply dec_no_us|exact H].
Qed.
Lemma name_tiles l : name l <> "m_tiles_count"%string.
Proof.
  destruct (name_is l) as [c ->]. change "m_tiles_count"%string with ("m_tiles" ++ "_" ++ "count")%string. intros H.
  apply last_part in H; [|apply dec_no_us|cbn; intros E; repeat (destruct E as [E|E]; [discriminate|]); exact E].
  unfold dec in H. apply (f_equal NilEmpty.uint_of_string) in H. rewrite NilEmpty.usu in H. discriminate H.
Qed.

Section K.
Context (rk : cls) (fd fs fi : cls -> Z -> Z) (one : cls -> Z) (me : nat -> mem_env Z).

(** ** Writing *)
Lemma names_sers ls : NoDup (idxs ls) -> NoDup (names (sers rk ls)).
Proof.
  induction ls as [|l ls IH]; intros H; [constructor|]. cbn [idxs] in H. inversion H as [|x y H1 H2]; subst.
  change (names (sers rk (lcons l ls))) with (name l :: names (sers rk ls)). constructor; [|apply IH; exact H2].
  intros Hin. apply H1. clear -Hin. induction ls as [|m ls IH]; [destruct Hin|].
  change (names (sers rk (lcons m ls))) with (name m :: names (sers rk ls)) in Hin. cbn [idxs]. destruct Hin as [E|Hin]; [left; apply name_inj; exact E|right; apply IH; exact Hin].
Qed.
Lemma weights_readable nc inc w : (0 < nc)%nat -> weights_for nc inc w -> readable_val one "m_weights" (VMat rk w).
Proof.
  intros Hn (H1 & H2 & H3 & H4 & d & H5 & H6). cbn [readable_val]. exists d. rewrite H1, H2, H3, H4.
  split; [exact H5|]. split; [exact H6|]. split; [exact Hn|]. split; [reflexivity|]. split; [reflexivity|]. split; [cbn; lia|]. discriminate.
Qed.
Lemma ser_readable :
  (forall l, initialised l -> NoDup (names (ser rk l)) /\ readable_items one (ser rk l)) /\
  (forall ls, initialiseds ls -> readable_items one (sers rk ls)).
Proof.
  apply lay_lays_ind.
  - intros c i _. split; [constructor|exact I].
  - intros c i nc inc w ini [H1 H2]. split; [cbn; constructor; [intros []|constructor]|].
    split; [|exact I]. exact (weights_readable nc inc w H1 H2).
  - intros c i ls IH [H1 H2]. split; [apply names_sers; exact H1|]. apply IH. exact H2.
  - intros c i k l IH H. destruct (IH H) as [A B]. split.
    + cbn. constructor; [|constructor; [intros []|constructor]]. intros [E|[]]. exact (name_tiles l E).
    + split; [exact I|]. split; [|exact I]. split; [exact A|exact B].
  - intros _. exact I.
  - intros l IHl ls IHls [H1 H2]. destruct (IHl H1) as [A B]. split; [|apply IHls; exact H2]. split; [exact A|exact B].
Qed.

(** ** Reading what was written *)
Lemma load_lays_cons l ls s : load_lays rk fd fs fi one me (lcons l ls) s =
  (do (l', s) <- named (name l) (load_lay rk fd fs fi one me l) l s;
   do (ls'', s) <- load_lays rk fd fs fi one me ls s; Some (lcons l' ls'', s)).
Proof. reflexivity. Qed.
Lemma load_lay_pack c i ls s : load_lay rk fd fs fi one me (LPack c i ls) s =
  (do (ls', s) <- load_lays rk fd fs fi one me ls s; Some (LPack c i ls', s)).
Proof. reflexivity. Qed.

Lemma same_st_trans a b c : same_st a b -> same_st b c -> same_st a c.
Proof. intros (A1 & A2 & A3 & A4 & A5 & A6 & A7) (B1 & B2 & B3 & B4 & B5 & B6 & B7). unfold same_st. repeat split; congruence. Qed.
Lemma same_cont a b : same_st a b -> cont b = cont a.
Proof. intros (_ & _ & _ & S4 & _ & _ & S7). unfold cont. rewrite S4, S7. reflexivity. Qed.

Lemma named_ok {X} n (body : ar -> option (X * ar)) x s f (Q : X -> Prop) : ready s -> lookup n (cont s) = Some (Str f) ->
  (forall s1, ready s1 -> cont s1 = f -> exists x' s2, body s1 = Some (x', s2) /\ Q x' /\ same_st s1 s2) ->
  exists x' s', named n body x s = Some (x', s') /\ Q x' /\ same_st s s'.
Proof.
  intros (Ho & Hrd & Hn & He) Hlk HB. unfold named. rewrite He, Ho, Hn. cbn [is_ok negb]. unfold load_var.
  cbn [with_name a_open a_name a_stk a_rd a_file]. rewrite Ho. cbn [negb].
  assert (Hf : (match a_stk s with e :: _ => lookup n (e_fs e) | [] => if a_rd s then lookup n (a_file s) else None end) = Some (Str f)).
  { unfold cont in Hlk. destruct (a_stk s); [rewrite Hrd by reflexivity|]; exact Hlk. }
  rewrite Hf. cbn [andb orb is_struct dims Nat.eqb]. cbn [with_name a_stk].
  match goal with |- context [body ?st] => destruct (HB st) as (x' & s2 & E & HQ & SS) end.
  { unfold ready. cbn. rewrite Ho, He. split; [reflexivity|]. split; [discriminate|]. auto. }
  { reflexivity. }
  rewrite E. cbn [obind]. eexists _, _. split; [reflexivity|]. split; [exact HQ|].
  destruct SS as (S1 & S2 & S3 & S4 & S5 & S6 & S7). cbn in *. unfold same_st. cbn. rewrite S4. cbn. repeat split; congruence.
Qed.

Lemma load_written : (forall i, me i <> None) ->
  (forall l, initialised l -> forall d s, arch l d -> ready s -> holds (ser rk l) (cont s) ->
     exists d' s', load_lay rk fd fs fi one me d s = Some (d', s') /\ (arch l d' /\ same_weights l d') /\ same_st s s') /\
  (forall ls, initialiseds ls -> forall d s, archs ls d -> ready s -> holds (sers rk ls) (cont s) ->
     exists d' s', load_lays rk fd fs fi one me d s = Some (d', s') /\ (archs ls d' /\ same_weightss ls d') /\ same_st s s').
Proof.
  intros Hme. destruct (load_spec fd fs fi one me Hme) as [LI _].
  assert (NM : forall l m, arch l m -> name l = name m).
  { intros l m. destruct l, m; cbn; try tauto; intros (-> & -> & _) || intros (-> & ->); reflexivity. }
  apply lay_lays_ind.
  - intros c i _ d s A Hs _. destruct d; try contradiction. exists (LNone c0 i0), s. split; [reflexivity|]. split; [split; [exact A|exact I]|]. unfold same_st. auto 10.
  - intros c i nc inc w ini [Hn Hw] d s A Hs [Hh _]. destruct d as [|c0 i0 nc0 inc0 w0 ini0| |]; try contradiction. destruct A as (-> & -> & -> & ->).
    cbn [load_lay]. unfold load_fc.
    destruct (LI (INvp "m_weights"%string (VMat rk w)) (weights_readable _ _ _ Hn Hw) (INvp "m_weights"%string (VMat rk init)) s) as (it & s' & E & Q & SS);
      [split; reflexivity|exact Hs|exact Hh|].
    rewrite E. cbn [obind]. destruct it as [n' [k z|k M]|n' l']; cbn in Q; try (destruct Q; contradiction); try contradiction.
    destruct Q as (_ & <- & Q1 & Q2 & Q3 & Q4 & Q5). destruct (ready_same _ _ SS Hs) as (_ & _ & _ & He). rewrite He. cbn [is_ok].
    destruct Hw as (H1 & H2 & H3 & H4 & dd & H5 & H6).
    assert (S : suitable nc0 inc0 M = true).
    { unfold suitable, empty. rewrite Q5, Q4, Q3, Q2, Q1, H1, H2, H3, H4, H5, !Nat.eqb_refl. reflexivity. }
    rewrite S. eexists _, _. split; [reflexivity|]. split; [|exact SS]. split; [cbn; auto|]. cbn. split; [|split; [congruence|reflexivity]].
    unfold weights_for. rewrite Q1, Q2, Q3, Q4, Q5. split; [exact H1|]. split; [exact H2|]. split; [exact H3|]. split; [exact H4|]. exists dd. split; [exact H5|exact H6].
  - intros c i ls IH [_ H] d s A Hs Hh. destruct d as [| |c0 i0 ls0|]; try contradiction. destruct A as (-> & -> & A).
    destruct (IH H ls0 s A Hs Hh) as (d' & s' & E & (Q1 & Q2) & SS). rewrite load_lay_pack, E. cbn [obind].
    eexists _, _. split; [reflexivity|]. split; [|exact SS]. split; [exact (conj eq_refl (conj eq_refl Q1))|exact Q2].
  - intros c i k l IH H d s A Hs [Hk [Hh _]]. destruct d as [| | |c0 i0 k0 l0]; try contradiction. destruct A as (-> & -> & A). cbn [load_lay].
    destruct (LI (INvp "m_tiles_count"%string (VScal (Int true 32) k)) I (INvp "m_tiles_count"%string (VScal (Int true 32) k0)) s) as (it & s1 & E & Q & SS1);
      [split; reflexivity|exact Hs|exact Hk|].
    rewrite E. cbn [obind]. destruct it as [n' [k' z|k' M]|n' l']; cbn in Q; try (destruct Q; contradiction); try contradiction.
    destruct Q as (_ & <- & <-).
    destruct (named_ok (name l0) (load_lay rk fd fs fi one me l0) l0 s1 (put_all (ser rk l) []) (fun x => arch l x /\ same_weights l x)) as (x' & s2 & E2 & (Q1 & Q2) & SS2).
    { exact (ready_same _ _ SS1 Hs). }
    { rewrite (same_cont _ _ SS1), <- (NM _ _ A). exact Hh. }
    { intros s2 R2 C2. apply (IH H l0 s2 A R2). rewrite C2. apply holds_put. apply ser_readable. exact H. }
    rewrite E2. cbn [obind]. eexists _, _. split; [reflexivity|]. split; [|exact (same_st_trans _ _ _ SS1 SS2)].
    split; [exact (conj eq_refl (conj eq_refl Q1))|exact (conj eq_refl Q2)].
  - intros _ d s A Hs _. destruct d; [|contradiction]. exists lnil, s. split; [reflexivity|]. split; [split; exact I|]. unfold same_st. auto 10.
  - intros l IHl ls IHls [H1 H2] d s A Hs [Hh Hhs]. destruct d as [|d ds]; [contradiction|]. destruct A as [A As].
    destruct (named_ok (name d) (load_lay rk fd fs fi one me d) d s (put_all (ser rk l) []) (fun x => arch l x /\ same_weights l x)) as (x' & s2 & E2 & (Q1 & Q2) & SS2).
    { exact Hs. }
    { rewrite <- (NM _ _ A). exact Hh. }
    { intros s2 R2 C2. apply (IHl H1 d s2 A R2). rewrite C2. apply holds_put. apply ser_readable. exact H1. }
    destruct (IHls H2 ds s2 As (ready_same _ _ SS2 Hs)) as (ds' & s3 & E3 & (Q3 & Q4) & SS3); [rewrite (same_cont _ _ SS2); exact Hhs|].
    rewrite load_lays_cons, E2. cbn [obind]. rewrite E3. cbn [obind]. eexists _, _. split; [reflexivity|]. split; [|exact (same_st_trans _ _ _ SS2 SS3)].
    split; split; assumption.
Qed.

(** C138 *)
Theorem weights_round_trip (ok : nat -> bool) net dst :
  (forall i, me i <> None) -> NoDup (idxs net) -> initialiseds net -> archs net dst ->
  exists b s, write_weights rk ok true net = Some (b, Some s) /\ ((forall k, ok k = true) -> b = true /\ a_err s = Success) /\
  (b = true -> a_err s = Success ->
   exists dst', read_weights rk fd fs fi one me (Some (a_file s)) dst = Some (true, dst') /\ archs net dst' /\ same_weightss net dst').
Proof.
  intros Hme Hnd Hi Ha. unfold write_weights.
  destruct (save_complete ok false [] (sers rk net)) as (s & E & H1 & H2); [apply (readable_ok one), ser_readable; exact Hi|].
  rewrite E. cbn [obind]. eexists _, _. split; [reflexivity|].
  assert (SP : below (opened false []) s).
  { destruct (save_spec ok) as [_ SPX]. destruct (SPX (sers rk net)) with (s := opened false []) as (s' & E' & B & _).
    - apply (readable_ok one), ser_readable. exact Hi.
    - unfold okst. cbn. auto.
    - rewrite E in E'. injection E' as <-. exact B. }
  destruct SP as (SO & _ & SN & _). split.
  - intros Hok. destruct (H1 (H2 Hok)) as (F1 & F2 & F3). rewrite (H2 Hok). split; [reflexivity|].
    unfold close. rewrite F2, F3, SO, SN, Hok. reflexivity.
  - intros Hb _. apply is_ok_iff in Hb. destruct (H1 Hb) as (F1 & F2 & F3).
    assert (FC : a_file (snd (close ok s)) = a_file s).
    { pose proof (close_partial ok s) as C. destruct (close ok s) as [ec s']. apply C. }
    rewrite FC, F1. destruct (load_written Hme) as [_ H].
    destruct (H net Hi dst (opened true (put_all (sers rk net) [])) Ha) as (d' & s' & E' & Q & SS).
    { unfold ready. cbn. auto. }
    { apply holds_put, names_sers. exact Hnd. }
    exists d'. unfold read_weights. rewrite E'. cbn [obind]. destruct SS as (_ & _ & _ & _ & _ & -> & _). split; [reflexivity|exact Q].
Qed.
End K.
