(** Reading weights from any file. *)
From Coq Require Import String Ascii List.
From Verif Require Import Base BaseLemmas Smx_Model Mf_Model Mf_Spec Mf_Proofs Mf_Proofs2 Ww_Model Ww_Spec Ww_Proofs.
Import ListNotations.

Section K.
Context (rk : cls) (fd fs fi : cls -> Z -> Z) (one : cls -> Z) (me : nat -> mem_env Z).
Notation load_item := (load_item fd fs fi one me).
Notation load_lay := (load_lay rk fd fs fi one me).
Notation load_lays := (load_lays rk fd fs fi one me).

Definition inv (s : ar) : Prop :=
  a_open s = true /\ (a_stk s = [] -> a_rd s = true) /\ (a_err s = Success -> a_name s = None) /\ file_ok (cont s).
Definition frame (s s' : ar) : Prop :=
  a_open s' = a_open s /\ a_rd s' = a_rd s /\ a_stk s' = a_stk s /\ a_file s' = a_file s /\
  (a_err s' = Success -> a_err s = Success /\ a_name s' = None).
Lemma frame_refl s : inv s -> frame s s.
Proof. intros (_ & _ & H & _). unfold frame. auto 10. Qed.
Lemma frame_trans a b c : frame a b -> frame b c -> frame a c.
Proof.
  intros (A1 & A2 & A3 & A4 & A5) (B1 & B2 & B3 & B4 & B5). unfold frame.
  split; [congruence|]. split; [congruence|]. split; [congruence|]. split; [congruence|]. intros H. destruct (B5 H) as [H1 H2]. split; [apply A5; exact H1|exact H2].
Qed.
Lemma frame_cont a b : frame a b -> cont b = cont a.
Proof. intros (_ & _ & H1 & H2 & _). unfold cont. rewrite H1, H2. reflexivity. Qed.
Lemma frame_inv a b : frame a b -> inv a -> inv b.
Proof.
  intros F (H1 & H2 & H3 & H4). unfold inv. rewrite (frame_cont _ _ F). destruct F as (A1 & A2 & A3 & A4 & A5).
  rewrite A1, A2, A3. split; [exact H1|]. split; [exact H2|]. split; [|exact H4]. intros H. apply A5. exact H.
Qed.

(** what load_var finds *)
Definition found (n : string) (s : ar) : option mx :=
  match a_stk s with e :: _ => lookup n (e_fs e) | [] => if a_rd s then lookup n (a_file s) else None end.
Lemma found_cont n s : inv s -> found n s = lookup n (cont s).
Proof. intros (_ & H & _). unfold found, cont. destruct (a_stk s); [rewrite H by reflexivity|]; reflexivity. Qed.

Lemma fill_total k src d : forall n i l, (i + n <= length d)%nat -> (i + n <= length l)%nat ->
  exists r, fill_from fd fs fi k src d n i l = Some r /\ forall l', r = Some l' -> length l' = length l.
Proof.
  induction n as [|n IH]; intros i l Hd Hl; cbn [fill_from].
  - eexists. split; [reflexivity|]. intros l' E. injection E as <-. reflexivity.
  - destruct (nth_error d i) as [z|] eqn:E; [|apply nth_error_None in E; lia]. cbn [obind].
    destruct (conv fd fs fi k src z) as [z'|]; [|eexists; split; [reflexivity|discriminate]].
    destruct (bset_lt l i z') as [l1 E1]; [lia|]. rewrite E1. cbn [obind]. pose proof (bset_length _ _ _ _ E1) as L1.
    destruct (IH (S i) l1) as (r & E2 & H2); [lia|lia|]. exists r. split; [exact E2|]. intros l' E'. rewrite (H2 l' E'). exact L1.
Qed.

Lemma load_weights_any s : inv s ->
  exists M s', load_item (INvp "m_weights"%string (VMat rk init)) s = Some (INvp "m_weights"%string (VMat rk M), s') /\ frame s s' /\
  (a_err s' = Success -> exists k d, lookup "m_weights" (cont s) = Some (Num k (s_rows M) (s_cols M) d) /\
     s_bias M = false /\ s_bir M = false /\ exists l, s_data M = Some l /\ length l = (s_rows M * s_cols M)%nat /\ (k = rk -> l = d)).
Proof.
  intros HI. pose proof HI as (Ho & Hrd & Hn & Hf). cbn [Mf_Model.load_item].
  destruct (is_ok (a_err s)) eqn:Ee; cbn [negb].
  2:{ eexists _, _. split; [reflexivity|]. split; [apply frame_refl; exact HI|]. intros H. rewrite H in Ee. discriminate. }
  apply is_ok_iff in Ee. rewrite Ho, (Hn Ee). cbn [load_value]. unfold load_mat, load_var.
  cbn [with_name a_open a_name a_stk a_rd a_file]. rewrite Ho. cbn [negb]. fold (found "m_weights" s). rewrite (found_cont _ _ HI).
  assert (FE : forall e s1, a_open s1 = a_open s -> a_rd s1 = a_rd s -> a_stk s1 = a_stk s -> a_file s1 = a_file s -> e <> Success -> frame s (with_err s1 e)).
  { intros e s1 E1 E2 E3 E4 E5. unfold frame. cbn. split; [exact E1|]. split; [exact E2|]. split; [exact E3|]. split; [exact E4|]. intros H. congruence. }
  assert (BAD : forall e s1 M, a_open s1 = a_open s -> a_rd s1 = a_rd s -> a_stk s1 = a_stk s -> a_file s1 = a_file s -> e <> Success ->
    exists M' s', Some (INvp "m_weights"%string (VMat rk M), with_err s1 e) = Some (INvp "m_weights"%string (VMat rk M'), s') /\ frame s s' /\
  (a_err s' = Success -> exists k d, lookup "m_weights" (cont s) = Some (Num k (s_rows M') (s_cols M') d) /\
     s_bias M' = false /\ s_bir M' = false /\ exists l, s_data M' = Some l /\ length l = (s_rows M' * s_cols M')%nat /\ (k = rk -> l = d))).
  { intros e s1 M E1 E2 E3 E4 E5. eexists _, _. split; [reflexivity|]. split; [apply FE; assumption|]. cbn. intros H. congruence. }
  destruct (lookup "m_weights" (cont s)) as [v|] eqn:EL; [|cbn [obind]; apply BAD; try reflexivity; discriminate].
  pose proof (Hf _ _ EL) as Hv. destruct v as [k r c d|g|r c|]; cbn [is_struct is_num andb orb negb]; try (cbn [obind]; apply BAD; try reflexivity; discriminate).
  cbn [dims]. set (s2 := if (r =? 0) || (c =? 0) then with_err (with_name s (Some "m_weights"%string)) EmptyVariableHasBeenRead else with_name s (Some "m_weights"%string)).
  assert (G2 : a_open s2 = a_open s /\ a_rd s2 = a_rd s /\ a_stk s2 = a_stk s /\ a_file s2 = a_file s /\ a_name s2 = Some "m_weights"%string).
  { unfold s2. destruct ((r =? 0) || (c =? 0)); cbn; auto 10. }
  assert (EE : a_err s2 = if (r =? 0) || (c =? 0) then EmptyVariableHasBeenRead else Success).
  { unfold s2. destruct ((r =? 0) || (c =? 0)); cbn; auto. }
  clearbody s2. destruct G2 as (G1 & G2 & G3 & G4 & G5). rewrite G5. cbn [obind].
  change (is_x "m_weights"%string) with false. cbn iota.
  inversion Hv as [k0 r0 c0 d0 Hd| | |]; subst k0 r0 c0 d0.
  destruct ((r =? 0) || (c =? 0)) eqn:Z.
  - unfold resize. rewrite Z. cbn [obind]. apply BAD; cbn; try assumption. discriminate.
  - apply orb_false_iff in Z. destruct Z as [Z1 Z2]. apply Nat.eqb_neq in Z1, Z2.
    destruct (me (a_calls (tick s2))) as [g|] eqn:EM.
    + destruct (resize_cleared (one rk) g init false r c) as (t1 & l1 & E1 & R1 & C1 & B1 & I1 & D1 & L1 & _); [lia|lia|].
      rewrite E1. cbn [obind]. rewrite D1. cbn [obind].
      assert (NB : s_numel_nb t1 = (r * c)%nat).
      { unfold s_numel_nb, s_rows_nb, s_cols_nb, s_bias_row, s_bias_col. rewrite R1, C1, B1. cbn [Nat.b2n andb]. nia. }
      rewrite NB. cbn [Nat.b2n] in *. rewrite Nat.add_0_r in *.
      destruct (fill_total rk k d (r * c) 0 l1) as (res & E2 & H2); [lia|lia|]. rewrite E2. cbn [obind].
      destruct res as [l2|].
      2:{ cbn [obind]. apply BAD; cbn; try assumption. discriminate. }
      cbn [obind]. eexists _, _. split; [reflexivity|]. split.
      * unfold frame. cbn. split; [exact G1|]. split; [exact G2|]. split; [exact G3|]. split; [exact G4|]. auto.
      * intros _. cbn [with_mem s_rows s_cols s_bias s_bir s_data]. rewrite R1, C1, B1, I1. exists k, d. split; [reflexivity|]. split; [reflexivity|]. split; [reflexivity|].
        exists l2. split; [reflexivity|]. split; [rewrite (H2 l2 eq_refl); lia|]. intros ->.
        destruct (fill_from_spec fd fs fi one me rk d (r * c) 0 l1) as (l3 & E3 & L3 & V3); [lia|lia|]. rewrite E3 in E2. injection E2 as <-.
        apply list_eq_bget. intros a. rewrite V3. cbn [Nat.leb andb]. destruct (Nat.ltb_spec a (0 + r * c)) as [_|Hge]; [reflexivity|].
        unfold bget. rewrite (proj2 (nth_error_None d a)), (proj2 (nth_error_None l1 a)) by lia. reflexivity.
    + assert (ER : exists t1, resize (one rk) None (with_flag (clear (A := Z) init) false) r c = Some (false, t1)).
      { unfold resize. rewrite (proj2 (Nat.eqb_neq r 0)), (proj2 (Nat.eqb_neq c 0)) by assumption. cbn [orb].
        unfold impl_resize, realloc. cbn. destruct r as [|r]; [contradiction|]. destruct c as [|c]; [contradiction|]. cbn. eexists. reflexivity. }
      destruct ER as (t1 & ->). cbn [obind]. apply BAD; cbn; try assumption. discriminate.
Qed.

Lemma load_tiles_any k s : inv s ->
  exists k' s', load_item (INvp "m_tiles_count"%string (VScal (Int true 32) k)) s = Some (INvp "m_tiles_count"%string (VScal (Int true 32) k'), s') /\ frame s s' /\
  (a_err s' = Success -> lookup "m_tiles_count" (cont s) = Some (Num (Int true 32) 1 1 [k'])).
Proof.
  intros HI. pose proof HI as (Ho & Hrd & Hn & Hf). cbn [Mf_Model.load_item].
  destruct (is_ok (a_err s)) eqn:Ee; cbn [negb].
  2:{ eexists _, _. split; [reflexivity|]. split; [apply frame_refl; exact HI|]. intros H. rewrite H in Ee. discriminate. }
  apply is_ok_iff in Ee. rewrite Ho, (Hn Ee). cbn [load_value]. unfold load_scal, load_var.
  cbn [with_name a_open a_name a_stk a_rd a_file]. rewrite Ho. cbn [negb]. fold (found "m_tiles_count" s). rewrite (found_cont _ _ HI).
  assert (BAD : forall e s1 z, a_open s1 = a_open s -> a_rd s1 = a_rd s -> a_stk s1 = a_stk s -> a_file s1 = a_file s -> e <> Success ->
    exists k' s', Some (INvp "m_tiles_count"%string (VScal (Int true 32) z), with_err s1 e) = Some (INvp "m_tiles_count"%string (VScal (Int true 32) k'), s') /\ frame s s' /\
  (a_err s' = Success -> lookup "m_tiles_count" (cont s) = Some (Num (Int true 32) 1 1 [k']))).
  { intros e s1 z E1 E2 E3 E4 E5. eexists _, _. split; [reflexivity|]. split; [|cbn; intros H; congruence]. unfold frame. cbn. rewrite E1, E2, E3, E4. intuition congruence. }
  destruct (lookup "m_tiles_count" (cont s)) as [v|] eqn:EL; [|cbn [obind]; apply BAD; try reflexivity; discriminate].
  pose proof (Hf _ _ EL) as Hv. destruct v as [k1 r c d|g|r c|]; cbn [is_struct is_num andb orb negb]; try (cbn [obind]; apply BAD; try reflexivity; discriminate).
  cbn [dims]. inversion Hv as [k0 r0 c0 d0 Hd| | |]; subst k0 r0 c0 d0.
  destruct (Nat.eqb_spec r 1) as [->|Nr].
  2:{ cbn [andb obind]. apply BAD; try (destruct ((r =? 0) || (c =? 0)); reflexivity). discriminate. }
  destruct (Nat.eqb_spec c 1) as [->|Nc].
  2:{ cbn [andb obind]. apply BAD; try (destruct ((1 =? 0) || (c =? 0)); reflexivity). discriminate. }
  destruct d as [|z [|? ?]]; cbn in Hd; try lia. cbn [Nat.eqb orb andb].
  destruct (cls_eqb (Int true 32) k1) eqn:K.
  2:{ cbn [obind]. apply BAD; try reflexivity. discriminate. }
  assert (k1 = Int true 32).
  { destruct k1 as [|sg w| |]; try discriminate K. unfold cls_eqb in K. apply andb_true_iff in K. destruct K as [K1 K2]. destruct sg; [|discriminate]. apply Z.eqb_eq in K2. rewrite <- K2. reflexivity. }
  subst k1. cbn [nth_error obind]. eexists _, _. split; [reflexivity|]. split; [unfold frame; cbn; auto 10|]. reflexivity.
Qed.

Lemma named_any {X} n (body : ar -> option (X * ar)) x s (Q0 : X -> Prop) (Q : X -> fields -> Prop) : inv s -> Q0 x ->
  (forall s1, inv s1 -> exists x' s2, body s1 = Some (x', s2) /\ frame s1 s2 /\ Q0 x' /\ (a_err s2 = Success -> Q x' (cont s1))) ->
  exists x' s', named n body x s = Some (x', s') /\ frame s s' /\ Q0 x' /\
    (a_err s' = Success -> exists g, lookup n (cont s) = Some (Str g) /\ Q x' g).
Proof.
  intros HI H0 HB. pose proof HI as (Ho & Hrd & Hn & Hf). unfold named.
  destruct (is_ok (a_err s)) eqn:Ee; cbn [negb].
  2:{ eexists _, _. split; [reflexivity|]. split; [apply frame_refl; exact HI|]. split; [exact H0|]. intros H. rewrite H in Ee. discriminate. }
  apply is_ok_iff in Ee. rewrite Ho, (Hn Ee). unfold load_var.
  cbn [with_name a_open a_name a_stk a_rd a_file]. rewrite Ho. cbn [negb]. fold (found n s). rewrite (found_cont _ _ HI).
  assert (BAD : forall e s1, a_open s1 = a_open s -> a_rd s1 = a_rd s -> a_stk s1 = a_stk s -> a_file s1 = a_file s -> e <> Success -> a_err s1 = e ->
    exists x' s', Some (x, s1) = Some (x', s') /\ frame s s' /\ Q0 x' /\ (a_err s' = Success -> exists g, lookup n (cont s) = Some (Str g) /\ Q x' g)).
  { intros e s1 E1 E2 E3 E4 E5 E6. eexists _, _. split; [reflexivity|]. split; [|split; [exact H0|intros H; congruence]]. unfold frame. rewrite E1, E2, E3, E4. intuition congruence. }
  destruct (lookup n (cont s)) as [v|] eqn:EL; [|eapply BAD; try reflexivity; discriminate].
  pose proof (Hf _ _ EL) as Hv. destruct v as [k1 r c d|g|r c|]; cbn [is_struct is_num andb orb negb]; try (eapply BAD; try reflexivity; discriminate).
  - cbn [dims Nat.eqb orb with_name a_stk].
    match goal with |- context [body ?st] => destruct (HB st) as (x' & s2 & E & F & Hx & Hs) end.
    { unfold inv. cbn. rewrite Ho. split; [reflexivity|]. split; [discriminate|]. split; [reflexivity|]. inversion Hv; subst. assumption. }
    rewrite E. cbn [obind]. eexists _, _. split; [reflexivity|].
    destruct F as (F1 & F2 & F3 & F4 & F5). cbn in F1, F2, F3, F4, F5, Hs. split; [|split; [exact Hx|]].
    + unfold frame. cbn. rewrite F3. cbn. split; [congruence|]. split; [exact F2|]. split; [reflexivity|]. split; [exact F4|]. exact F5.
    + cbn. intros H. exists g. split; [reflexivity|]. apply Hs. exact H.
  - cbn [dims]. eapply BAD; try (destruct ((r =? 0) || (c =? 0)); reflexivity). discriminate.
Qed.

Lemma arch_refl : (forall l, arch l l /\ kept l l) /\ (forall ls, archs ls ls /\ kepts ls ls).
Proof. apply lay_lays_ind; cbn; intros; intuition. Qed.

Lemma load_any :
  (forall l s, inv s -> exists l' s', load_lay l s = Some (l', s') /\ frame s s' /\ (arch l l' /\ kept l l') /\ (a_err s' = Success -> from_file rk l' (cont s))) /\
  (forall ls s, inv s -> exists ls' s', load_lays ls s = Some (ls', s') /\ frame s s' /\ (archs ls ls' /\ kepts ls ls') /\ (a_err s' = Success -> from_files rk ls' (cont s))).
Proof.
  assert (NM : forall l m, arch l m -> name m = name l).
  { intros l m. destruct l, m; cbn; try tauto; intros (-> & -> & _) || intros (-> & ->); reflexivity. }
  apply lay_lays_ind.
  - intros c i s HI. exists (LNone c i), s. split; [reflexivity|]. split; [apply frame_refl; exact HI|]. split; [apply arch_refl|]. intros _. exact I.
  - intros c i nc inc w ini s HI. cbn [Ww_Model.load_lay]. unfold load_fc.
    destruct (load_weights_any s HI) as (M & s' & E & F & H). rewrite E. cbn [obind].
    destruct (is_ok (a_err s')) eqn:Ee.
    2:{ eexists _, _. split; [reflexivity|]. split; [exact F|]. split; [apply arch_refl|]. intros H'. rewrite H' in Ee. discriminate. }
    apply is_ok_iff in Ee. destruct (H Ee) as (k & d & H1 & H2 & H3 & l & H4 & H5 & H6).
    destruct (suitable nc inc M) eqn:ES.
    + unfold suitable in ES. rewrite H2, H3 in ES. rewrite negb_true_iff, !orb_false_iff, !negb_false_iff in ES. destruct ES as [[_ ES1] ES2].
      apply Nat.eqb_eq in ES1, ES2.
      assert (WF : weights_for nc inc M).
      { unfold weights_for. split; [exact ES2|]. split; [exact ES1|]. split; [exact H2|]. split; [exact H3|]. exists l. split; [exact H4|]. rewrite H5. congruence. }
      eexists _, _. split; [reflexivity|]. split; [exact F|]. split; [split; [cbn; auto|right; split; [exact WF|reflexivity]]|].
      intros _. cbn. split; [reflexivity|]. split; [exact WF|]. exists k, d. rewrite H1. split; [congruence|]. intros Hk. rewrite H4. f_equal. apply H6. exact Hk.
    + eexists _, _. split; [reflexivity|]. split; [|split; [apply arch_refl|cbn; discriminate]].
      destruct F as (F1 & F2 & F3 & F4 & _). unfold frame. cbn. rewrite F1, F2, F3, F4. intuition discriminate.
  - intros c i ls IH s HI. destruct (IH s HI) as (ls' & s' & E & F & (A & K) & H). rewrite load_lay_pack, E. cbn [obind].
    eexists _, _. split; [reflexivity|]. split; [exact F|]. split; [split; [exact (conj eq_refl (conj eq_refl A))|exact K]|]. exact H.
  - intros c i k l IH s HI. cbn [Ww_Model.load_lay].
    destruct (load_tiles_any k s HI) as (k' & s1 & E & F & H). rewrite E. cbn [obind].
    destruct (named_any (name l) (load_lay l) l s1 (fun x => arch l x /\ kept l x) (from_file rk)) as (l' & s2 & E2 & F2 & (A & K) & H2).
    { exact (frame_inv _ _ F HI). }
    { apply arch_refl. }
    { intros s3 H3. destruct (IH s3 H3) as (x & s4 & E4 & F4 & AK & H4). exists x, s4. auto. }
    rewrite E2. cbn [obind]. eexists _, _. split; [reflexivity|]. split; [exact (frame_trans _ _ _ F F2)|].
    split; [split; [exact (conj eq_refl (conj eq_refl A))|exact K]|]. intros Hs. destruct (H2 Hs) as (g & G1 & G2).
    split; [apply H; apply F2; exact Hs|]. exists g. split; [|exact G2]. rewrite (NM _ _ A), <- (frame_cont _ _ F). exact G1.
  - intros s HI. exists lnil, s. split; [reflexivity|]. split; [apply frame_refl; exact HI|]. split; [split; exact I|]. intros _. exact I.
  - intros l IHl ls IHls s HI. rewrite load_lays_cons.
    destruct (named_any (name l) (load_lay l) l s (fun x => arch l x /\ kept l x) (from_file rk)) as (l' & s2 & E2 & F2 & (A & K) & H2).
    { exact HI. }
    { apply arch_refl. }
    { intros s3 H3. destruct (IHl s3 H3) as (x & s4 & E4 & F4 & AK & H4). exists x, s4. auto. }
    rewrite E2. cbn [obind]. destruct (IHls s2 (frame_inv _ _ F2 HI)) as (ls' & s3 & E3 & F3 & (A3 & K3) & H3). rewrite E3. cbn [obind].
    eexists _, _. split; [reflexivity|]. split; [exact (frame_trans _ _ _ F2 F3)|]. split; [split; [exact (conj A A3)|exact (conj K K3)]|].
    intros Hs. destruct F3 as (F3 & F3' & F3'' & F3''' & F35). destruct (H2 (proj1 (F35 Hs))) as (g & G1 & G2). split.
    + exists g. split; [|exact G2]. rewrite (NM _ _ A). exact G1.
    + rewrite <- (frame_cont _ _ F2). apply H3. exact Hs.
Qed.

(** C139 *)
Theorem read_any f net : file_ok f ->
  exists b net', read_weights rk fd fs fi one me (Some f) net = Some (b, net') /\ archs net net' /\ kepts net net' /\ (b = true -> from_files rk net' f).
Proof.
  intros Hf. destruct load_any as [_ H]. destruct (H net (opened true f)) as (net' & s & E & F & (A & K) & HS).
  { unfold inv. cbn. auto. }
  exists (is_ok (a_err s)), net'. unfold read_weights. rewrite E. cbn [obind]. split; [reflexivity|]. split; [exact A|]. split; [exact K|].
  intros Hb. apply HS. apply is_ok_iff. exact Hb.
Qed.
End K.
