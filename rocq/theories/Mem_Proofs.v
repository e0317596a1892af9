From Verif Require Import Base Mem_Model Mem_Spec.
Local Open Scope nat_scope.

Scheme mlayer_mind := Induction for mlayer Sort Prop with mlist_mind := Induction for mlist Sort Prop.
Combined Scheme mlayer_mutind from mlayer_mind, mlist_mind.

Lemma q_ft : (forall l B T, 0 < T \/ B = 0 -> q_f (linit B T l) <= q_t (linit B T l)) /\
  (forall ls B T, 0 < T \/ B = 0 -> q_f (linits B T ls) <= q_t (linits B T ls)).
Proof.
  apply mlayer_mutind; intros; cbn [linit linits agg q_f q_t q_d no_lid]; try lia.
  - auto.
  - specialize (H B T H0). destruct (Nat.ltb_spec 0 T); cbn [q_f q_t]; lia.
  - assert (X : 0 < T * k \/ B * k = 0) by (destruct k; [right; lia|destruct H0; [left; nia|right; subst; lia]]).
    specialize (H _ _ X). lia.
  - specialize (H B T H1). specialize (H0 B T H1). lia.
Qed.

(** ** initMem succeeds within what was announced *)
Definition ok_req (B T cnt : nat) (q : lid) : Prop := q_f q <= cnt /\ q_t q <= cnt.
Lemma initMem_some : (forall l B T who ptr cnt, ok_req B T cnt (linit B T l) -> exists ps, initMem B T who ptr cnt l = Some ps) /\
  (forall ls B T who i ptr cnt, ok_req B T cnt (linits B T ls) -> exists ps, initMems B T who i ptr cnt ls = Some ps).
Proof.
  apply mlayer_mutind; intros; cbn [initMem initMems].
  - eexists; reflexivity.
  - eexists; reflexivity.
  - apply H. exact H0.
  - destruct H0 as [F G]. cbn [linit] in F, G. destruct (Nat.ltb_spec 0 T) as [HT|HT]; cbn [q_f q_t] in F, G.
    + pose proof (proj2 q_ft ls B T (or_introl HT)) as X.
      change (Nat.max (q_d (linits B T ls)) (T * max_inc ls)) with (icap B T ls) in *.
      rewrite (proj2 (Nat.leb_le B cnt)) by lia. cbn [guard obind].
      rewrite (proj2 (Nat.leb_le (2 * icap B T ls) (cnt - B))) by lia. cbn [guard obind].
      edestruct (H B T who 0 (ptr + B + icap B T ls + icap B T ls) (cnt - B - 2 * icap B T ls)) as [ps ->]; [split; lia|].
      eexists; reflexivity.
    + rewrite (proj2 (Nat.leb_le B cnt)) by lia. cbn [guard obind].
      edestruct (H B T who 0 (ptr + B) (cnt - B)) as [ps ->]; [|eexists; reflexivity].
      assert (T = 0) by lia. subst T. split; [lia|].
      assert (Z : (forall l, q_t (linit B 0 l) = 0) /\ (forall ls, q_t (linits B 0 ls) = 0)).
      { clear. revert B.
        assert (Z : (forall l B, q_t (linit B 0 l) = 0) /\ (forall ls B, q_t (linits B 0 ls) = 0)).
        { apply mlayer_mutind; intros; cbn; try reflexivity; auto.
          - rewrite H, H0. reflexivity. }
        intros B. split; intros; apply Z. }
      rewrite (proj2 Z). lia.
  - apply H. destruct H0 as [F G]. cbn [linit agg q_f q_t] in F, G. split; lia.
  - eexists; reflexivity.
  - destruct H1 as [F G]. cbn [linits agg q_f q_t] in F, G.
    edestruct (H B T (who ++ [i]) ptr cnt) as [p ->]; [split; lia|]. cbn [obind].
    edestruct (H0 B T who (i + 1) ptr cnt) as [ps ->]; [split; lia|]. eexists; reflexivity.
Qed.

(** ** Where the pieces are *)
Definition below (who : list nat) (lo hi : nat) (p : piece) : Prop :=
  (exists c, p_who p = who ++ c) /\ lo <= p_ofs p /\ p_ofs p + p_len p <= hi.
Definition sep (ps : list piece) : Prop := ForallOrdPairs (fun p q => nested (p_who p) (p_who q) -> apart p q) ps.

Lemma app_cons_ne (who a b : list nat) i j : i <> j -> ~ nested (who ++ [i] ++ a) (who ++ [j] ++ b).
Proof.
  intros Hij (c & [E|E]); rewrite <- !app_assoc in E; apply app_inv_head in E; injection E; congruence.
Qed.
Lemma sep_app ps qs : sep ps -> sep qs -> (forall p q, In p ps -> In q qs -> nested (p_who p) (p_who q) -> apart p q) -> sep (ps ++ qs).
Proof.
  unfold sep. induction ps as [|p ps IH]; intros Hp Hq H; [exact Hq|]. cbn. inversion Hp; subst. constructor.
  - apply Forall_app. split; [assumption|]. apply Forall_forall. intros q Hin. apply H; [now left|exact Hin].
  - apply IH; [assumption|exact Hq|]. intros a b Ha Hb. apply H; [now right|exact Hb].
Qed.

Lemma initMem_place : (forall l B T who ptr cnt ps, initMem B T who ptr cnt l = Some ps ->
    Forall (below who ptr (ptr + cnt)) ps /\ sep ps) /\
  (forall ls B T who i ptr cnt ps, initMems B T who i ptr cnt ls = Some ps ->
    Forall (fun p => exists j, i <= j /\ below (who ++ [j]) ptr (ptr + cnt) p) ps /\ sep ps).
Proof.
  apply mlayer_mutind; intros.
  - cbn in H. injection H as <-. split; constructor.
  - cbn in H. injection H as <-. split; constructor.
  - cbn [initMem] in H0. apply H in H0. destruct H0 as [F G]. split; [|exact G]. revert F. apply Forall_impl.
    intros p (j & _ & (c & E) & R). split; [|exact R]. exists ([j] ++ c). rewrite E, <- app_assoc. reflexivity.
  - cbn [initMem] in H0. destruct (Nat.leb_spec B cnt) as [HB|]; [|discriminate]. cbn [guard obind] in H0.
    assert (In_ : forall lo hi p, (exists j, 0 <= j /\ below (who ++ [j]) lo hi p) -> below who lo hi p).
    { intros lo hi p (j & _ & (c & E) & R). split; [|exact R]. exists ([j] ++ c). rewrite E, <- app_assoc. reflexivity. }
    destruct (0 <? T).
    + destruct (Nat.leb_spec (2 * icap B T ls) (cnt - B)) as [HC|]; [|discriminate]. cbn [guard obind] in H0.
      destruct (initMems B T who 0 _ _ ls) as [qs|] eqn:Q; [|discriminate]. injection H0 as <-.
      apply H in Q. destruct Q as [F G].
      assert (F' : Forall (below who (ptr + B + icap B T ls + icap B T ls) (ptr + cnt)) qs).
      { revert F. apply Forall_impl. intros p X. apply In_ in X. destruct X as [X1 X2]. split; [exact X1|]. lia. }
      clear F. split.
      * repeat constructor; cbn [p_ofs p_len p_who]; try (exists []; rewrite app_nil_r; reflexivity); try lia.
        revert F'. apply Forall_impl. intros p [X1 X2]. split; [exact X1|]. lia.
      * rewrite Forall_forall in F'.
        constructor; [constructor; [|constructor; [|apply Forall_forall]]|constructor; [constructor; [|apply Forall_forall]|constructor; [apply Forall_forall|exact G]]];
          unfold apart; cbn [p_ofs p_len p_who]; intros; try (match goal with X : In _ qs |- _ => apply F' in X; destruct X as [_ X] end); left; lia.
    + destruct (initMems B T who 0 _ _ ls) as [qs|] eqn:Q; [|discriminate]. cbn [obind] in H0. injection H0 as <-.
      apply H in Q. destruct Q as [F G].
      assert (F' : Forall (below who (ptr + B) (ptr + cnt)) qs).
      { revert F. apply Forall_impl. intros p X. apply In_ in X. destruct X as [X1 X2]. split; [exact X1|]. lia. }
      clear F. split.
      * constructor; [split; cbn [p_ofs p_len p_who]; [exists []; rewrite app_nil_r; reflexivity|lia]|].
        revert F'. apply Forall_impl. intros p [X1 X2]. split; [exact X1|]. lia.
      * constructor; [|exact G]. rewrite Forall_forall in *. intros q Hq _. apply F' in Hq. destruct Hq as [_ X].
        left; cbn [p_ofs p_len]; lia.
  - cbn [initMem] in H0. apply H in H0. destruct H0 as [F G]. split; [|exact G]. revert F. apply Forall_impl.
    intros p ((c & E) & R). split; [|exact R]. exists ([0] ++ c). rewrite E, <- app_assoc. reflexivity.
  - cbn in H. injection H as <-. split; constructor.
  - cbn [initMems] in H1. destruct (initMem B T (who ++ [i]) ptr cnt l) as [p|] eqn:Q1; [|discriminate]. cbn [obind] in H1.
    destruct (initMems B T who (i + 1) ptr cnt ls) as [qs|] eqn:Q2; [|discriminate]. injection H1 as <-.
    apply H in Q1. apply H0 in Q2. destruct Q1 as [F1 G1], Q2 as [F2 G2]. rewrite Forall_forall in F1, F2. split.
    + apply Forall_app. split; apply Forall_forall; intros q Hq.
      * exists i. split; [lia|auto].
      * destruct (F2 q Hq) as (j & Hj & X). exists j. split; [lia|exact X].
    + apply sep_app; [exact G1|exact G2|]. intros a b Ha Hb N. exfalso.
      destruct (F1 a Ha) as ((c & E) & _). destruct (F2 b Hb) as (j & Hj & (d & E') & _).
      rewrite E, E', <- !app_assoc in N. apply (app_cons_ne who c d i j ltac:(lia) N).
Qed.

(** ** Requirements of the whole network *)
Lemma hid_req_le B T ls : forall r,
  let h := hid_req B T r ls in
  r_mem r <= r_mem h /\ r_dLdA r <= r_dLdA h /\
  q_f (linits B T ls) <= r_mem h /\ q_t (linits B T ls) <= r_mem h /\ q_d (linits B T ls) <= r_dLdA h.
Proof.
  induction ls as [|l ls IH] using (mlist_ind) ; intros r.
  - cbn. lia.
  - cbn [hid_req linits agg q_f q_t q_d]. specialize (IH (upd_req r (linit B T l))). cbn [upd_req r_mem r_dLdA] in IH.
    cbn zeta in IH |- *. lia.
Qed.
Lemma net_req_le B T x : let r := net_req B T x in
  q_f (linits B T (m_hid x)) <= r_mem r /\ q_t (linits B T (m_hid x)) <= r_mem r /\ q_d (linits B T (m_hid x)) <= r_dLdA r /\
  q_t (out_init T x) <= r_mem r.
Proof.
  unfold net_req. cbn zeta. set (h := hid_req B T (mkR 0 0 0) (m_hid x)).
  pose proof (hid_req_le B T (m_hid x) (mkR 0 0 0)) as H. cbn zeta in H. fold h in H.
  destruct ((0 <? T) && (r_dLdA (upd_req h (out_init T x)) =? 0)) eqn:E; cbn [r_mem r_dLdA upd_req] in *; [|lia].
  apply andb_true_iff in E. destruct E as [_ E]. apply Nat.eqb_eq in E. lia.
Qed.

Lemma sep_nth ps : sep ps -> forall i j p q, i <> j -> nth_error ps i = Some p -> nth_error ps j = Some q ->
  nested (p_who p) (p_who q) -> apart p q.
Proof.
  assert (X : forall ps, sep ps -> forall i j p q, i < j -> nth_error ps i = Some p -> nth_error ps j = Some q ->
    nested (p_who p) (p_who q) -> apart p q).
  { induction ps0 as [|a ps0 IH]; intros Hs i j p q Hij Hi Hj N; [destruct i; discriminate|]. inversion Hs; subst.
    destruct j; [lia|]. destruct i.
    - cbn in Hi. injection Hi as <-. cbn in Hj. apply nth_error_In in Hj. rewrite Forall_forall in H1. apply H1; assumption.
    - cbn in Hi, Hj. apply (IH H2 i j p q); [lia|assumption..]. }
  intros Hs i j p q Hij Hi Hj N. destruct (Nat.lt_ge_cases i j) as [|G].
  - apply (X ps Hs i j); assumption.
  - assert (A : apart q p).
    { apply (X ps Hs j i); [lia|assumption..|]. destruct N as (c & N). exists c. tauto. }
    unfold apart in *. tauto.
Qed.

Theorem carve_ok fp tb x : exists total used ps,
  full_init_mem fp tb x = Some (total, used, ps) /\ used = total /\ Forall (inside total) ps /\ sep ps.
Proof.
  unfold full_init_mem. set (B := Nat.max tb fp). set (T := tb).
  pose proof (net_req_le B T x) as (R1 & R2 & R3 & R4). set (r := net_req B T x) in *.
  set (base := if 0 <? T then r_dLdA r + r_dLdA r else 0).
  assert (Hb : total_mem T r = base + r_mem r) by (unfold total_mem, base; destruct (0 <? T); lia).
  assert (S0 : sep (if 0 <? T then [mkP [] (UdLdA 0) 0 (r_dLdA r); mkP [] (UdLdA 1) (r_dLdA r) (r_dLdA r)] else []) /\
    Forall (inside base) (if 0 <? T then [mkP [] (UdLdA 0) 0 (r_dLdA r); mkP [] (UdLdA 1) (r_dLdA r) (r_dLdA r)] else [])).
  { unfold base. destruct (0 <? T); split; try constructor; try constructor; unfold inside, apart; cbn; try constructor; try constructor; try lia. }
  destruct S0 as [S0 I0].
  unfold process_tmp. fold r. fold base.
  destruct (Nat.ltb_spec 0 (r_mem r)) as [HM|HM].
  - destruct (proj2 initMem_some (m_hid x) B T [] 0 base (r_mem r)) as [hs Eh]; [split; assumption|].
    rewrite Eh. cbn [obind]. destruct (proj2 initMem_place _ _ _ _ _ _ _ _ Eh) as [Fh Sh].
    assert (Ho : exists os, out_initMem T [mlen (m_hid x)] base (r_mem r) x = Some os /\
      Forall (fun p => p_who p = [mlen (m_hid x)] /\ base <= p_ofs p /\ p_ofs p + p_len p <= base + r_mem r) os /\ sep os).
    { unfold out_initMem. unfold out_init in R4. destruct ((0 <? T) && m_oupd x) eqn:E.
      - apply andb_true_iff in E. destruct E as [_ E]. rewrite E in R4. cbn [q_t] in R4.
        rewrite (proj2 (Nat.leb_le _ _) R4). cbn [guard obind]. eexists. split; [reflexivity|]. split.
        + constructor; [|constructor]. cbn. split; [reflexivity|lia].
        + constructor; constructor.
      - eexists. split; [reflexivity|]. split; constructor. }
    destruct Ho as (os & Eo & Fo & So). rewrite Eo. cbn [obind].
    eexists _, _, _. split; [reflexivity|]. rewrite Hb. split; [reflexivity|].
    rewrite Forall_forall in Fh, Fo, I0. split.
    + apply Forall_app. split; [|apply Forall_app; split]; apply Forall_forall; intros p Hp; unfold inside.
      * apply I0 in Hp. unfold inside in Hp. lia.
      * destruct (Fh p Hp) as (j & _ & _ & X). lia.
      * destruct (Fo p Hp) as (_ & X). lia.
    + apply sep_app; [exact S0| |].
      * apply sep_app; [exact Sh|exact So|]. intros p q Hp Hq N. exfalso.
        (* the output layer comes after all hidden layers *)
        destruct (Fo q Hq) as (Eq & _). rewrite Eq in N.
        assert (X : exists j c, p_who p = j :: c /\ j < mlen (m_hid x)).
        { clear - Eh Hp.
          assert (Y : forall ls i ps, initMems B T [] i base (r_mem r) ls = Some ps -> In p ps -> exists j c, p_who p = j :: c /\ j < i + mlen ls).
          { induction ls as [|l ls IH] using mlist_ind; intros i ps E Hin.
            - cbn in E. injection E as <-. destruct Hin.
            - cbn [initMems] in E. destruct (initMem B T ([] ++ [i]) base (r_mem r) l) as [a|] eqn:Q1; [|discriminate]. cbn [obind] in E.
              destruct (initMems B T [] (i + 1) base (r_mem r) ls) as [b|] eqn:Q2; [|discriminate]. injection E as <-.
              apply in_app_or in Hin. destruct Hin as [Hin|Hin].
              + apply (proj1 initMem_place) in Q1. destruct Q1 as [F _]. rewrite Forall_forall in F. destruct (F p Hin) as ((c & Ec) & _).
                exists i, c. split; [exact Ec|]. cbn. lia.
              + destruct (IH _ _ Q2 Hin) as (j & c & Ec & Hj). exists j, c. split; [exact Ec|]. cbn. lia. }
          exact (Y _ 0 hs Eh Hp). }
        destruct X as (j & c & Ej & Hj). rewrite Ej in N. destruct N as (d & [N|N]); cbn in N; injection N; intros; lia.
      * intros p q Hp Hq _. left. apply I0 in Hp. unfold inside in Hp. apply in_app_or in Hq. destruct Hq as [Hq|Hq].
        -- destruct (Fh q Hq) as (j & _ & _ & X). lia.
        -- destruct (Fo q Hq) as (_ & X). lia.
  - eexists _, _, _. split; [reflexivity|]. split; [rewrite Hb; lia|]. split; [|exact S0].
    revert I0. apply Forall_impl. intros p. unfold inside. lia.
Qed.

(** ** Every layer gets what it needs *)
Lemma nth_l_q B T i ls l : nth_l i ls l ->
  q_f (linit B T l) <= q_f (linits B T ls) /\ q_t (linit B T l) <= q_t (linits B T ls) /\ q_d (linit B T l) <= q_d (linits B T ls) /\
  mincoming l <= max_inc ls.
Proof. induction 1; cbn [linits agg q_f q_t q_d max_inc]; lia. Qed.

Lemma within_need : forall T l T' l' , within T l T' l' -> forall B, 0 < T' -> exists B', need_dLdA T' l' <= q_d (linit B' T' l') /\ q_d (linit B' T' l') <= q_d (linit B T l).
Proof.
  induction 1; intros B HT.
  - exists B. split; [|lia]. destruct l; cbn [need_dLdA linit]; rewrite ?(proj2 (Nat.ltb_lt 0 T) HT); cbn [q_d agg]; try lia.
    destruct upd; lia.
  - destruct (IHwithin B HT) as (B' & H1 & H2). exists B'. split; [exact H1|]. cbn [linit].
    pose proof (nth_l_q B T i ls l H). lia.
  - destruct (IHwithin (B * k) HT) as (B' & H1 & H2). exists B'. split; [exact H1|]. cbn [linit agg q_d]. lia.
Qed.

Lemma initMems_nth : forall j ls l, nth_l j ls l -> forall B T who i ptr cnt ps, initMems B T who i ptr cnt ls = Some ps ->
  exists qs, initMem B T (who ++ [i + j]) ptr cnt l = Some qs /\ incl qs ps.
Proof.
  induction 1; intros B T who k ptr cnt ps E; cbn [initMems] in E.
  - destruct (initMem B T (who ++ [k]) ptr cnt l) as [p|] eqn:Q1; [|discriminate]. cbn [obind] in E.
    destruct (initMems B T who (k + 1) ptr cnt ls) as [qs|] eqn:Q2; [|discriminate]. injection E as <-.
    rewrite Nat.add_0_r. exists p. split; [exact Q1|]. apply incl_appl, incl_refl.
  - destruct (initMem B T (who ++ [k]) ptr cnt l') as [p|] eqn:Q1; [|discriminate]. cbn [obind] in E.
    destruct (initMems B T who (k + 1) ptr cnt ls) as [qs|] eqn:Q2; [|discriminate]. injection E as <-.
    destruct (IHnth_l _ _ _ _ _ _ _ Q2) as (q & Eq & I). replace (k + S i) with (k + 1 + i) by lia. exists q. split; [exact Eq|].
    apply incl_appr, I.
Qed.

Lemma full_init_inv fp tb x total used ps : full_init_mem fp tb x = Some (total, used, ps) ->
  let B := Nat.max tb fp in let r := net_req B tb x in
  (0 < r_mem r -> exists ptr hs os, initMems B tb [] 0 ptr (r_mem r) (m_hid x) = Some hs /\
      out_initMem tb [mlen (m_hid x)] ptr (r_mem r) x = Some os /\ incl hs ps /\ incl os ps) /\
  (0 < tb -> In (mkP [] (UdLdA 0) 0 (r_dLdA r)) ps /\ In (mkP [] (UdLdA 1) (r_dLdA r) (r_dLdA r)) ps).
Proof.
  unfold full_init_mem, process_tmp. cbn zeta. set (B := Nat.max tb fp). set (r := net_req B tb x).
  set (p0 := if 0 <? tb then [mkP [] (UdLdA 0) 0 (r_dLdA r); mkP [] (UdLdA 1) (r_dLdA r) (r_dLdA r)] else []). set (base := if 0 <? tb then r_dLdA r + r_dLdA r else 0). intros E.
  assert (X : incl p0 ps /\ (0 < r_mem r -> exists ptr hs os, initMems B tb [] 0 ptr (r_mem r) (m_hid x) = Some hs /\
      out_initMem tb [mlen (m_hid x)] ptr (r_mem r) x = Some os /\ incl hs ps /\ incl os ps)).
  { destruct (Nat.ltb_spec 0 (r_mem r)) as [HM|HM].
    - destruct (initMems B tb [] 0 base (r_mem r) (m_hid x)) as [hs|] eqn:Q1; [|discriminate]. cbn [obind] in E.
      destruct (out_initMem tb [mlen (m_hid x)] base (r_mem r) x) as [os|] eqn:Q2; [|discriminate]. cbn [obind] in E.
      injection E as _ _ <-. split; [apply incl_appl, incl_refl|]. intros _. exists base, hs, os. repeat split; try assumption.
      + apply incl_appr, incl_appl, incl_refl.
      + apply incl_appr, incl_appr, incl_refl.
    - cbn [obind] in E. injection E as _ _ <-. split; [apply incl_refl|lia]. }
  destruct X as [X1 X2]. split; [exact X2|]. intros HT. subst p0. rewrite (proj2 (Nat.ltb_lt 0 tb) HT) in X1.
  split; apply X1; cbn; tauto.
Qed.

Lemma sits_mem fp tb x total used ps : full_init_mem fp tb x = Some (total, used, ps) ->
  forall who B T l, sits (Nat.max tb fp) tb x who B T l -> 0 < r_mem (net_req (Nat.max tb fp) tb x) ->
  exists ptr cnt qs, initMem B T who ptr cnt l = Some qs /\ incl qs ps.
Proof.
  intros E who B T l Hs HM. destruct (full_init_inv _ _ _ _ _ _ E) as [X _]. destruct (X HM) as (ptr & hs & os & Eh & _ & Ih & _).
  induction Hs.
  - destruct (initMems_nth _ _ _ H _ _ _ _ _ _ _ Eh) as (qs & Eq & I). exists ptr, (r_mem (net_req (Nat.max tb fp) tb x)), qs.
    split; [exact Eq|]. eapply incl_tran; eassumption.
  - destruct IHHs as (p & c & qs & Eq & I). cbn [initMem] in Eq. destruct (initMems_nth _ _ _ H _ _ _ _ _ _ _ Eq) as (q2 & Eq2 & I2).
    exists p, c, q2. split; [exact Eq2|]. eapply incl_tran; eassumption.
  - destruct IHHs as (p & c & qs & Eq & I). cbn [initMem] in Eq. destruct (B <=? c); [|discriminate]. cbn [guard obind] in Eq.
    destruct (0 <? T).
    + destruct (2 * icap B T ls <=? c - B); [|discriminate]. cbn [guard obind] in Eq.
      destruct (initMems B T who 0 _ _ ls) as [q0|] eqn:Q; [|discriminate]. injection Eq as <-.
      destruct (initMems_nth _ _ _ H _ _ _ _ _ _ _ Q) as (q2 & Eq2 & I2). eexists _, _, q2. split; [exact Eq2|].
      eapply incl_tran; [exact I2|]. eapply incl_tran; [|exact I]. do 3 apply incl_tl. apply incl_refl.
    + destruct (initMems B T who 0 _ _ ls) as [q0|] eqn:Q; [|discriminate]. cbn [obind] in Eq. injection Eq as <-.
      destruct (initMems_nth _ _ _ H _ _ _ _ _ _ _ Q) as (q2 & Eq2 & I2). eexists _, _, q2. split; [exact Eq2|].
      eapply incl_tran; [exact I2|]. eapply incl_tran; [|exact I]. apply incl_tl, incl_refl.
  - destruct IHHs as (p & c & qs & Eq & I). cbn [initMem] in Eq. exists p, c, qs. split; assumption.
Qed.

(** a horizontal pack anywhere makes the network ask for memory *)
Lemma sits_top fp tb x who B T l : sits fp tb x who B T l -> forall inc ls, l = MH inc ls -> 0 < B ->
  B <= r_mem (net_req fp tb x).
Proof.
  intros Hs. assert (G : q_f (linit B T l) <= r_mem (net_req fp tb x)).
  { induction Hs.
    - pose proof (net_req_le fp tb x) as (R1 & _). pose proof (nth_l_q fp tb i _ _ H). lia.
    - cbn [linit] in IHHs. pose proof (nth_l_q B T i _ _ H). lia.
    - cbn [linit] in IHHs. pose proof (nth_l_q B T i _ _ H). destruct (0 <? T); cbn [q_f] in IHHs; lia.
    - cbn [linit agg q_f] in IHHs. lia. }
  intros inc ls -> HB. cbn [linit] in G. destruct (0 <? T); cbn [q_f] in G; lia.
Qed.

Theorem needs_ok fp tb x total used ps : full_init_mem fp tb x = Some (total, used, ps) ->
  (forall who B T inc ls, sits (Nat.max tb fp) tb x who B T (MH inc ls) -> 0 < B ->
     gets ps who UBias B /\
     (0 < T -> forall i l, nth_l i ls l ->
        gets ps who UInnerPrev (T * mincoming l) /\ gets ps who UInner (T * mincoming l) /\
        forall T' l', within T l T' l' -> 0 < T' -> gets ps who UInner (need_dLdA T' l') /\ gets ps who UInnerPrev (need_dLdA T' l'))) /\
  (0 < tb -> forall i l, nth_l i (m_hid x) l -> forall T' l', within tb l T' l' -> 0 < T' ->
     gets ps [] (UdLdA 0) (need_dLdA T' l') /\ gets ps [] (UdLdA 1) (need_dLdA T' l')) /\
  (0 < tb -> m_oupd x = true -> 0 < m_on x -> gets ps [mlen (m_hid x)] UdLdW (m_on x * (m_oinc x + 1))).
Proof.
  intros E. split; [|split].
  - intros who B T inc ls Hs HB. pose proof (sits_top _ _ _ _ _ _ _ Hs _ _ eq_refl HB) as HM.
    destruct (sits_mem _ _ _ _ _ _ E _ _ _ _ Hs ltac:(lia)) as (p & c & qs & Eq & I). cbn [initMem] in Eq.
    destruct (B <=? c); [|discriminate]. cbn [guard obind] in Eq. destruct (0 <? T) eqn:QT.
    + destruct (2 * icap B T ls <=? c - B); [|discriminate]. cbn [guard obind] in Eq.
      destruct (initMems B T who 0 _ _ ls) as [q0|] eqn:Q; [|discriminate]. injection Eq as <-.
      split; [eexists; split; [apply I; left; reflexivity|]; cbn; repeat split; lia|]. intros HT i l Hn.
      pose proof (nth_l_q B T i _ _ Hn) as (_ & _ & Hd & Hi).
      assert (H1 : T * mincoming l <= icap B T ls).
      { unfold icap. pose proof (Nat.mul_le_mono_l _ _ T Hi). lia. }
      split; [|split].
      * eexists; split; [apply I; right; right; left; reflexivity|]; cbn; repeat split; lia.
      * eexists; split; [apply I; right; left; reflexivity|]; cbn; repeat split; lia.
      * intros T' l' Hw HT'. destruct (within_need _ _ _ _ Hw B HT') as (B' & W1 & W2).
        assert (need_dLdA T' l' <= icap B T ls) by (unfold icap; lia).
        split.
        -- eexists; (split; [apply I; right; left; reflexivity|]); cbn; repeat split; lia.
        -- eexists; (split; [apply I; right; right; left; reflexivity|]); cbn; repeat split; lia.
    + destruct (initMems B T who 0 _ _ ls) as [q0|] eqn:Q; [|discriminate]. cbn [obind] in Eq. injection Eq as <-.
      split; [eexists; split; [apply I; left; reflexivity|]; cbn; repeat split; lia|]. intros HT. apply Nat.ltb_ge in QT. lia.
  - intros HT i l Hn T' l' Hw HT'. destruct (full_init_inv _ _ _ _ _ _ E) as [_ X]. destruct (X HT) as [X0 X1].
    destruct (within_need _ _ _ _ Hw (Nat.max tb fp) HT') as (B' & W1 & W2). pose proof (nth_l_q (Nat.max tb fp) tb i _ _ Hn) as (_ & _ & Hd & _).
    pose proof (net_req_le (Nat.max tb fp) tb x) as (_ & _ & R3 & _).
    split.
    + eexists; (split; [exact X0|]); cbn; repeat split; lia.
    + eexists; (split; [exact X1|]); cbn; repeat split; lia.
  - intros HT Hu Hn. destruct (full_init_inv _ _ _ _ _ _ E) as [X _].
    pose proof (net_req_le (Nat.max tb fp) tb x) as (_ & _ & _ & R4). unfold out_init in R4. rewrite Hu, (proj2 (Nat.ltb_lt 0 tb) HT) in R4. cbn [andb q_t] in R4.
    destruct X as (ptr & hs & os & _ & Eo & _ & Io); [nia|]. unfold out_initMem in Eo. rewrite Hu, (proj2 (Nat.ltb_lt 0 tb) HT) in Eo. cbn [andb] in Eo.
    destruct (_ <=? _); [|discriminate]. cbn [guard obind] in Eo. injection Eo as <-.
    eexists; split; [apply Io; left; reflexivity|]; cbn; repeat split; lia.
Qed.
