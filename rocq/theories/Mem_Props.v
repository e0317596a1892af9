(** Theorems about the shared temporary memory. *)
From Verif Require Import Base Mem_Model Mem_Spec Mem_Proofs Net_Model.
Local Open Scope nat_scope.

(** ** C46 *)
(** The storage is used up exactly; every piece lies in it; pieces that are in use at
    the same time do not overlap. *)
Theorem C46_carve : forall fp tb x, exists total used ps,
  full_init_mem fp tb x = Some (total, used, ps) /\ used = total /\ Forall (inside total) ps /\
  (forall i j p q, i <> j -> nth_error ps i = Some p -> nth_error ps j = Some q -> nested (p_who p) (p_who q) -> apart p q).
Proof.
  intros fp tb x. destruct (carve_ok fp tb x) as (total & used & ps & H1 & H2 & H3 & H4).
  exists total, used, ps. repeat (split; [assumption|]). apply sep_nth, H4.
Qed.
Print Assumptions C46_carve.

(** Every layer gets the pieces it needs, at least in the size it needs. *)
Theorem C46_needs : forall fp tb x total used ps, full_init_mem fp tb x = Some (total, used, ps) ->
  (forall who B T inc ls, sits (Nat.max tb fp) tb x who B T (MH inc ls) -> 0 < B ->
     gets ps who UBias B /\
     (0 < T -> forall i l, nth_l i ls l ->
        gets ps who UInnerPrev (T * mincoming l) /\ gets ps who UInner (T * mincoming l) /\
        forall T' l', within T l T' l' -> 0 < T' -> gets ps who UInner (need_dLdA T' l') /\ gets ps who UInnerPrev (need_dLdA T' l'))) /\
  (0 < tb -> forall i l, nth_l i (m_hid x) l -> forall T' l', within tb l T' l' -> 0 < T' ->
     gets ps [] (UdLdA 0) (need_dLdA T' l') /\ gets ps [] (UdLdA 1) (need_dLdA T' l')) /\
  (0 < tb -> m_oupd x = true -> 0 < m_on x -> gets ps [mlen (m_hid x)] UdLdW (m_on x * (m_oinc x + 1))).
Proof. exact needs_ok. Qed.
Print Assumptions C46_needs.

(** A vertical pack with a horizontal pack of a tiled pack in it *)
Definition ex_mnet : mnet :=
  mkMN (MCons (MFC 3 4 true) (MCons (MV (MCons (MFC 4 6 true)
    (MCons (MH 6 (MCons (MFC 2 3 false) (MCons (MT 2 (MH 2 (MCons (MI 1) (MCons (MFC 1 2 true) MNil)))) MNil))) MNil))) MNil)) 9 2 true.
Example C46_example : exists total ps, full_init_mem 5 2 ex_mnet = Some (total, total, ps) /\ length ps = 9 /\
  sits 5 2 ex_mnet [1; 1; 1; 0] 10 4 (MH 2 (MCons (MI 1) (MCons (MFC 1 2 true) MNil))) /\
  In (mkP [1; 1; 1; 0] UBias 89 10) ps.
Proof.
  eexists _, _. split; [vm_compute; reflexivity|]. split; [reflexivity|]. split; [|vm_compute; tauto].
  change [1; 1; 1; 0] with ([1; 1; 1] ++ [0]). change 10 with (5 * 2). change 4 with (2 * 2). apply sits_t.
  change [1; 1; 1] with ([1; 1] ++ [1]). eapply sits_h; [|apply nth_lS, nth_l0].
  change [1; 1] with ([1] ++ [1]). eapply sits_v; [|apply nth_lS, nth_l0].
  apply sits_net, nth_lS, nth_l0.
Qed.

(** The sizes of the dL/dA buffers assumed by the theorems about back-propagation (C33,
    C47, C76) are the sizes of the pieces. *)
Fixpoint erase (l : layer) : mlayer :=
  match l with
  | LFC _ _ inc n _ _ _ => MFC inc n true
  | LI n _ => MI n
  | LPV s => MV (serase s MNil)
  | LPH inc h _ _ => MH inc (herase h)
  | LPT k l _ _ => MT k (erase l)
  end
with serase (s : stack) (up : mlist) : mlist :=
  match s with SOne l => MCons (erase l) up | SCons l b => serase b (MCons (erase l) up) end
with herase (h : hpack) : mlist := match h with HNil => MNil | HCons _ _ l h => MCons (erase l) (herase h) end.
Fixpoint tiled_ok (l : layer) : Prop :=
  match l with LFC _ _ _ _ _ _ _ | LI _ _ => True | LPV s => stiled_ok s | LPH _ h _ _ => htiled_ok h | LPT k l _ _ => 0 < k /\ tiled_ok l end
with stiled_ok (s : stack) : Prop := match s with SOne l => tiled_ok l | SCons l b => tiled_ok l /\ stiled_ok b end
with htiled_ok (h : hpack) : Prop := match h with HNil => True | HCons _ _ l h => tiled_ok l /\ htiled_ok h end.

Scheme layer_mi := Induction for layer Sort Prop with stack_mi := Induction for stack Sort Prop with hpack_mi := Induction for hpack Sort Prop.
Combined Scheme layer_mutind from layer_mi, stack_mi, hpack_mi.

Lemma mtop_cons l ls : mtop (MCons l ls) = match ls with MNil => mneurons l | _ => mtop ls end.
Proof. destruct ls; reflexivity. Qed.
Lemma erase_sizes : (forall l, mneurons (erase l) = neurons l /\ mincoming (erase l) = incoming l) /\
  (forall s, (forall up, (match up with MNil => sneurons s | _ => mtop up end) = mtop (serase s up)) /\
             (forall up, match serase s up with MNil => 0 | MCons l _ => mincoming l end = sincoming s)) /\
  (forall h, mtotal (herase h) = hneurons h /\ max_inc (herase h) = maxInc h).
Proof.
  apply layer_mutind; intros; cbn [erase serase herase mneurons mincoming neurons incoming sneurons sincoming mtotal hneurons max_inc maxInc]; auto.
  - destruct H as [H1 H2]. split.
    + rewrite <- (H1 MNil). destruct s; reflexivity.
    + apply H2.
  - destruct H as [H1 H2]. split; [exact H1|reflexivity].
  - destruct H as [-> ->]. auto.
  - destruct H as [H1 H2]. split; intros up; [rewrite mtop_cons; destruct up; auto|exact H2].
  - destruct H as [H1 H2], H0 as [G1 G2]. split; intros up; [|apply G2]. rewrite <- G1. rewrite mtop_cons. destruct up; auto.
  - destruct H as [-> ->], H0 as [-> ->]. auto.
Qed.

Theorem C46_net_sizes : forall B M, 0 < M ->
  (forall l, tiled_ok l -> q_d (linit B M (erase l)) = max_dLdA M l) /\
  (forall h, htiled_ok h -> icap B M (herase h) = inner_cap M h) /\
  (forall s, stiled_ok s -> forall x, m_hid x = serase s MNil -> r_dLdA (net_req B M x) = dLdA_size M s).
Proof.
  assert (X : (forall l B M, 0 < M -> tiled_ok l -> q_d (linit B M (erase l)) = max_dLdA M l) /\
    (forall s B M, 0 < M -> stiled_ok s -> forall up, q_d (linits B M (serase s up)) = Nat.max (smax_dLdA M s) (q_d (linits B M up))) /\
    (forall h B M, 0 < M -> htiled_ok h -> q_d (linits B M (herase h)) = hmax_dLdA M h)).
  { apply layer_mutind; intros; cbn [erase serase herase max_dLdA smax_dLdA hmax_dLdA linit linits agg q_d no_lid]; auto;
      rewrite ?(proj2 (Nat.ltb_lt 0 M)) by assumption; cbn [q_d]; auto.
    - rewrite H by assumption. cbn. lia.
    - rewrite (proj1 (proj2 (proj2 erase_sizes) h)). reflexivity.
    - destruct H1 as [Hk H1]. rewrite (H (B * k) (M * k)) by (try nia; assumption).
      destruct (proj1 erase_sizes l) as [-> ->]. replace (M * k) with (k * M) by lia. lia.
    - destruct H2 as [H2 H3]. rewrite H0 by assumption. cbn [linits agg q_d]. rewrite H by assumption. lia.
    - destruct H2 as [H2 H3]. rewrite H by assumption. rewrite H0 by assumption. reflexivity. }
  destruct X as (X1 & X2 & X3). intros B M HM. split; [|split].
  - intros l. apply X1, HM.
  - intros h Hh. unfold icap, inner_cap. rewrite X3 by assumption. rewrite (proj2 (proj2 (proj2 erase_sizes) h)). reflexivity.
  - intros s Hs x Hx. unfold net_req, dLdA_size. rewrite Hx.
    assert (Hr : forall ls r, r_dLdA (hid_req B M r ls) = Nat.max (r_dLdA r) (q_d (linits B M ls))).
    { induction ls as [|l ls IH] using mlist_ind; intros r; cbn [hid_req linits agg q_d no_lid]; [lia|]. rewrite IH. cbn [upd_req r_dLdA]. lia. }
    cbn zeta. rewrite (proj2 (Nat.ltb_lt 0 M) HM). cbn [andb].
    assert (E : r_dLdA (upd_req (hid_req B M {| r_mem := 0; r_dLdA := 0; r_prms := 0 |} (serase s MNil)) (out_init M x)) = smax_dLdA M s).
    { cbn [upd_req r_dLdA out_init q_d]. rewrite Hr, X2 by assumption. cbn. lia. }
    rewrite E. destruct (Nat.eqb_spec (smax_dLdA M s) 0) as [Z|Z]; cbn [r_dLdA]; [lia|]. rewrite E. lia.
Qed.
Print Assumptions C46_net_sizes.
Example C46_net_sizes_example : exists s, stiled_ok s /\ serase s MNil = MCons (MFC 2 4 true) (MCons (MT 2 (MFC 2 3 true)) MNil) /\ dLdA_size 3 s = 18.
Proof.
  exists (SCons (LPT 2 (LFC 1 Act_Model.Identity 2 3 [] [] []) [] []) (SOne (LFC 0 Act_Model.Identity 2 4 [] [] []))).
  cbn. repeat split; try lia.
Qed.
