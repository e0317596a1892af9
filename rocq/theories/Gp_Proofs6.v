(** Gradients of a gated pack. *)
From Coq Require Import Reals Lra Bool Permutation.
From Coquelicot Require Import Coquelicot.
From Verif Require Import Base BaseLemmas Act_Model Act_Spec Act_Proofs Loss_Proofs Net_Model Net_Spec Net_Proofs Net_Proofs2 Net_Proofs3 Net_Proofs4 Gp_Model Gp_Spec Gp_Proofs Gp_Proofs2 Gp_Proofs3 Gp_Proofs4 Gp_Proofs5.
Local Open Scope nat_scope.

(** ** The weighed sum of activations *)
Lemma gated_length m B x : length (gated m B x) = m * lneurons (g_lay x).
Proof.
  unfold gated. generalize 0 as s. generalize (gate m B x) as gt. intros gt. induction (g_lay x) as [|q ls IH]; intros s; [cbn; lia|].
  cbn [length seq combine flat_map lneurons fold_right fst snd]. fold (lneurons ls). rewrite app_length, table_length. rewrite IH. lia.
Qed.
Definition ghead (add : bool) (Gt : list R) : list R := Gt ++ (if add then map (fun v => (1 - v)%R) Gt else []).
Lemma ghead_length add Gt m k : length Gt = m * k -> length (ghead add Gt) = m * gneurons k add.
Proof. intros H. unfold ghead, gneurons. rewrite app_length. destruct add; rewrite ?map_length; cbn [length]; lia. Qed.
Lemma pack_acts_head m B x : pack_acts m B x = ghead (g_add x) (gates m B x) ++ gated m B x.
Proof.
  unfold pack_acts, ghead. fold (gates m B x). rewrite <- app_assoc. f_equal. f_equal. destruct (g_add x); [|reflexivity]. symmetry.
  apply table_eq; [rewrite map_length; apply gates_length|]. intros r i Hr Hi.
  rewrite (nth_map0 (fun v => (1 - v)%R)) by (rewrite gates_length; apply split_lt; assumption). rewrite (Nat.mul_comm i m), gates_at by assumption. reflexivity.
Qed.
Lemma weighed_eq m D B x : Forall (lok (g_inc x)) (g_lay x) -> length B = m * g_inc x -> binary m B x ->
  weighed m D B x = (bs (m * gneurons (length (g_lay x)) (g_add x)) (fun q => nth q D 0 * nth q (ghead (g_add x) (gates m B x)) 0) +
    bs (m * lneurons (g_lay x)) (fun q => nth (m * gneurons (length (g_lay x)) (g_add x) + q) D 0 * nth q (gvals m (gates m B x) B 0 (g_lay x)) 0))%R.
Proof.
  intros Hok HB Hb. unfold weighed. rewrite bs_sumR, pack_acts_head. unfold g_neurons. rewrite Nat.mul_add_distr_l, bs_app.
  assert (LH := ghead_length (g_add x) (gates m B x) m _ (gates_length m B x)).
  f_equal; apply bs_ext; intros q Hq; f_equal.
  - rewrite app_nth1 by (rewrite LH; exact Hq). reflexivity.
  - rewrite app_nth2 by (rewrite LH; lia). rewrite LH. f_equal; [lia|]. symmetry.
    rewrite (gvals_gated m (g_inc x) (gates m B x) B (gate m B x) (length (g_lay x))); [reflexivity|apply gates_length|exact HB| |exact Hb|exact Hok|reflexivity].
    intros i r Hi Hr. apply gates_at; assumption.
Qed.

Lemma gvals_same m Gt B ls ls' : Forall2 lsame ls ls' -> forall i, gvals m Gt B i ls' = gvals m Gt B i ls.
Proof.
  induction 1 as [|[[o c] l] [[o' c'] l'] ls ls' [H1 H2] _ IH]; intros i; [reflexivity|]. cbn [fst snd] in *. injection H1 as -> ->. cbn [gvals].
  rewrite IH, (proj1 fval_same _ _ H2), (proj1 same_neurons _ _ H2). reflexivity.
Qed.
Lemma lw_same f t ls ls' : Forall2 lsame ls ls' -> Forall2 lsame (lw f t ls) (lw f t ls').
Proof. induction 1 as [|q q' ls ls' [H1 H2] _ IH]; [constructor|]. constructor; [|exact IH]. split; [exact H1|]. apply (proj1 (with_w_same _)). exact H2. Qed.

(** ** Openings *)
Lemma opened_eq m B x i : i < length (g_lay x) -> opened m B x i = open_rows (gcol m (gates m B x) i).
Proof.
  intros Hi. unfold opened, open_rows. rewrite (gcol_length m _ i _ (gates_length m B x) Hi). apply filter_ext_in. intros r Hr. apply in_seq in Hr.
  unfold gcol. rewrite nth_slice by lia. rewrite gates_at by (assumption || lia). reflexivity.
Qed.
Lemma shown_eq m B x i o c l : i < length (g_lay x) -> shown m B x i (o, c, l) = seen m (gates m B x) B i o c.
Proof.
  intros Hi. unfold shown, seen. cbn [fst snd]. rewrite (opened_eq m B x i Hi). symmetry. set (rs := open_rows _).
  assert (Hr : forall r, In r rs -> r < m). { intros r H. apply open_rows_lt in H. rewrite (gcol_length m _ i _ (gates_length m B x) Hi) in H. exact H. }
  apply table_eq; [apply extract_length|]. intros j u Hj Hu. rewrite extract_at by assumption.
  pose proof (Hr (nth j rs 0) ltac:(apply nth_In; exact Hj)). rewrite nth_slice by nia. f_equal. lia.
Qed.

Lemma live_of m M B x (ls ls' : list glay) ns V t0 : forall i base, i + length ls = length (g_lay x) -> Forall2 lsame ls ls' ->
  held m M (gates m B x) B i base ls' ns V ->
  (forall u o c l, nth_error ls u = Some (o, c, l) -> opened m B x (i + u) <> [] ->
     smooth_at (length (opened m B x (i + u))) (biased (length (opened m B x (i + u))) (shown m B x (i + u) (o, c, l))) l) ->
  live t0 m (gates m B x) (fun _ : R => B) i ls'.
Proof.
  intros i base Hi HS. revert i base ns Hi. induction HS as [|[[o c] l] [[o' c'] l'] ls ls' [H1 H2] _ IH]; intros i base ns Hi Hh Hsm; [exact I|].
  cbn [fst snd length] in *. injection H1 as -> ->. destruct ns as [|n ns]; [destruct Hh|]. cbn [held] in Hh. destruct Hh as (En & Hr & Hh). cbn [live]. split.
  - intros Hp. subst n. destruct (Hr Hp) as (_ & _ & Hrd). split; [exact Hrd|].
    specialize (Hsm 0 o c l eq_refl). rewrite Nat.add_0_r in Hsm. rewrite shown_eq, opened_eq in Hsm by lia.
    apply (proj1 smooth_same _ _ H2). apply Hsm. intros E. unfold nopen in Hp. rewrite E in Hp. cbn in Hp. lia.
  - apply (IH (i + 1) (base + M * c) ns); [lia|exact Hh|]. intros u o1 c1 l1 Hu. rewrite <- Nat.add_assoc. apply (Hsm (S u)). exact Hu.
Qed.

(** ** Sums of gradients *)
Lemma gsum_zero : (forall l, gsum (fun _ _ => 0%R) l = 0%R) /\ (forall s, sgsum (fun _ _ => 0%R) s = 0%R) /\ (forall h, hgsum (fun _ _ => 0%R) h = 0%R).
Proof.
  apply layers_ind; intros; try reflexivity; try assumption.
  - cbn. apply bs_0. intros; ring.
  - change (INR k * gsum (fun _ _ => 0%R) l = 0)%R. rewrite H. ring.
  - change (gsum (fun _ _ => 0%R) l + sgsum (fun _ _ => 0%R) below = 0)%R. rewrite H, H0. ring.
  - change (gsum (fun _ _ => 0%R) l + hgsum (fun _ _ => 0%R) h = 0)%R. rewrite H, H0. ring.
Qed.
Lemma lsum_zero gw m Gt D B t0 ls : forall i f0, lsum (fun _ _ => 0%R) t0 gw m Gt D B i f0 ls = 0%R.
Proof. induction ls as [|[[o c] l] ls IH]; intros i f0; [reflexivity|]. cbn [lsum]. rewrite IH, (proj1 gsum_zero). ring. Qed.
Lemma lin_zero gw m Gt D B t0 ls : forall i f0, lin t0 gw m Gt D B (fun _ => 0%R) i f0 ls = 0%R.
Proof. induction ls as [|[[o c] l] ls IH]; intros i f0; [reflexivity|]. cbn [lin]. rewrite IH, bs_0; [ring|]. intros; ring. Qed.

Lemma sum_none id j (L : list (nat * nat * list R)) : ~ In id (map fid L) -> sumR (map (gterm (done id j)) L) = 0%R.
Proof.
  induction L as [|[[i k] G] L IH]; intros H; [reflexivity|]. cbn [map sumR fold_right] in *. fold (sumR (map (gterm (done id j)) L)).
  rewrite IH by (intros H'; apply H; right; exact H'). unfold gterm. cbn [fst snd]. rewrite bs_0; [ring|]. intros q _. unfold done.
  destruct (Nat.eqb_spec i id) as [->|_]; [exfalso; apply H; left; reflexivity|ring].
Qed.
Lemma fid_tagged (L L' : list (nat * nat * list R)) : map tagged L = map tagged L' -> map fid L = map fid L'.
Proof.
  intros H. assert (T : forall l : list (nat * nat * list R), map fid l = map (fun q : nat * nat * nat => fst (fst q)) (map tagged l)) by (intros l; rewrite map_map; reflexivity).
  rewrite !T, H. reflexivity.
Qed.
Lemma gsum1 dW l : gsum dW l = sumR (map (gterm dW) (grads 1 l)).
Proof. rewrite (proj1 (gsum_grads dW)). cbn [INR]. ring. Qed.

Lemma lsum_none gw m Gt D B t0 id j ls : Forall (fun q => wf (snd q)) ls -> ~ In id (map fid (lfcs ls)) ->
  forall i f0, lsum (done id j) t0 gw m Gt D B i f0 ls = 0%R.
Proof.
  induction ls as [|[[o c] l] ls IH]; intros Hw H i f0; [reflexivity|]. inversion Hw as [|? ? Hw1 Hw2]; subst. cbn [snd] in Hw1.
  cbn [lsum]. unfold lfcs in H. cbn [flat_map snd] in H. fold (lfcs ls) in H. rewrite map_app in H.
  rewrite IH by (try assumption; intros H'; apply H, in_or_app; right; exact H').
  rewrite gsum1, sum_none; [ring|]. unfold down. rewrite (fid_tagged _ _ (proj1 (grads_fcs gw) l 1 _ _ _ Hw1)). intros H'. apply H, in_or_app. left. exact H'.
Qed.
Lemma lsum_one gw m Gt D B t0 id j k W G ls u o c l : Forall (fun q => wf (snd q)) ls -> NoDup (map fid (lfcs ls)) -> nth_error ls u = Some (o, c, l) ->
  In (id, k, W) (fcs 1 l) -> j < length W -> forall i f0,
  In (id, k, G) (grads 1 (fst (down gw m Gt (B t0) D (i + u) (f0 + lneurons (firstn u ls)) o c l))) -> length G = length W ->
  lsum (done id j) t0 gw m Gt D B i f0 ls = (INR (nopen m Gt (i + u)) * (INR k * nth j G 0))%R.
Proof.
  revert u. induction ls as [|[[o' c'] l'] ls IH]; intros u Hw Hn Hu HW Hj i f0 HG LG; [destruct u; discriminate|].
  inversion Hw as [|? ? Hw1 Hw2]; subst. cbn [snd] in Hw1. unfold lfcs in Hn. cbn [flat_map snd] in Hn. fold (lfcs ls) in Hn. rewrite map_app in Hn. cbn [lsum].
  destruct u as [|u]; cbn [nth_error] in Hu.
  - injection Hu as -> -> ->. rewrite Nat.add_0_r in *. cbn [firstn lneurons fold_right] in HG. rewrite Nat.add_0_r in HG.
    rewrite (lsum_none gw m Gt D B t0 id j ls Hw2).
    + rewrite gsum1, (sum_one id j k G); [ring| |exact HG|lia]. unfold down. rewrite (fid_tagged _ _ (proj1 (grads_fcs gw) l 1 _ _ _ Hw1)).
      clear -Hn. induction (map fid (fcs 1 l)) as [|v L IHL]; [constructor|]. cbn in Hn. inversion Hn; subst. constructor; [intros H; apply H1, in_or_app; left; exact H|apply IHL; assumption].
    + apply (NoDup_app_disj _ _ Hn id). change id with (fid (id, k, W)). apply in_map. exact HW.
  - assert (Hin : In id (map fid (lfcs ls))).
    { change id with (fid (id, k, W)). apply in_map. apply in_flat_map. exists (o, c, l). split; [apply nth_error_In in Hu; exact Hu|exact HW]. }
    rewrite gsum1, sum_none.
    + rewrite (IH u Hw2 (NoDup_remove_app _ _ Hn) Hu HW Hj (i + 1) (f0 + neurons l')); [|..|exact LG].
      * replace (i + 1 + u) with (i + S u) by lia. ring.
      * cbn [firstn lneurons fold_right snd] in HG. fold (lneurons (firstn u ls)) in HG.
        replace (i + 1 + u) with (i + S u) by lia. replace (f0 + neurons l' + lneurons (firstn u ls)) with (f0 + (neurons l' + lneurons (firstn u ls))) by lia. exact HG.
    + unfold down. rewrite (fid_tagged _ _ (proj1 (grads_fcs gw) l' 1 _ _ _ Hw1)). intros H. apply (NoDup_app_disj _ _ Hn id H Hin).
Qed.

Lemma backed_nth gw m Gt B D ls : forall ls2 i f0 u o c l, backed gw m Gt B D i f0 ls ls2 -> nth_error ls u = Some (o, c, l) ->
  exists l2, nth_error ls2 u = Some (o, c, l2) /\
    if 0 <? nopen m Gt (i + u) then bare l2 = bare (fst (down gw m Gt B D (i + u) (f0 + lneurons (firstn u ls)) o c l)) else l2 = l.
Proof.
  induction ls as [|[[o' c'] l'] ls IH]; intros [|[[o2 c2] l2] ls2] i f0 u o c l Hb Hu; try (destruct u; discriminate); try contradiction.
  cbn [backed] in Hb. destruct Hb as (-> & -> & H & Hb). destruct u as [|u]; cbn [nth_error] in Hu |- *.
  - injection Hu as -> -> ->. exists l2. split; [reflexivity|]. cbn [firstn lneurons fold_right]. rewrite !Nat.add_0_r. destruct (0 <? nopen m Gt i); [apply H|exact H].
  - destruct (IH ls2 (i + 1) (f0 + neurons l') u o c l Hb Hu) as (l3 & E & H'). exists l3. split; [exact E|].
    cbn [firstn lneurons fold_right snd]. fold (lneurons (firstn u ls)).
    replace (i + 1 + u) with (i + S u) in H' by lia. replace (f0 + neurons l' + lneurons (firstn u ls)) with (f0 + (neurons l' + lneurons (firstn u ls))) in H' by lia. exact H'.
Qed.

Lemma with_w_id : (forall l, with_w (fun _ W => W) l = l) /\ (forall s, swith_w (fun _ W => W) s = s) /\ (forall h, hwith_w (fun _ W => W) h = h).
Proof. apply layers_ind; intros; cbn [with_w swith_w hwith_w]; try reflexivity; rewrite ?H, ?H0; reflexivity. Qed.
Lemma lw_id (t : R) ls : lw (fun _ _ W => W) t ls = ls.
Proof. induction ls as [|[p l] ls IH]; [reflexivity|]. cbn [lw map fst snd]. fold (lw (fun (_ : R) (_ : nat) (W : list R) => W) t ls). rewrite IH, (proj1 with_w_id). reflexivity. Qed.
Lemma path_const t0 : (forall l, path (fun _ _ W => W) (fun _ _ => 0%R) t0 l) /\ (forall s, spath (fun _ _ W => W) (fun _ _ => 0%R) t0 s) /\
  (forall h, hpath (fun _ _ W => W) (fun _ _ => 0%R) t0 h).
Proof.
  apply layers_ind; intros; cbn [path spath hpath]; auto. split; [reflexivity|]. split; [reflexivity|]. intros; apply d_const.
Qed.

(** every incoming neuron belongs to exactly one receptive field *)
Lemma partition x : g_wf x -> no_overlap x = true -> Permutation (seq 0 (g_inc x)) (seq (g_gofs x) (length (g_lay x)) ++ spans (g_lay x)).
Proof.
  intros (_ & _ & _ & W4) HN. apply Nat.eqb_eq in HN. apply NoDup_Permutation_bis; [apply seq_NoDup| |].
  - rewrite app_length, !seq_length, spans_length. lia.
  - intros col Hc. apply in_seq in Hc. apply in_or_app. destruct (W4 col ltac:(lia)) as [H|(q & Q1 & Q2)]; [left; apply in_seq; exact H|right].
    apply in_flat_map. exists q. split; [exact Q1|]. apply in_seq. exact Q2.
Qed.
Lemma spans_same ls ls' : Forall2 lsame ls ls' -> spans ls' = spans ls.
Proof. induction 1 as [|q q' ls ls' [H _] _ IH]; [reflexivity|]. cbn [spans flat_map]. fold (spans ls') (spans ls). rewrite IH, H. reflexivity. Qed.

Definition same_shape (x y : gpack) : Prop := g_inc y = g_inc x /\ g_gofs y = g_gofs x /\ g_bin y = g_bin x /\ g_add y = g_add x /\ length (g_lay y) = length (g_lay x).
Lemma gates_shape m B x y : same_shape x y -> gates m B y = gates m B x.
Proof. intros (E1 & E2 & E3 & E4 & E5). unfold gates, gate. rewrite E2, E3, E5. reflexivity. Qed.
Lemma binary_shape m B x y : same_shape x y -> binary m B x -> binary m B y.
Proof. intros (E1 & E2 & E3 & E4 & E5) H i r Hi Hr. unfold gate. rewrite E2, E3. apply H; [congruence|exact Hr]. Qed.

Lemma pack_gradient gw m M B x D E : (forall id, gw_ok (gw id)) -> g_wf x -> g_inited M x -> binary m B x -> length B = m * g_inc x -> 0 < m -> m <= M ->
  NoDup (map fid (lfcs (g_lay x))) -> g_smooth m B x -> m * g_neurons x <= length D -> m * g_inc x <= length E ->
  exists x1 x2 e2, g_fprop m (biased m B) x = Some x1 /\
    g_bprop gw m true (mkB m (g_neurons x) D) (mkB m (g_inc x) E) x1 = Some (x2, mkB m (g_neurons x) D, e2, true) /\
    shaped m (g_inc x) e2 = true /\ g_inited M x2 /\ g_wf x2 /\
    (forall col r, col < g_inc x -> r < m -> ~ within col (g_gofs x) (length (g_lay x)) ->
      is_derive (fun v => weighed m D (setn (m * col + r) v B) x) (nth (m * col + r) B 0%R) (nth (m * col + r) (b_d e2) 0%R)) /\
    (forall i r, i < length (g_lay x) -> r < m -> nth (m * (g_gofs x + i) + r) (b_d e2) 0%R = 0%R) /\
    (forall i o c l, nth_error (g_lay x) i = Some (o, c, l) -> exists l2, nth_error (g_lay x2) i = Some (o, c, l2) /\
      forall id k W, In (id, k, W) (fcs 1 l) ->
        (opened m B x i <> [] -> exists G, In (id, k, G) (grads 1 l2) /\ length G = length W /\ forall j, j < length W ->
           is_derive (fun v => weighed m D B (gset id j v x)) (nth j W 0%R) (INR (length (opened m B x i)) * (INR k * nth j G 0))%R) /\
        (opened m B x i = [] -> In (id, k, W) (fcs 1 l2) /\ forall j, j < length W ->
           is_derive (fun v => weighed m D B (gset id j v x)) (nth j W 0%R) 0%R)).
Proof.
  intros Hgw W I Hb HB Hm HM HN HS HD HE.
  destruct (g_fprop_ok m M B x W I Hb HB HM) as (x1 & F & FA & E2 & E3 & EB & EA & E4 & E5 & E6 & E1 & HL & Hh).
  destruct (g_fprop_kept M x x1 W I E1 E2 E3 E4 E5 E6 HL) as [W1 I1].
  assert (EN : g_neurons x1 = g_neurons x) by (unfold g_neurons; rewrite EA, (lsame_length _ _ HL), (lsame_neurons _ _ HL); reflexivity).
  set (Gt := gates m B x) in *. assert (LG : length Gt = m * length (g_lay x)) by apply gates_length.
  set (k := length (g_lay x)) in *. set (g0 := gneurons k (g_add x)) in *.
  assert (LP : length (pack_acts m B x) = m * g_neurons x) by (apply (pack_acts_length m B x M); assumption).
  assert (HA : forall q, q < m * k -> nth q (g_A x1) 0%R = nth q Gt 0%R).
  { intros q Hq. rewrite FA, pack_acts_head. fold Gt. rewrite app_nth1.
    - unfold ghead. rewrite app_nth1 by lia. reflexivity.
    - rewrite (ghead_length _ Gt m k LG). unfold gneurons. destruct (g_add x); nia. }
  destruct (g_bprop_ok gw true m M B x x1 (mkB m (g_neurons x) D) (mkB m (g_inc x) E)) as (x2 & e2 & BP & Br & Bc & _ & _ & Bk & Bd & I2 & W2x);
    try assumption.
  { rewrite FA, LP, EN. reflexivity. }
  { apply (lsame_length _ _ HL). }
  { rewrite EN. apply shaped_iff. split; reflexivity. }
  { rewrite EN. exact HD. }
  { intros _. split; [apply shaped_iff; split; reflexivity|exact HE]. }
  fold Gt k in Bk, Bd. rewrite EA in Bk, Bd. fold g0 in Bk, Bd. rewrite E3 in Bd. cbn [b_d b_r b_c] in *.
  exists x1, x2, e2. split; [exact F|]. split; [exact BP|]. split; [apply shaped_iff; split; assumption|]. split; [exact I2|]. split; [exact W2x|].
  pose proof W as (Wok & Wg & Wn & Wc). pose proof I as (Ino & _).
  assert (Wok1 : Forall (lok (g_inc x)) (g_lay x1)) by (apply (lsame_ok _ _ _ HL); exact Wok).
  assert (LIV : forall t0, live t0 m Gt (fun _ : R => B) 0 (g_lay x1)).
  { intros t0. apply (live_of m M B x (g_lay x) (g_lay x1) (g_rows x1) (g_prev x1) t0 0 0 eq_refl HL Hh).
    intros u o c l Hu Ho. apply (HS u (o, c, l) Hu Ho). }
  pose proof (partition x W Ino) as PM. fold k in PM.
  assert (ND : NoDup (seq (g_gofs x) k ++ spans (g_lay x))) by (apply (Permutation_NoDup PM), seq_NoDup).
  set (bk := backs gw m Gt B D 0 g0 (g_lay x1) E) in *.
  assert (Lbk : length bk = length E) by (apply (backs_length gw m (g_inc x)); assumption).
  assert (Lz : length (repeat 0%R (m * k)) = m * k) by apply repeat_length.
  assert (GZ : forall i r, i < k -> r < m -> nth (m * (g_gofs x + i) + r) (b_d e2) 0%R = 0%R).
  { intros i r Hi Hr. rewrite Bd. replace (m * (g_gofs x + i) + r) with (m * g_gofs x + (m * i + r)) by lia.
    rewrite nth_overwrite_in; [apply nth_repeat|rewrite Lz, Lbk; nia|rewrite Lz; nia]. }
  assert (LD : m * (g0 + lneurons (g_lay x1)) <= length D) by (rewrite (lsame_neurons _ _ HL); exact HD).
  split; [|split; [exact GZ|]].
  - (* inputs *)
    intros col r Hc Hr Hng. set (q0 := m * col + r) in *. assert (Hq0 : q0 < m * g_inc x) by (unfold q0; nia).
    destruct (setn_moves q0 B ltac:(rewrite HB; exact Hq0)) as (M1 & M2 & M3).
    set (t0 := nth q0 B 0%R) in *.
    assert (DB : dpath t0 (m * g_inc x) (fun t => setn q0 t B) (fun q => if Nat.eqb q q0 then 1%R else 0%R)).
    { split; [intros t; rewrite M2; exact HB|]. intros q Hq. apply M3. rewrite HB. exact Hq. }
    assert (GC : forall t i r', i < k -> r' < m -> gate m (setn q0 t B) x i r' = gate m B x i r').
    { intros t i r' Hi Hr'. unfold gate. f_equal. rewrite setn_nth_neq; [reflexivity|rewrite HB; exact Hq0|]. unfold q0. intros Eq.
      assert (col = g_gofs x + i) by nia. apply Hng. unfold within. lia. }
    assert (GCs : forall t, gates m (setn q0 t B) x = Gt).
    { intros t. unfold Gt, gates. unfold table. apply map_ext_in. intros q Hq. apply in_seq in Hq. fold k in Hq.
      apply GC; [apply Nat.div_lt_upper_bound; lia|apply Nat.mod_upper_bound; lia]. }
    assert (LIV' : live t0 m Gt (fun t => setn q0 t B) 0 (g_lay x1)).
    { specialize (LIV t0). clear -LIV M1. revert LIV. generalize 0 as i. induction (g_lay x1) as [|[[o c] l] ls IH]; intros i; [auto|]. cbn [live]. rewrite M1. intros [H1 H2]. auto. }
    destruct (gvals_adjoint (fun _ _ W => W) (fun _ _ => 0%R) t0 gw m (g_inc x) Gt D (fun t => setn q0 t B) _ k LG Hm DB (g_lay x1) 0 g0 Wok1) as (dA & A1 & A2).
    { apply Forall_forall. intros q _. apply (proj1 (path_const t0)). }
    { rewrite (lsame_length _ _ HL). reflexivity. }
    { exact LIV'. }
    { exact LD. }
    rewrite lsum_zero, Rplus_0_l in A2.
    eapply d_eq.
    + apply (d_ext (fun t => (bs (m * g0) (fun q => nth q D 0 * nth q (ghead (g_add x) Gt) 0) +
        bs (m * lneurons (g_lay x1)) (fun q => nth (m * g0 + q) D 0 * nth q (gvals m Gt (setn q0 t B) 0 (g_lay x1)) 0))%R)).
      * intros t. rewrite weighed_eq; [|exact Wok|rewrite M2; exact HB|].
        -- rewrite GCs, (gvals_same _ _ _ _ _ HL), (lsame_neurons _ _ HL). reflexivity.
        -- intros i r' Hi Hr'. rewrite GC by assumption. apply Hb; assumption.
      * apply d_plus; [apply d_const|]. apply (d_bs _ (fun t q => (nth (m * g0 + q) D 0 * nth q (gvals m Gt (setn q0 t B) 0 (g_lay x1)) 0)%R)). intros q Hq.
        eapply d_eq; [apply (d_mult (fun _ => nth (m * g0 + q) D 0%R) (fun t => nth q (gvals m Gt (setn q0 t B) 0 (g_lay x1)) 0%R)); [apply d_const|]|].
        -- apply (d_ext (fun t => nth q (gvals m Gt (setn q0 t B) 0 (lw (fun _ _ W => W) t (g_lay x1))) 0%R)); [intros t; rewrite lw_id; reflexivity|]. exact (proj2 A1 q Hq).
        -- cbv beta. rewrite Rmult_0_l, Rplus_0_l. reflexivity.
    + rewrite Rplus_0_l, A2. 
      assert (LINe : lin t0 gw m Gt D (fun t => setn q0 t B) (fun q => if Nat.eqb q q0 then 1%R else 0%R) 0 g0 (g_lay x1) =
        sumR (map (fun col => bs m (fun r => nth (m * col + r) (b_d e2) 0 * (if Nat.eqb (m * col + r) q0 then 1 else 0))%R) (spans (g_lay x1)))).
      { symmetry. apply (lin_backs t0 gw m (g_inc x) Gt D (fun t => setn q0 t B) (fun q => if Nat.eqb q q0 then 1%R else 0%R) (b_d e2) E HE); [exact Wok1| |].
        - rewrite (spans_same _ _ HL). apply NoDup_remove_app in ND. exact ND.
        - intros c' r' Hc' Hr'. rewrite M1. fold bk. rewrite Bd. rewrite (spans_same _ _ HL) in Hc'.
          assert (Hin : In c' (seq 0 (g_inc x))) by (apply (Permutation_in _ (Permutation_sym PM)), in_or_app; right; exact Hc').
          apply in_seq in Hin.
          assert (Ho : ~ In c' (seq (g_gofs x) k)) by (intros H; apply (NoDup_app_disj _ _ ND c' H Hc')).
          apply nth_overwrite_out; [rewrite Lz, Lbk; nia|]. rewrite Lz.
          destruct (Nat.lt_ge_cases c' (g_gofs x)) as [H|H]; [left; nia|right].
          assert (g_gofs x + k <= c') by (destruct (Nat.lt_ge_cases c' (g_gofs x + k)) as [H'|H']; [exfalso; apply Ho, in_seq; lia|exact H']). nia. }
      rewrite LINe. rewrite (spans_same _ _ HL).
      set (FF := fun col0 => bs m (fun r0 => (nth (m * col0 + r0) (b_d e2) 0 * (if Nat.eqb (m * col0 + r0) q0 then 1 else 0))%R)).
      assert (Z0 : sumR (map FF (seq (g_gofs x) k)) = 0%R).
      { assert (G : forall n s, g_gofs x <= s -> s + n <= g_gofs x + k -> sumR (map FF (seq s n)) = 0%R).
        { induction n as [|n IHn]; intros s Hs1 Hs2; [reflexivity|]. cbn [seq map]. unfold sumR. cbn [fold_right]. fold (sumR (map FF (seq (Datatypes.S s) n))).
          rewrite IHn by lia. unfold FF at 1. rewrite bs_0; [ring|]. intros r' Hr'. replace s with (g_gofs x + (s - g_gofs x)) by lia. rewrite GZ by lia. ring. }
        apply G; lia. }
      transitivity (sumR (map FF (seq 0 (g_inc x)))).
      { rewrite (sumR_perm _ _ (Permutation_map FF PM)), map_app, sumR_app, Z0. ring. }
      rewrite bs_sumR. unfold FF.
      rewrite (bs_ext _ _ (fun c0 => if Nat.eqb c0 col then nth q0 (b_d e2) 0%R else 0%R)).
      * rewrite (bs_single (g_inc x) col (fun _ => nth q0 (b_d e2) 0%R)) by exact Hc. reflexivity.
      * intros c0 Hc0. destruct (Nat.eqb_spec c0 col) as [->|Hne].
        -- rewrite (bs_ext _ _ (fun r0 => if Nat.eqb r0 r then nth q0 (b_d e2) 0%R else 0%R)); [apply (bs_single m r (fun _ => nth q0 (b_d e2) 0%R)); exact Hr|].
           intros r0 Hr0. unfold q0. destruct (Nat.eqb_spec (m * col + r0) (m * col + r)) as [He|He]; destruct (Nat.eqb_spec r0 r) as [Hf|Hf]; try lia; [rewrite He; ring|ring].
        -- apply bs_0. intros r0 Hr0. destruct (Nat.eqb_spec (m * c0 + r0) q0) as [He|He]; [exfalso; unfold q0 in He; apply Hne; nia|ring].
  - (* weights *)
    intros i o c l Hi. assert (Hik : i < k) by (apply nth_error_Some; rewrite Hi; discriminate).
    assert (Hi1 : exists l1, nth_error (g_lay x1) i = Some (o, c, l1) /\ same l l1).
    { clear -HL Hi. revert i Hi. induction HL as [|q q' ls ls' [H1 H2] _ IH]; intros [|i] Hi; try discriminate; [|exact (IH i Hi)].
      cbn [nth_error] in *. injection Hi as ->. destruct q' as [p l1]. cbn [fst snd] in *. subst p. exists l1. split; [reflexivity|exact H2]. }
    destruct Hi1 as (l1 & Hl1 & Hsl). destruct (backed_nth gw m Gt B D _ _ 0 g0 i o c l1 Bk Hl1) as (l2 & Hl2 & Hb2).
    exists l2. split; [exact Hl2|]. cbn [Nat.add] in Hb2.
    assert (Wf1 : wf l1). { apply nth_error_In in Hl1. rewrite Forall_forall in Wok1. apply (Wok1 _ Hl1). }
    intros id kk Wt HW.
    assert (Hop : length (opened m B x i) = nopen m Gt i) by (rewrite opened_eq by exact Hik; reflexivity).
    assert (HW1 : In (id, kk, Wt) (fcs 1 l1)) by (rewrite (proj1 fcs_same _ _ Hsl); exact HW).
    assert (EF1 : lfcs (g_lay x1) = lfcs (g_lay x)).
    { clear -HL. induction HL as [|q q' ls ls' [H1 H2] _ IH]; [reflexivity|]. unfold lfcs in *. cbn [flat_map]. rewrite IH, (proj1 fcs_same _ _ H2). reflexivity. }
    assert (Wfs : Forall (fun q : glay => wf (snd q)) (g_lay x1)) by (apply (Forall_impl _ (fun q Hq => proj1 Hq) Wok1)).
    assert (DER : forall j, j < length Wt ->
      is_derive (fun v => weighed m D B (gset id j v x)) (nth j Wt 0%R) (lsum (done id j) (nth j Wt 0%R) gw m Gt D (fun _ => B) 0 g0 (g_lay x1))).
    { intros j Hj. set (t0 := nth j Wt 0%R).
      assert (DB : dpath t0 (m * g_inc x) (fun _ : R => B) (fun _ => 0%R)) by (split; [intros; exact HB|intros; apply d_const]).
      assert (HP : forall ls', lfcs ls' = lfcs (g_lay x) -> Forall (fun q : glay => path (one id j) (done id j) t0 (snd q)) ls').
      { intros ls' El. apply Forall_forall. intros q Hq. apply (proj1 (path_of (one id j) (done id j) t0) (snd q) 1).
        intros i0 k0 W0 H0. apply one_moves; [|exact Hj]. intros ->.
        assert (In (id, k0, W0) (lfcs (g_lay x))) by (rewrite <- El; apply in_flat_map; exists q; auto).
        assert (In (id, kk, Wt) (lfcs (g_lay x))) by (apply in_flat_map; exists (o, c, l); split; [apply nth_error_In in Hi; exact Hi|exact HW]).
        destruct (nodup_fid _ _ _ _ _ _ HN H1 H) as [_ ->]. reflexivity. }
      destruct (gvals_adjoint (one id j) (done id j) t0 gw m (g_inc x) Gt D (fun _ => B) (fun _ => 0%R) k LG Hm DB (g_lay x1) 0 g0 Wok1 (HP _ EF1)) as (dA & A1 & A2).
      { rewrite (lsame_length _ _ HL). reflexivity. }
      { apply LIV. }
      { exact LD. }
      rewrite lin_zero, Rplus_0_r in A2.
      eapply d_eq.
      + apply (d_ext (fun t => (bs (m * g0) (fun q => nth q D 0 * nth q (ghead (g_add x) Gt) 0) +
          bs (m * lneurons (g_lay x1)) (fun q => nth (m * g0 + q) D 0 * nth q (gvals m Gt B 0 (lw (one id j) t (g_lay x1))) 0))%R)).
        * intros t.
          assert (SS : same_shape x (gset id j t x)) by (unfold same_shape; cbn [gset g_inc g_gofs g_bin g_add g_lay]; rewrite map_length; auto).
          rewrite weighed_eq; [| |exact HB|apply (binary_shape m B x); assumption].
          -- rewrite (gates_shape m B x _ SS). cbn [gset g_lay g_add]. rewrite map_length. fold k. fold g0. fold Gt.
             change (map _ (g_lay x)) with (lw (one id j) t (g_lay x)).
             rewrite lw_neurons, (gvals_same _ _ _ _ _ (lw_same (one id j) t _ _ HL)), (lsame_neurons _ _ HL). reflexivity.
          -- cbn [gset g_lay g_inc]. change (map _ (g_lay x)) with (lw (one id j) t (g_lay x)).
             pose proof (HP (g_lay x) eq_refl) as HPx. clear -HPx Wok. induction HPx as [|q ls Hq Hls IHp]; [constructor|].
             inversion Wok as [|? ? (V1 & V2 & V3) V4]; subst. constructor; [|apply IHp; exact V4].
             split; [|split]; cbn [fst snd]; [|rewrite (proj1 (with_w_incoming _)); exact V2|exact V3].
             apply (proj1 (with_w_wf (one id j) (done id j) t0 t)); assumption.
        * apply d_plus; [apply d_const|]. apply (d_bs _ (fun t q => (nth (m * g0 + q) D 0 * nth q (gvals m Gt B 0 (lw (one id j) t (g_lay x1))) 0)%R)). intros q Hq.
          eapply d_eq; [apply (d_mult (fun _ => nth (m * g0 + q) D 0%R) (fun t => nth q (gvals m Gt B 0 (lw (one id j) t (g_lay x1))) 0%R)); [apply d_const|exact (proj2 A1 q Hq)]|].
          cbv beta. rewrite Rmult_0_l, Rplus_0_l. reflexivity.
      + rewrite Rplus_0_l. exact A2. }
    split.
    + intros Ho. assert (Hp : 0 < nopen m Gt i) by (rewrite <- Hop; destruct (opened m B x i); [congruence|cbn; lia]).
      rewrite (proj2 (Nat.ltb_lt _ _) Hp) in Hb2.
      set (dn := down gw m Gt B D i (g0 + lneurons (firstn i (g_lay x1))) o c l1) in *.
      assert (TG : In (tagged (id, kk, Wt)) (map tagged (grads 1 (fst dn)))) by (unfold dn, down; rewrite (proj1 (grads_fcs gw)) by exact Wf1; apply in_map; exact HW1).
      apply in_map_iff in TG. destruct TG as ([[id' k'] G] & T1 & HGi). unfold tagged in T1. cbn [fst snd] in T1. injection T1 as -> -> LGj.
      exists G. split; [rewrite <- (proj1 grads_bare l2), Hb2, (proj1 grads_bare); exact HGi|]. split; [exact LGj|].
      intros j Hj. eapply d_eq; [apply DER; exact Hj|].
      rewrite Hop. apply (lsum_one gw m Gt D (fun _ => B) (nth j Wt 0%R) id j kk Wt G (g_lay x1) i o c l1 Wfs); try assumption. rewrite EF1. exact HN.
    + intros Ho. assert (Hp : nopen m Gt i = 0) by (rewrite <- Hop, Ho; reflexivity). rewrite Hp in Hb2. cbn [Nat.ltb Nat.leb] in Hb2. subst l2.
      split; [exact HW1|]. intros j Hj. eapply d_eq; [apply DER; exact Hj|].
      set (dn := down gw m Gt B D i (g0 + lneurons (firstn i (g_lay x1))) o c l1).
      assert (TG : In (tagged (id, kk, Wt)) (map tagged (grads 1 (fst dn)))) by (unfold dn, down; rewrite (proj1 (grads_fcs gw)) by exact Wf1; apply in_map; exact HW1).
      apply in_map_iff in TG. destruct TG as ([[id' k'] G] & T1 & HGi). unfold tagged in T1. cbn [fst snd] in T1. injection T1 as -> -> LGj.
      rewrite (lsum_one gw m Gt D (fun _ => B) (nth j Wt 0%R) id j kk Wt G (g_lay x1) i o c l1 Wfs); try assumption; [|rewrite EF1; exact HN].
      cbn [Nat.add]. rewrite Hp. cbn [INR]. ring.
Qed.
