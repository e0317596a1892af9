(** C90, C91: packs of layers that work on some of the samples. *)
From Coq Require Import Reals Lra.
From Coquelicot Require Import Coquelicot.
From Verif Require Import Base Act_Model Act_Spec Act_Proofs Net_Model Net_Spec Net_Proofs5 Net_Props Gp_Model Gp_Spec Gp_Proofs3 Gp_Proofs6.
Local Open Scope nat_scope.

(** ** C90: the activations are the gates, their complements if asked for, and the
    activations of every layer where its gate is open, zeros elsewhere; the storage
    shared by the inner layers is never left, although their bias columns overlap *)
Theorem C90_forward : forall m M B x, g_wf x -> g_inited M x -> binary m B x -> length B = m * g_inc x -> m <= M ->
  exists x', g_fprop m (biased m B) x = Some x' /\ g_A x' = pack_acts m B x /\ g_wf x' /\ g_inited M x'.
Proof. exact pack_forward. Qed.
Print Assumptions C90_forward.

(** Two gated layers, one for each of the inputs left; the first is shown the first
    sample, the second none *)
Definition ex_gp : gpack :=
  mkGP 4 1 None true [(0, 1, LFC 0 Identity 1 2 [1; 2; 3; 4]%R [] []); (3, 1, LFC 1 Identity 1 1 [1; 2]%R [] [])]
    [] (repeat 0%R 9) [] 3 (repeat 0%R 6) (repeat 0%R 6).
Definition ex_gpB : list R := [5; 6;  1; 0;  0; 0;  7; 8]%R.
Lemma ex_gp_wf : g_wf ex_gp.
Proof.
  unfold g_wf, ex_gp. cbn [g_lay g_inc g_gofs length]. split; [repeat constructor; cbn; lia|]. split; [lia|]. split; [discriminate|].
  intros col Hc. unfold within. destruct (Nat.eq_dec col 0) as [->|H0]; [right; eexists; split; [left; reflexivity|cbn; lia]|].
  destruct (Nat.eq_dec col 3) as [->|H3]; [right; eexists; split; [right; left; reflexivity|cbn; lia]|left; lia].
Qed.
Lemma ex_gp_inited : g_inited 3 ex_gp.
Proof. unfold g_inited. cbn. repeat split; repeat constructor. Qed.
Lemma ex_gp_binary : binary 2 ex_gpB ex_gp.
Proof. intros i r Hi Hr. cbn in Hi. destruct i as [|[|i]]; [| |lia]; (destruct r as [|[|r]]; [| |lia]); cbn; auto. Qed.
Example C90_ex : g_wf ex_gp /\ g_inited 3 ex_gp /\ binary 2 ex_gpB ex_gp /\ length ex_gpB = 2 * g_inc ex_gp /\
  pack_acts 2 ex_gpB ex_gp = [1; 0;  0; 0;  0; 1;  1; 1;  8; 0;  14; 0;  0; 0]%R.
Proof.
  split; [exact ex_gp_wf|]. split; [exact ex_gp_inited|]. split; [exact ex_gp_binary|]. split; [reflexivity|].
  cbv -[Rplus Rmult Ropp Rminus IZR]. repeat (apply f_equal2; [ring|]). reflexivity.
Qed.

(** ** C91: gradients.  What is handed down is the derivative for every input that is
    not a gate and 0 for the gates.  The gradients of the weights of an inner layer are
    the derivative divided by the number of samples it was shown, not by the size of the
    batch; a layer that was shown none is left as it was. *)
Theorem C91_gradient_partial : forall gw m M B x D E, (forall id, gw_ok (gw id)) -> g_wf x -> g_inited M x -> binary m B x ->
  length B = m * g_inc x -> 0 < m -> m <= M -> NoDup (map fid (lfcs (g_lay x))) -> g_smooth m B x ->
  m * g_neurons x <= length D -> m * g_inc x <= length E ->
  exists x1 x2 e2, g_fprop m (biased m B) x = Some x1 /\
    g_bprop gw m true (mkB m (g_neurons x) D) (mkB m (g_inc x) E) x1 = Some (x2, mkB m (g_neurons x) D, e2, true) /\
    shaped m (g_inc x) e2 = true /\ g_inited M x2 /\ g_wf x2 /\
    (forall col r, col < g_inc x -> r < m -> ~ within col (g_gofs x) (length (g_lay x)) ->
      is_derive (fun v => weighed m D (setn (m * col + r) v B) x) (nth (m * col + r) B 0%R) (nth (m * col + r) (b_d e2) 0%R)) /\
    (forall i r, i < length (g_lay x) -> r < m -> nth (m * (g_gofs x + i) + r) (b_d e2) 0%R = 0%R) /\
    (forall i o c l, nth_error (g_lay x) i = Some (o, c, l) -> exists l2, nth_error (g_lay x2) i = Some (o, c, l2) /\
      forall id k W, In (id, k, W) (fcs 1 l) ->
        (opened m B x i <> [] -> exists G, In (id, k, G) (grads 1 l2) /\ length G = length W /\ forall j, j < length W ->
           is_derive (fun v => weighed m D B (gset id j v x)) (nth j W 0%R) (INR (length (opened m B x i)) * (INR k * nth j G 0))%R) /\
        (opened m B x i = [] -> In (id, k, W) (fcs 1 l2) /\ forall j, j < length W ->
           is_derive (fun v => weighed m D B (gset id j v x)) (nth j W 0%R) 0%R)).
Proof. exact pack_gradient. Qed.
Print Assumptions C91_gradient_partial.

Lemma ident_smooth z : ex_derive (act_f Identity) z.
Proof. exists 1%R. apply (is_derive_ext (fun v : R => v)); [reflexivity|exact (@is_derive_id R_AbsRing _)]. Qed.
Lemma ex_gp_smooth : g_smooth 2 ex_gpB ex_gp.
Proof.
  intros i q Hi _. destruct i as [|[|i]]; cbn in Hi; [| |destruct i; discriminate]; injection Hi as <-; cbn [smooth_at snd]; intros r c _ _; apply ident_smooth.
Qed.
Example C91_gradient_partial_ex : (forall id : nat, gw_ok ((fun _ => keep) id)) /\ g_wf ex_gp /\ g_inited 3 ex_gp /\ binary 2 ex_gpB ex_gp /\
  length ex_gpB = 2 * g_inc ex_gp /\ NoDup (map fid (lfcs (g_lay ex_gp))) /\ g_smooth 2 ex_gpB ex_gp /\ g_neurons ex_gp = 7.
Proof.
  split; [intros id; split; reflexivity|]. split; [exact ex_gp_wf|]. split; [exact ex_gp_inited|]. split; [exact ex_gp_binary|]. split; [reflexivity|].
  split; [cbn; repeat constructor; cbn; intuition discriminate|]. split; [exact ex_gp_smooth|reflexivity].
Qed.

(** the activation of the second neuron of the first layer for the first sample *)
Definition ex_gpD : list R := [0; 0;  0; 0;  0; 0;  0; 0;  0; 0;  1; 0;  0; 0]%R.
Lemma ex_gp_weighed v : weighed 2 ex_gpD ex_gpB (gset 0 1 v ex_gp) = (5 * v + 4)%R.
Proof. cbv -[Rplus Rmult Ropp Rminus IZR]. ring. Qed.
Lemma ex_gp_opened : opened 2 ex_gpB ex_gp 0 = [0].
Proof.
  unfold opened. cbn [seq filter].
  replace (gate 2 ex_gpB ex_gp 0 0) with 1%R by reflexivity. replace (gate 2 ex_gpB ex_gp 0 1) with 0%R by reflexivity.
  destruct (Req_EM_T 1 0); [lra|]. destruct (Req_EM_T 0 0); [reflexivity|congruence].
Qed.
(** A layer shown one of two samples gets twice the gradient it would get without gate *)
Theorem C91_gradient_refuted : exists m B D E x x1 x2 e2 o c l l2 id k W G j, (forall i : nat, gw_ok ((fun _ => keep) i)) /\ g_wf x /\ g_inited 3 x /\
  binary m B x /\ length B = m * g_inc x /\ NoDup (map fid (lfcs (g_lay x))) /\ g_smooth m B x /\ length D = m * g_neurons x /\ length E = m * g_inc x /\
  g_fprop m (biased m B) x = Some x1 /\
  g_bprop (fun _ => keep) m true (mkB m (g_neurons x) D) (mkB m (g_inc x) E) x1 = Some (x2, mkB m (g_neurons x) D, e2, true) /\
  nth_error (g_lay x) 0 = Some (o, c, l) /\ nth_error (g_lay x2) 0 = Some (o, c, l2) /\ In (id, k, W) (fcs 1 l) /\ In (id, k, G) (grads 1 l2) /\ j < length W /\
  ~ is_derive (fun v => weighed m D B (gset id j v x)) (nth j W 0%R) (INR m * (INR k * nth j G 0))%R.
Proof.
  destruct C91_gradient_partial_ex as (H1 & H2 & H3 & H4 & H5 & H6 & H7 & H8).
  destruct (C91_gradient_partial (fun _ => keep) 2 3 ex_gpB ex_gp ex_gpD (repeat 0%R 8) H1 H2 H3 H4 H5 ltac:(lia) ltac:(lia) H6 H7 ltac:(cbn; lia) ltac:(cbn; lia))
    as (x1 & x2 & e2 & F & Bp & _ & _ & _ & _ & _ & HW).
  destruct (HW 0 0 1 _ eq_refl) as (l2 & L2 & HG). destruct (HG 0 1 [1; 2; 3; 4]%R ltac:(left; reflexivity)) as [HG1 _].
  destruct HG1 as (G & G1 & G2 & G3); [rewrite ex_gp_opened; discriminate|].
  exists 2, ex_gpB, ex_gpD, (repeat 0%R 8), ex_gp, x1, x2, e2. do 4 eexists. exists 0, 1, [1; 2; 3; 4]%R, G, 1.
  do 7 (split; [assumption|]). split; [reflexivity|]. split; [reflexivity|]. split; [exact F|]. split; [exact Bp|].
  split; [reflexivity|]. split; [exact L2|]. split; [left; reflexivity|]. split; [exact G1|]. split; [cbn; lia|].
  intros HD. specialize (G3 1 ltac:(cbn; lia)). rewrite ex_gp_opened in G3. cbn [length nth] in G3, HD.
  assert (D5 : is_derive (fun v => weighed 2 ex_gpD ex_gpB (gset 0 1 v ex_gp)) 2%R 5%R).
  { apply (is_derive_ext (fun v => (5 * v + 4)%R)); [intros; symmetry; apply ex_gp_weighed|]. auto_derive; [exact I|ring]. }
  pose proof (is_derive_unique _ _ _ D5) as U5. pose proof (is_derive_unique _ _ _ G3) as U1. pose proof (is_derive_unique _ _ _ HD) as U2.
  rewrite U5 in U1, U2. simpl INR in U1, U2. lra.
Qed.
Print Assumptions C91_gradient_refuted.
