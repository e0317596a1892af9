(** Property theorem: C88. *)
From Coq Require Import Reals Lra Bool.
From Coquelicot Require Import Coquelicot.
From Verif Require Import Base BaseLemmas Workers_Model Kern_Model Act_Model Act_Spec Act_Proofs Loss_Proofs Net_Model Net_Spec Net_Proofs Net_Proofs5 Net_Props
  La_Model La_Spec Pen_Model Pen_Spec Pen_Proofs2.
Local Open Scope nat_scope.

(** ** C88: with penalties of activations, what back-propagation leaves are the
    derivatives of the mean over the batch of losses and penalties; what is reported
    adds the penalties undivided, as [calcLossAddendum] computes them. *)
Theorem C88_gradient_partial : forall th pool t gw gwo m M B i Y x,
  (forall id, gw_ok (gw id)) -> net_wf i (strip x) -> net_inited M (strip x) -> room m M (strip x) -> untiled (strip x) -> NoDup (map fid (nfcs (strip x))) ->
  length B = m * i -> length Y = m * p_n x -> 0 < m <= M -> net_smooth m (biased m B) Y (strip x) ->
  well_penalised t m (biased m B) x ->
  pnet_fprop th pool t m (biased m B) x (fun x1 =>
    calcLossAddendum th pool t m (p_hid x1) (fun v => mean_loss m (biased m B) Y (strip x) + v = reported m (biased m B) Y x)%R /\
    pnet_bprop th pool t gw gwo m (biased m B) Y x1 (fun x2 =>
      length (p_G x2) = length (p_W x) /\
      (forall j, j < length (p_W x) ->
        is_derive (fun v => objective m (biased m B) Y (pset_out j v x)) (nth j (p_W x) 0%R) (nth j (p_G x2) 0%R)) /\
      (forall id k W, In (id, k, W) (nfcs (strip x)) -> exists G, In (id, k, G) (ngrads (strip x2)) /\ length G = length W /\ forall j, j < length W ->
        is_derive (fun v => objective m (biased m B) Y (pset_hid id j v x)) (nth j W 0%R) (nth j G 0%R)))).
Proof. exact pnet_gradient_untiled. Qed.
Print Assumptions C88_gradient_partial.

(** One neuron with weight 1, two samples 1 and 1, half the sum of squares as penalty *)
Definition ex_pen : pnet :=
  mkPN [(LFC 0 Identity 1 1 [1; 0]%R [] [], [mkA KL2 1%R false false []])] IdQuad 1 1 [1; 0]%R [] [] (repeat 0%R 2, repeat 0%R 2).
Definition ex_pt : tmem := mkT [] [] [].
Lemma ex_pen_ok : net_wf 1 (strip ex_pen) /\ net_inited 2 (strip ex_pen) /\ room 2 2 (strip ex_pen) /\ untiled (strip ex_pen) /\ NoDup (map fid (nfcs (strip ex_pen))) /\
  (forall B Y, length B = 2 -> net_smooth 2 (biased 2 B) Y (strip ex_pen)) /\ well_penalised ex_pt 2 (biased 2 [1; 1]%R) ex_pen.
Proof.
  assert (W : net_wf 1 (strip ex_pen)) by (unfold net_wf; simpl; repeat split; auto; lia).
  split; [exact W|]. split; [simpl; repeat split|]. split; [unfold room; simpl; auto|]. split; [|split; [|split]].
  - intros id k W0. simpl. intros [H|[]]. congruence.
  - simpl. repeat constructor; simpl; intuition discriminate.
  - intros B Y HB. apply (net_smooth_all 2 B 1); [exact W|exact HB|simpl; auto|]. intros; exact I.
  - intros las l a Hin Ha Hs. cbn in Hin. destruct Hin as [E|[]]. injection E as <- <-. destruct Ha as [<-|[]].
    cbn. repeat split; try lia; try discriminate.
Qed.
Example C88_gradient_partial_ex : (forall id : nat, gw_ok ((fun _ => keep) id)) /\ net_wf 1 (strip ex_pen) /\ net_inited 2 (strip ex_pen) /\ room 2 2 (strip ex_pen) /\
  untiled (strip ex_pen) /\ NoDup (map fid (nfcs (strip ex_pen))) /\
  (forall B Y, length B = 2 -> net_smooth 2 (biased 2 B) Y (strip ex_pen)) /\ well_penalised ex_pt 2 (biased 2 [1; 1]%R) ex_pen.
Proof. split; [intros id; split; reflexivity|exact ex_pen_ok]. Qed.

Lemma ex_pen_value v : penalties 2 (biased 2 [1; 1]%R) (pset_hid 0 0 v ex_pen) = (v * v)%R.
Proof. cbv -[Rplus Rmult Ropp Rinv Rdiv Rminus IZR]. field. Qed.

(** The derivative of the reported loss is another one. *)
Theorem C88_gradient_refuted : exists i m B Y x t,
  net_wf i (strip x) /\ net_inited m (strip x) /\ room m m (strip x) /\ untiled (strip x) /\ NoDup (map fid (nfcs (strip x))) /\
  length B = m * i /\ length Y = m * p_n x /\ 0 < m /\ net_smooth m (biased m B) Y (strip x) /\ well_penalised t m (biased m B) x /\
  forall th pool,
  pnet_fprop th pool t m (biased m B) x (fun x1 => pnet_bprop th pool t (fun _ => keep) keep m (biased m B) Y x1 (fun x2 =>
    exists id k W G j, In (id, k, W) (nfcs (strip x)) /\ In (id, k, G) (ngrads (strip x2)) /\ j < length W /\
      ~ is_derive (fun v => reported m (biased m B) Y (pset_hid id j v x)) (nth j W 0%R) (nth j G 0%R))).
Proof.
  destruct ex_pen_ok as (H1 & H2 & H3 & H4 & H5 & H6 & H7).
  exists 1, 2, [1; 1]%R, [0; 0]%R, ex_pen, ex_pt. do 5 (split; [assumption|]). split; [reflexivity|]. split; [reflexivity|]. split; [lia|].
  split; [apply H6; reflexivity|]. split; [exact H7|]. intros th pool.
  apply (pnet_fprop_bprop th pool ex_pt (fun _ => keep) keep 2 2 [1; 1]%R 1 [0; 0]%R ex_pen); auto.
  - intros; split; reflexivity.
  - intros x2 _ _ K. destruct (K 0 1 [1; 0]%R) as (G & I1 & I2 & I3); [left; reflexivity|].
    exists 0, 1, [1; 0]%R, G, 0. split; [left; reflexivity|]. split; [exact I1|]. split; [cbn; lia|].
    intros D. specialize (I3 0 ltac:(cbn; lia)). cbn [nth] in *.
    assert (T : is_derive (fun v => reported 2 (biased 2 [1; 1]%R) [0; 0]%R (pset_hid 0 0 v ex_pen)) 1%R (INR 1 * nth 0 G 0 + 1)%R).
    { apply (d_ext (fun v => objective 2 (biased 2 [1; 1]%R) [0; 0]%R (pset_hid 0 0 v ex_pen) + / 2 * (v * v))%R).
      - intros v. unfold reported, objective. rewrite ex_pen_value. simpl INR. field.
      - apply d_plus; [exact I3|]. auto_derive; [exact I|field]. }
    apply is_derive_unique in D. apply is_derive_unique in T. simpl INR in T. lra.
Qed.
Print Assumptions C88_gradient_refuted.
