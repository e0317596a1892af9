(** Property theorems: C89. *)
From Coq Require Import Reals Lra Bool.
From Coquelicot Require Import Coquelicot.
From Verif Require Import Base BaseLemmas Workers_Model Kern_Model Act_Model Act_Spec Act_Proofs Loss_Proofs Net_Model Net_Spec Net_Proofs Net_Proofs5 Net_Props
  La_Model La_Spec Drop_Model Drop_Spec Pen_Spec Do_Model Do_Spec Do_Proofs3.
Local Open Scope nat_scope.

(** ** C89: dropout at the level of the network.  In training mode the output layer sees
    the thinned network. *)
Theorem C89_forward : forall th thd pool t m M B i x,
  net_wf i (dstrip x) -> Forall (drop_ready M) (d_hid x) -> length B = m * i -> 0 < m -> m <= M ->
  dwell_penalised t m (biased m B) x ->
  dnet_fprop th thd pool t true m (biased m B) x (fun x1 =>
    exists L, levels m (biased m B) (d_hid x) = Some L /\
      net_fprop m (seen m (biased m B) (d_hid x) L) (out_only x) = Some (out_only x1)).
Proof. intros th thd pool t. exact (dnet_forward th thd pool t). Qed.
Print Assumptions C89_forward.

(** What back-propagation leaves are the derivatives of the mean of losses of the
    thinned network, for the random numbers of the forward propagation, and of the
    penalties of the activations before dropout. *)
Theorem C89_gradient : forall th thd thm pool t gw gwo m M B i Y x,
  (forall id, gw_ok (gw id)) -> net_wf i (dstrip x) -> net_inited M (dstrip x) -> room m M (dstrip x) -> untiled (dstrip x) ->
  Forall (drop_ready M) (d_hid x) -> NoDup (map fid (nfcs (dstrip x))) ->
  length B = m * i -> length Y = m * d_n x -> 0 < m <= M -> dnet_smooth m (biased m B) Y x -> dwell_penalised t m (biased m B) x ->
  dnet_fprop th thd pool t true m (biased m B) x (fun x1 => dnet_bprop th thm pool t gw gwo m (biased m B) Y x1 (fun x2 =>
    length (d_G x2) = length (d_W x) /\
    (forall j, j < length (d_W x) ->
      is_derive (fun v => dobjective m (biased m B) Y (dset_out j v x)) (nth j (d_W x) 0%R) (nth j (d_G x2) 0%R)) /\
    (forall id k W, In (id, k, W) (nfcs (dstrip x)) -> exists G, In (id, k, G) (ngrads (dstrip x2)) /\ length G = length W /\ forall j, j < length W ->
      is_derive (fun v => dobjective m (biased m B) Y (dset_hid id j v x)) (nth j W 0%R) (nth j G 0%R)))).
Proof.
  intros th thd thm pool t gw gwo m M B i Y x H1 H2 H3 H4 HU H5 H6 H7 H8 [H9 H10] H11 H12.
  apply (dnet_gradient_P th thd thm pool t gw gwo m M B i Y x); try assumption.
  intros x2 E1 E2 E3. split; [exact E1|]. split; [exact E2|]. intros id k W HW. destruct (E3 id k W HW) as (G & G1 & G2 & G3).
  exists G. split; [exact G1|]. split; [exact G2|]. intros j Hj. specialize (G3 j Hj). pose proof (HU id k W HW) as ->. simpl INR in G3.
  eapply d_eq; [exact G3|ring].
Qed.
Print Assumptions C89_gradient.

(** In evaluation mode dropout changes nothing. *)
Theorem C89_evaluation : forall th thd pool t m B i x, net_wf i (dstrip x) -> length B = m * i ->
  dnet_fprop th thd pool t false m (biased m B) x (fun x1 => net_fprop m (biased m B) (dstrip x) = Some (dstrip x1) /\
    map h_las (d_hid x1) = map h_las (d_hid x) /\ map h_do (d_hid x1) = map h_do (d_hid x)).
Proof. intros th thd pool t. exact (dnet_eval th thd pool t). Qed.
Print Assumptions C89_evaluation.

(** One neuron with weight 1 and penalty, two samples, half of the activations kept:
    that of the first sample is doubled, that of the second dropped *)
Definition ex_do : dnet :=
  mkDN [mkH (LFC 0 Identity 1 1 [1; 0]%R [] []) [mkA KL2 1%R false false []]
          (Some (mkDS Classic (1/2) [1/4; 3/4] [9; 9] [9; 9])%R)] IdQuad 1 1 [1; 0]%R [] [] (repeat 0%R 2, repeat 0%R 2).
Lemma half_small : (1/2 < 1)%R. Proof. lra. Qed.
Lemma ex_do_levels : levels 2 (biased 2 [1; 1]%R) (d_hid ex_do) = Some [[1 * (1 * 1 + (1 * 0 + 0)); 1 * (1 * 1 + (1 * 0 + 0))]%R].
Proof. reflexivity. Qed.
Example C89_ex : (forall id : nat, gw_ok ((fun _ => keep) id)) /\ net_wf 1 (dstrip ex_do) /\ net_inited 2 (dstrip ex_do) /\ room 2 2 (dstrip ex_do) /\
  untiled (dstrip ex_do) /\ Forall (drop_ready 2) (d_hid ex_do) /\ NoDup (map fid (nfcs (dstrip ex_do))) /\
  dnet_smooth 2 (biased 2 [1; 1]%R) [0; 0]%R ex_do /\ dwell_penalised (mkT [] [] []) 2 (biased 2 [1; 1]%R) ex_do /\
  thin (h_do (hd (mkH (LI 0 []) [] None) (d_hid ex_do))) [1; 1]%R = [2; 0]%R.
Proof.
  split; [intros id; split; reflexivity|]. split; [unfold net_wf; simpl; repeat split; auto; lia|]. split; [simpl; repeat split|]. split; [unfold room; simpl; auto|].
  split. { intros id k W0. simpl. intros [H|[]]. congruence. }
  split. { constructor; [|constructor]. cbn. split; [lra|]. split; [discriminate|]. split; reflexivity. }
  split. { simpl. repeat constructor; simpl; intuition discriminate. }
  split.
  { split.
    - cbn [levels_smooth d_hid ex_do]. split; [exact I|]. exists []. split; [reflexivity|]. cbn [smooth_at h_l]. intros r c _ _. exists 1%R.
      apply (is_derive_ext (fun v : R => v)); [reflexivity|exact (@is_derive_id R_AbsRing _)].
    - eexists. split; [exact ex_do_levels|]. eexists. split; [reflexivity|]. intros r c _ _. exact I. }
  split.
  { eexists. split; [exact ex_do_levels|]. intros h A a [E|[]] Ha _. injection E as <- <-. destruct Ha as [<-|[]].
    cbn. repeat split; try lia; try discriminate. }
  cbn. destruct (Rlt_dec (1/2) 1) as [_|N]; [|exfalso; exact (N half_small)]. unfold dropped.
  destruct (Rlt_dec (1/4) (1/2)); [|lra]. destruct (Rlt_dec (3/4) (1/2)); [lra|]. repeat f_equal. lra.
Qed.
