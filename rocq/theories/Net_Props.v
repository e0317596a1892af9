(** Theorems about back-propagation. *)
From Coq Require Import Reals Bool Lra.
From Coquelicot Require Import Coquelicot.
From Verif Require Import Base Act_Model Act_Spec Act_Proofs Loss_Proofs Net_Model Net_Spec Net_Proofs Net_Proofs5.
Local Open Scope nat_scope.

(** ** C33: dL/dW are the partial derivatives of the mean loss over the batch.
    [gw], [gwo]: what the optimizers do with weights and gradients. *)
Theorem C33_gradient gw gwo m M B i Y x :
  (forall id, gw_ok (gw id)) -> net_wf i x -> net_inited M x -> room m M x -> untiled x -> NoDup (map fid (nfcs x)) ->
  length B = m * i -> length Y = m * n_n x -> 0 < m <= M -> net_smooth m (biased m B) Y x ->
  exists x1 x2, net_fprop m (biased m B) x = Some x1 /\ net_bprop gw gwo m (biased m B) Y x1 = Some x2 /\
    length (n_G x2) = length (n_W x) /\
    (forall j, j < length (n_W x) ->
      is_derive (fun v => mean_loss m (biased m B) Y (set_out j v x)) (nth j (n_W x) 0%R) (nth j (n_G x2) 0%R)) /\
    (forall id k W, In (id, k, W) (nfcs x) -> exists G, In (id, k, G) (ngrads x2) /\ length G = length W /\
      forall j, j < length W -> is_derive (fun v => mean_loss m (biased m B) Y (set_hid id j v x)) (nth j W 0%R) (nth j G 0%R)).
Proof. exact (net_gradient_untiled gw gwo m M B i Y x). Qed.
Print Assumptions C33_gradient.

(** A pack of a fully connected and an identity layer over a fully connected one *)
Definition ex_net : net :=
  mkN (Some (SCons (LPH 2 (HCons 0 2 (LFC 1 (Elu 1000) 2 1 [1; -2; 3]%R [] []) (HCons 1 1 (LI 1 []) HNil)) [0; 0; 0; 0]%R [0; 0; 0; 0]%R)
     (SOne (LPV (SOne (LFC 2 Sigm 3 2 [1; 2; 3; 4; 5; 6; 7; 8]%R [] []))))))
    IdQuad 2 1 [1; 1; 0]%R [] [] (repeat 0%R 8, repeat 0%R 8).
Definition keep : list R -> list R -> list R * list R := fun W g => (W, g).
Example C33_gradient_ex :
  (forall id : nat, gw_ok ((fun _ => keep) id)) /\ net_wf 3 ex_net /\ net_inited 2 ex_net /\ room 2 2 ex_net /\ untiled ex_net /\
  NoDup (map fid (nfcs ex_net)) /\ (forall B Y, length B = 6 -> net_smooth 2 (biased 2 B) Y ex_net).
Proof.
  assert (W : net_wf 3 ex_net) by (unfold net_wf; simpl; repeat split; auto; lia).
  split; [intros id; split; reflexivity|]. split; [exact W|].
  split; [simpl; repeat split|]. split; [unfold room; simpl; auto|]. split; [|split].
  - intros id k W0. simpl. intros [H|[H|[]]]; congruence.
  - simpl. repeat constructor; simpl; intuition discriminate.
  - intros B Y HB. apply (net_smooth_all 2 B 3); [exact W|exact HB|simpl; auto|]. intros; exact I.
Qed.

(** ** C34: for a layer inside tiles, the derivative is the number of tiles times the
    dL/dW it is updated with. *)
Theorem C34_tiles_partial gw gwo m M B i Y x :
  (forall id, gw_ok (gw id)) -> net_wf i x -> net_inited M x -> room m M x -> NoDup (map fid (nfcs x)) ->
  length B = m * i -> length Y = m * n_n x -> 0 < m <= M -> net_smooth m (biased m B) Y x ->
  exists x1 x2, net_fprop m (biased m B) x = Some x1 /\ net_bprop gw gwo m (biased m B) Y x1 = Some x2 /\
    forall id k W, In (id, k, W) (nfcs x) -> exists G, In (id, k, G) (ngrads x2) /\ length G = length W /\
      forall j, j < length W ->
        is_derive (fun v => mean_loss m (biased m B) Y (set_hid id j v x)) (nth j W 0%R) (INR k * nth j G 0)%R.
Proof. exact (net_gradient_tiled gw gwo m M B i Y x). Qed.
Print Assumptions C34_tiles_partial.

(** Two tiles of one neuron *)
Definition ex_tile : net :=
  mkN (Some (SOne (LPT 2 (LFC 0 Identity 1 1 [1; 0]%R [] []) [] []))) IdQuad 2 1 [1; 1; 0]%R [] [] (repeat 0%R 2, repeat 0%R 2).
Lemma ex_tile_ok : net_wf 2 ex_tile /\ net_inited 1 ex_tile /\ room 1 1 ex_tile /\ NoDup (map fid (nfcs ex_tile)) /\
  (forall B Y, length B = 2 -> net_smooth 1 (biased 1 B) Y ex_tile).
Proof.
  assert (W : net_wf 2 ex_tile) by (unfold net_wf; simpl; repeat split; auto; lia).
  split; [exact W|]. split; [simpl; repeat split|]. split; [unfold room; simpl; auto|]. split.
  - simpl. repeat constructor; simpl; intuition discriminate.
  - intros B Y HB. apply (net_smooth_all 1 B 2); [exact W|exact HB|simpl; auto|]. intros; exact I.
Qed.
Example C34_tiles_partial_ex : (forall id : nat, gw_ok ((fun _ => keep) id)) /\ net_wf 2 ex_tile /\ net_inited 1 ex_tile /\ room 1 1 ex_tile /\
  NoDup (map fid (nfcs ex_tile)) /\ (forall B Y, length B = 2 -> net_smooth 1 (biased 1 B) Y ex_tile).
Proof. split; [intros id; split; reflexivity|exact ex_tile_ok]. Qed.

Lemma ex_tile_loss v : mean_loss 1 (biased 1 [1; 1]%R) [0]%R (set_hid 0 0 v ex_tile) = (2 * v * v)%R.
Proof.
  cbv -[Rplus Rmult Ropp Rinv Rdiv Rminus IZR]. field.
Qed.

Theorem C34_tiles_refuted : exists i m B Y x x1 x2 id k W G,
  net_wf i x /\ net_inited m x /\ room m m x /\ length B = m * i /\ length Y = m * n_n x /\ net_smooth m (biased m B) Y x /\
  net_fprop m (biased m B) x = Some x1 /\ net_bprop (fun _ => keep) keep m (biased m B) Y x1 = Some x2 /\
  In (id, k, W) (nfcs x) /\ In (id, k, G) (ngrads x2) /\
  ~ is_derive (fun v => mean_loss m (biased m B) Y (set_hid id 0 v x)) (nth 0 W 0%R) (nth 0 G 0%R).
Proof.
  destruct ex_tile_ok as (H1 & H2 & H3 & H4 & H5).
  destruct (net_gradient_tiled (fun _ => keep) keep 1 1 [1; 1]%R 2 [0]%R ex_tile) as (x1 & x2 & E1 & E2 & E3);
    auto; [intros; split; reflexivity|].
  destruct (E3 0 2 [1; 0]%R) as (G & I1 & I2 & I3); [left; reflexivity|].
  exists 2, 1, [1; 1]%R, [0]%R, ex_tile, x1, x2, 0, 2, [1; 0]%R, G.
  repeat (split; [solve [auto]|]). split; [left; reflexivity|]. split; [exact I1|].
  intros D. specialize (I3 0 ltac:(simpl; lia)). cbn [nth] in *.
  assert (T : is_derive (fun v => mean_loss 1 (biased 1 [1; 1]%R) [0]%R (set_hid 0 0 v ex_tile)) 1%R 4%R).
  { apply (d_ext (fun v => 2 * v * v)%R); [intros; symmetry; apply ex_tile_loss|]. auto_derive; [exact I|ring]. }
  apply is_derive_unique in D. apply is_derive_unique in I3. apply is_derive_unique in T. simpl INR in I3. lra.
Qed.
Print Assumptions C34_tiles_refuted.

(** ** C47: with the two buffers swapped or not by every layer, the hidden layers are
    left exactly as when every layer is handed the vector its upper neighbour returned. *)
Theorem C47_buffers gw gwo m M B i Y x x1 :
  (forall id, gw_ok (gw id)) -> net_wf i x -> net_inited M x -> room m M x ->
  length B = m * i -> length Y = m * n_n x -> 0 < m <= M ->
  net_fprop m (biased m B) x = Some x1 ->
  exists x2, net_bprop gw gwo m (biased m B) Y x1 = Some x2 /\
    option_map sbare (n_hid x2) = option_map sbare (net_pback gw m (biased m B) Y x1).
Proof. exact (net_bprop_chain gw gwo m M B i Y x x1). Qed.
Print Assumptions C47_buffers.
Example C47_buffers_ex : net_wf 3 ex_net /\ net_inited 2 ex_net /\ room 2 2 ex_net /\
  exists x1, net_fprop 2 (biased 2 (repeat 1%R 6)) ex_net = Some x1.
Proof.
  destruct C33_gradient_ex as (_ & H1 & H2 & H3 & _). split; [exact H1|]. split; [exact H2|]. split; [exact H3|].
  destruct (net_fprop_ok 2 (repeat 1%R 6) 3 ex_net H1 eq_refl) as (h & E & _). eexists. exact E.
Qed.

(** ** C76: the gradient buffers suffice *)
Theorem C76_sessions_partial M i steps x : net_wf i x -> net_inited M x -> room M M x -> Forall (step_ok M i (n_n x)) steps ->
  exists x', session steps x = Some x' /\ net_wf i x' /\ net_inited M x'.
Proof. exact (session_ok M i steps x). Qed.
Print Assumptions C76_sessions_partial.
Example C76_sessions_partial_ex : net_wf 3 ex_net /\ net_inited 2 ex_net /\ room 2 2 ex_net /\
  Forall (step_ok 2 3 (n_n ex_net)) [mkS (fun _ => keep) keep 2 (repeat 1%R 6) [0; 1]%R; mkS (fun _ => keep) keep 1 (repeat 2%R 3) [5]%R].
Proof.
  destruct C33_gradient_ex as (H0 & H1 & H2 & H3 & _). split; [exact H1|]. split; [exact H2|]. split; [exact H3|].
  repeat constructor; simpl; auto.
Qed.

(** ... and exactly then: *)
Theorem C76_room_partial gw gwo m M B i Y x x1 :
  (forall id, gw_ok (gw id)) -> net_wf i x -> net_inited M x -> length B = m * i -> length Y = m * n_n x -> 0 < m <= M ->
  net_fprop m (biased m B) x = Some x1 ->
  (net_bprop gw gwo m (biased m B) Y x1 <> None <-> room m M x).
Proof. exact (net_bprop_iff gw gwo m M B i Y x x1). Qed.
Print Assumptions C76_room_partial.
Example C76_room_partial_ex : net_wf 3 ex_net /\ net_inited 2 ex_net /\
  exists x1, net_fprop 2 (biased 2 (repeat 1%R 6)) ex_net = Some x1.
Proof. destruct C47_buffers_ex as (H1 & H2 & _ & H3). auto. Qed.

(** An identity layer directly on the input *)
Definition ex_id : net := mkN (Some (SOne (LI 2 []))) IdQuad 2 1 [1; 1; 0]%R [] [] ([0], [0])%R.
Theorem C76_buffers_refuted : exists i m B Y x x1, net_wf i x /\ net_inited m x /\ 0 < m /\ length B = m * i /\ length Y = m * n_n x /\
  net_fprop m (biased m B) x = Some x1 /\ forall gw gwo, net_bprop gw gwo m (biased m B) Y x1 = None.
Proof.
  assert (W : net_wf 2 ex_id) by (unfold net_wf; simpl; repeat split; auto; lia).
  destruct (net_fprop_ok 1 [3; 4]%R 2 ex_id W eq_refl) as (h & E & HH).
  exists 2, 1, [3; 4]%R, [5]%R, ex_id. eexists.
  split; [exact W|]. split; [simpl; repeat split|]. split; [lia|]. split; [reflexivity|]. split; [reflexivity|]. split; [exact E|].
  intros gw gwo. destruct h as [s'|]; [|contradiction]. destruct HH as [HH _]. destruct s' as [[]|]; try contradiction.
  simpl in HH. subst n. reflexivity.
Qed.
Print Assumptions C76_buffers_refuted.
