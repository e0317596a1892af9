(** One layer of a network: what is shown of it, what replacing its weights does. *)
From Coq Require Import Reals Lra Permutation.
From Verif Require Import Base BaseLemmas Act_Model Act_Spec Loss_Proofs Smx_Model Smx_Spec TData_Model TData_Spec
  Net_Model Net_Spec Net_Proofs Net_Proofs2 Net_Proofs3 Net_Proofs4 Net_Proofs5 Nrm_Model Nrm_Spec Nrm_Proofs
  Fit_Model Fit_Spec Fit_Proofs Fit_Proofs2 Lsu_Model Lsu_Spec Lsu_Proofs.
Local Open Scope nat_scope.

Definition nids (x : net) : list nat := map f_id (nfcl x).

(** ** Lists of layers *)
Definition twF (g : tweak) (F : fc) : fc := mkF (f_id F) (fst (g (f_id F) (f_act F) (f_W F))) (f_inc F) (f_n F) (snd (g (f_id F) (f_act F) (f_W F))) (f_A F).
Definition strip (F : fc) : fc := mkF (f_id F) (f_act F) (f_inc F) (f_n F) (f_W F) [].
Definition unit_of (F : fc) : unit_ := mkU (Some (f_id F)) (f_act F) (f_inc F) (f_n F) (f_W F).
Lemma fcl_tw g : (forall l, fcl (tw g l) = map (twF g) (fcl l)) /\ (forall s, sfcl (stw g s) = map (twF g) (sfcl s)) /\ (forall h, hfcl (htw g h) = map (twF g) (hfcl h)).
Proof. apply layers_ind; intros; simpl; rewrite ?map_app, ?H, ?H0; reflexivity. Qed.
Lemma fcl_plain : (forall l, fcl (plain l) = map strip (fcl l)) /\ (forall s, sfcl (splain s) = map strip (sfcl s)) /\ (forall h, hfcl (hplain h) = map strip (hfcl h)).
Proof. apply layers_ind; intros; simpl; rewrite ?map_app, ?H, ?H0; reflexivity. Qed.
Lemma units_fcl : (forall l, units l = map unit_of (fcl l)) /\ (forall s, sunits s = map unit_of (sfcl s)) /\ (forall h, hunits h = map unit_of (hfcl h)).
Proof. apply layers_ind; intros; simpl; rewrite ?map_app, ?H, ?H0; reflexivity. Qed.
Lemma find_map_id (h : fc -> fc) id l : (forall F, f_id (h F) = f_id F) ->
  find (fun f => f_id f =? id) (map h l) = option_map h (find (fun f => f_id f =? id) l).
Proof. intros H. induction l as [|F l IH]; [reflexivity|]. cbn [map find]. rewrite H, IH. destruct (f_id F =? id); reflexivity. Qed.
Lemma find_id_in id l F : NoDup (map f_id l) -> In F l -> f_id F = id -> find (fun f => f_id f =? id) l = Some F.
Proof.
  intros HN HI <-. induction l as [|F' l IH]; [destruct HI|]. cbn [map] in HN. inversion HN as [|? ? N1 N2]; subst. cbn [find].
  destruct HI as [->|HI]; [rewrite Nat.eqb_refl; reflexivity|]. destruct (Nat.eqb_spec (f_id F') (f_id F)) as [E|E]; [|apply IH; assumption].
  exfalso. apply N1. rewrite E. apply in_map, HI.
Qed.
Lemma fcl_wf : (forall l F, wf l -> In F (fcl l) -> 0 < f_n F /\ 0 < f_inc F /\ length (f_W F) = f_n F * (f_inc F + 1)) /\
  (forall s F, swf s -> In F (sfcl s) -> 0 < f_n F /\ 0 < f_inc F /\ length (f_W F) = f_n F * (f_inc F + 1)) /\
  (forall h F inc, hwf inc h -> In F (hfcl h) -> 0 < f_n F /\ 0 < f_inc F /\ length (f_W F) = f_n F * (f_inc F + 1)).
Proof.
  apply layers_ind; simpl.
  - intros id a inc n W G A F (H1 & H2 & H3 & H4) [<-|[]]. auto.
  - intros n A F _ [].
  - auto.
  - intros inc h IH b1 b2 F [_ H] Q. apply (IH F inc H Q).
  - intros k l IH inn A F [_ H] Q. apply (IH F H Q).
  - auto.
  - intros l IH b IHb F (H1 & H2 & H3) Q. apply in_app_or in Q. destruct Q; auto.
  - intros F inc _ [].
  - intros o c l IH h IHh F inc (H1 & H2 & H3 & H4) Q. apply in_app_or in Q. destruct Q; [auto|]. apply (IHh F inc); assumption.
Qed.
Lemma wf_tw g : (forall l, wf l -> (forall F, In F (fcl l) -> length (snd (g (f_id F) (f_act F) (f_W F))) = length (f_W F) /\ (admissible (f_act F) -> admissible (fst (g (f_id F) (f_act F) (f_W F))))) -> wf (tw g l)) /\
  (forall s, swf s -> (forall F, In F (sfcl s) -> length (snd (g (f_id F) (f_act F) (f_W F))) = length (f_W F) /\ (admissible (f_act F) -> admissible (fst (g (f_id F) (f_act F) (f_W F))))) -> swf (stw g s)) /\
  (forall h, forall inc, hwf inc h -> (forall F, In F (hfcl h) -> length (snd (g (f_id F) (f_act F) (f_W F))) = length (f_W F) /\ (admissible (f_act F) -> admissible (fst (g (f_id F) (f_act F) (f_W F))))) -> hwf inc (htw g h)).
Proof.
  destruct (tw_dims g) as (M1 & M2 & M3). apply layers_ind; simpl.
  - intros id a inc n W G A (H1 & H2 & H3 & H4) H. destruct (H _ (or_introl eq_refl)) as [Q1 Q2]. cbn in Q1, Q2. rewrite Q1. auto.
  - auto.
  - auto.
  - intros inc h IH b1 b2 [H0 H] Q. rewrite M3. auto.
  - intros k l IH inn A [H0 H] Q. auto.
  - auto.
  - intros l IH b IHb (H1 & H2 & H3) Q. rewrite (proj2 (M1 l)), (proj1 (M2 b)). split; [apply IH; [exact H1|]|split; [apply IHb; [exact H2|]|exact H3]]; intros; apply Q; apply in_or_app; auto.
  - auto.
  - intros o c l IH h IHh inc (H1 & H2 & H3 & H4) Q. rewrite (proj2 (M1 l)). split; [apply IH; [exact H1|]; intros; apply Q; apply in_or_app; auto|]. do 2 (split; [assumption|]).
    apply IHh; [exact H4|]. intros; apply Q; apply in_or_app; auto.
Qed.

(** ** The network *)
Definition good_net (i : nat) (x : net) : Prop := net_wf i x /\ NoDup (nids x).
Lemma reweight_hid f g x : n_hid (reweight f g x) = option_map (stw (fun j a W => (a, f j W))) (n_hid x).
Proof. unfold reweight. cbn [n_hid]. destruct (n_hid x) as [s|]; [|reflexivity]. cbn [option_map]. rewrite (proj1 (proj2 (with_w_tw f))). reflexivity. Qed.
Lemma nfcl_reweight f g x : nfcl (reweight f g x) = map (twF (fun j a W => (a, f j W))) (nfcl x).
Proof. unfold nfcl. rewrite reweight_hid. destruct (n_hid x) as [s|]; [|reflexivity]. cbn [option_map]. apply fcl_tw. Qed.
Lemma nids_reweight f g x : nids (reweight f g x) = nids x.
Proof. unfold nids. rewrite nfcl_reweight, map_map. reflexivity. Qed.
Lemma layer_of_in q x F : layer_of q x = Some F -> match q with None => F = mkF 0 (outp_act (n_out x)) (n_inc x) (n_n x) (n_W x) (n_A x) | Some id => f_id F = id /\ In F (nfcl x) end.
Proof.
  unfold layer_of. destruct q as [id|]; [|intros E; injection E as <-; reflexivity]. intros E. apply find_some in E. destruct E as [E1 E2]. apply Nat.eqb_eq in E2. auto.
Qed.
Lemma layer_of_wf i q x F : net_wf i x -> layer_of q x = Some F -> 0 < f_n F /\ 0 < f_inc F /\ length (f_W F) = f_n F * (f_inc F + 1).
Proof.
  intros (H1 & H2 & H3 & H4 & H5 & H6) E. apply layer_of_in in E. destruct q as [id|].
  - destruct E as [_ E]. unfold nfcl in E. destruct (n_hid x) as [s|]; [|destruct E]. apply (proj1 (proj2 fcl_wf) s); [apply H1|exact E].
  - subst F. cbn [f_n f_inc f_W]. auto.
Qed.
Lemma wf_reweight i f g x : net_wf i x -> (forall F, In F (nfcl x) -> length (f (f_id F) (f_W F)) = length (f_W F)) -> length (g (n_W x)) = length (n_W x) -> net_wf i (reweight f g x).
Proof.
  intros (H1 & H2 & H3 & H4 & H5 & H6) Hf Hg. unfold net_wf. rewrite reweight_hid. cbn [n_inc n_n n_W n_out reweight].
  split; [|rewrite Hg; auto]. unfold nfcl in Hf. destruct (n_hid x) as [s|]; [|exact H1]. cbn [option_map]. destruct H1 as (G1 & G2 & G3).
  destruct (proj1 (proj2 (tw_dims (fun j a W => (a, f j W)))) s) as [-> ->]. split; [|auto]. apply wf_tw; [exact G1|]. intros F HF. cbn [fst snd]. split; [apply Hf, HF|auto].
Qed.

Lemma put_w_wf i q u x F : good_net i x -> layer_of q x = Some F -> length (u (f_W F)) = length (f_W F) -> good_net i (put_w q u x).
Proof.
  intros [Hw HN] HF Hu. split; [|unfold put_w; destruct q; rewrite nids_reweight; exact HN].
  pose proof (layer_of_in q x F HF) as HI. unfold put_w. destruct q as [id|].
  - apply wf_reweight; [exact Hw| |reflexivity]. intros F' HF'. destruct (Nat.eqb_spec (f_id F') id) as [E|E]; [|reflexivity].
    cbn [layer_of] in HF. rewrite (find_id_in id (nfcl x) F' HN HF' E) in HF. injection HF as ->. exact Hu.
  - subst F. apply wf_reweight; [exact Hw|reflexivity|exact Hu].
Qed.
Lemma put_w_layer q u x F : layer_of q x = Some F -> layer_of q (put_w q u x) = Some (mkF (f_id F) (f_act F) (f_inc F) (f_n F) (u (f_W F)) (f_A F)).
Proof.
  intros HF. pose proof (layer_of_in q x F HF) as HI. unfold put_w. destruct q as [id|].
  - cbn [layer_of] in HF |- *. rewrite nfcl_reweight, find_map_id by reflexivity. rewrite HF. cbn [option_map]. unfold twF. destruct HI as [-> _]. rewrite Nat.eqb_refl. reflexivity.
  - cbn [layer_of] in *. injection HF as <-. reflexivity.
Qed.
Lemma tw_same g l : (forall j a W, g j a W = (a, W)) -> map (twF g) l = l.
Proof. intros H. rewrite <- (map_id l) at 2. apply map_ext. intros F. unfold twF. rewrite H. destruct F; reflexivity. Qed.
Lemma put_w_other q r u x : r <> q -> layer_of r (put_w q u x) = layer_of r x.
Proof.
  intros Hr. unfold put_w. destruct q as [id|].
  - destruct r as [j|]; [|reflexivity]. cbn [layer_of]. rewrite nfcl_reweight, find_map_id by reflexivity.
    destruct (find (fun f => f_id f =? j) (nfcl x)) as [F|] eqn:E; [|reflexivity]. apply find_some in E. destruct E as [_ E]. apply Nat.eqb_eq in E. cbn [option_map]. unfold twF.
    destruct (Nat.eqb_spec (f_id F) id) as [Q|Q]; [exfalso; apply Hr; congruence|]. cbn [fst snd]. destruct F; reflexivity.
  - destruct r as [j|]; [|congruence]. cbn [layer_of]. rewrite nfcl_reweight, tw_same by reflexivity. reflexivity.
Qed.

(** [q] is not visited before [r] *)
Definition late (r q : lname) (x : net) : Prop :=
  match r, q with
  | None, None => True
  | None, Some _ => False
  | Some _, None => True
  | Some id, Some j => ~ In j (before id (nids x))
  end.
Lemma put_w_inputs r q u x v : NoDup (nids x) -> late r q x -> net_inputs r (put_w q u x) v = net_inputs r x v.
Proof.
  intros HN HL. unfold net_inputs. destruct r as [id|].
  - destruct q as [j|]; unfold put_w; rewrite reweight_hid; unfold late, nids, nfcl in *; destruct (n_hid x) as [s|]; cbn [option_map]; try reflexivity.
    + apply (proj1 (proj2 (tw_inputs _ id)) s v HN). intros k a W Hk. destruct (Nat.eqb_spec k j); [subst; contradiction|reflexivity].
    + rewrite (proj1 (proj2 (tw_id _)) s) by reflexivity. reflexivity.
  - destruct q as [j|]; [destruct HL|]. unfold put_w, hidden. rewrite reweight_hid. destruct (n_hid x) as [s|]; [|reflexivity]. cbn [option_map].
    rewrite (proj1 (proj2 (tw_id _)) s) by reflexivity. reflexivity.
Qed.
Lemma before_self id L : ~ In id (before id L).
Proof. induction L as [|j L IH]; [auto|]. cbn [before]. destruct (Nat.eqb_spec j id); [auto|]. intros [Q|Q]; auto. Qed.
Lemma late_self q x : late q q x.
Proof. unfold late. destruct q; [apply before_self|exact I]. Qed.
Lemma put_w_late r s q u x : late r s (put_w q u x) <-> late r s x.
Proof. unfold late, put_w. destruct r, s; destruct q; rewrite ?nids_reweight; tauto. Qed.

(** ** Looking at a layer *)
Definition pact (pre : bool) (a : act) : act := if pre then Identity else a.
Lemma ignoring_ok i q x F : good_net i x -> layer_of q x = Some F ->
  good_net i (ignoring q x) /\ layer_of q (ignoring q x) = Some (mkF (f_id F) Identity (f_inc F) (f_n F) (f_W F) (f_A F)) /\
  forall v, net_inputs q (ignoring q x) v = net_inputs q x v.
Proof.
  intros [Hw HN] HF. destruct q as [id|].
  - assert (EH : n_hid (ignoring (Some id) x) = option_map (stw (lin id)) (n_hid x)).
    { unfold ignoring. cbn [n_hid]. destruct (n_hid x) as [s|]; [|reflexivity]. cbn [option_map]. rewrite (proj1 (proj2 (linear_tw id))). reflexivity. }
    assert (EF : nfcl (ignoring (Some id) x) = map (twF (lin id)) (nfcl x)).
    { unfold nfcl. rewrite EH. destruct (n_hid x) as [s|]; [|reflexivity]. cbn [option_map]. apply fcl_tw. }
    split; [split|split].
    + destruct Hw as (H1 & H2 & H3 & H4 & H5 & H6). unfold net_wf. rewrite EH. cbn [ignoring n_inc n_n n_W n_out]. split; [|auto].
      destruct (n_hid x) as [s|]; [|exact H1]. cbn [option_map]. destruct H1 as (G1 & G2 & G3). destruct (proj1 (proj2 (tw_dims (lin id))) s) as [-> ->]. split; [|auto].
      apply wf_tw; [exact G1|]. intros F' _. unfold lin. cbn [fst snd]. split; [reflexivity|]. destruct (f_id F' =? id); [intros _; exact I|auto].
    + unfold nids. rewrite EF, map_map. exact HN.
    + cbn [layer_of] in *. rewrite EF, find_map_id by reflexivity. rewrite HF. apply find_some in HF. destruct HF as [_ E]. cbn [option_map]. unfold twF, lin. rewrite E. reflexivity.
    + intros v. unfold net_inputs. rewrite EH. unfold nids, nfcl in HN. destruct (n_hid x) as [s|]; [|reflexivity]. cbn [option_map].
      apply (proj1 (proj2 (tw_inputs _ id)) s v HN). intros j a W Hj. unfold lin. destruct (Nat.eqb_spec j id) as [->|]; [destruct (before_self _ _ Hj)|reflexivity].
  - cbn [layer_of ignoring] in *. injection HF as <-. split; [split|split]; try reflexivity; try assumption.
    destruct Hw as (H1 & H2 & H3 & H4 & H5 & H6). unfold net_wf. cbn [n_hid n_inc n_n n_W n_out outp_act]. do 5 (split; [assumption|]). exact I.
Qed.

Lemma fprop_layer i m B x q F : good_net i x -> length B = m * i -> layer_of q x = Some F ->
  exists x' F', net_fprop m (biased m B) x = Some x' /\ layer_of q x' = Some F' /\ strip F' = strip F /\
    shows F' (flat_map (fun r => net_inputs q x (row m i r B)) (seq 0 m)).
Proof.
  intros [Hw HN] HB HF. destruct (net_fprop_ok m B i x Hw HB) as (h' & E & Hh). match type of E with _ = Some ?y => exists y end. rewrite E.
  destruct q as [id|].
  - pose proof Hw as (H1 & _). cbn [layer_of] in *. unfold nfcl, nids, nfcl in *. cbn [n_hid] in *.
    destruct (n_hid x) as [s|] eqn:Eh; [|discriminate HF]. destruct h' as [s'|]; [|destruct Hh]. destruct Hh as [Q1 Q2]. destruct H1 as (G1 & G2 & G3).
    pose proof (proj1 (proj2 plain_same) s s' Q1) as EP.
    assert (ES : map strip (sfcl s') = map strip (sfcl s)) by (rewrite <- !(proj1 (proj2 fcl_plain)), EP; reflexivity).
    assert (EI : map f_id (sfcl s') = map f_id (sfcl s)).
    { transitivity (map f_id (map strip (sfcl s'))); [rewrite map_map; reflexivity|]. rewrite ES, map_map. reflexivity. }
    assert (EFS : option_map strip (find (fun f => f_id f =? id) (sfcl s')) = option_map strip (find (fun f => f_id f =? id) (sfcl s))).
    { rewrite <- !(find_map_id strip) by reflexivity. rewrite ES. reflexivity. }
    rewrite HF in EFS. destruct (find (fun f => f_id f =? id) (sfcl s')) as [F'|] eqn:EF'; [|discriminate]. cbn [option_map] in EFS. injection EFS as EFS.
    exists F'. split; [reflexivity|]. split; [reflexivity|]. split; [unfold strip; congruence|]. apply find_some in EF'. destruct EF' as [J1 J2]. apply Nat.eqb_eq in J2.
    assert (W' : swf s'). { apply (proj1 (proj2 wf_plain)). rewrite EP. apply (proj1 (proj2 wf_plain)). exact G1. }
    assert (IC : sincoming s' = sincoming s). { rewrite <- (proj1 (proj2 incoming_plain) s'), EP. apply incoming_plain. }
    pose proof (proj1 (proj2 acts_inputs) s' m B W' ltac:(congruence) Q2 ltac:(unfold sids; rewrite EI; exact HN) F' J1) as J3.
    revert J3. apply shows_perm. apply Permutation_refl'. apply flat_map_ext_in. intros r Hr. unfold net_inputs. rewrite Eh, J2.
    rewrite <- (proj1 (proj2 (inputs_plain id)) s'), EP, (proj1 (proj2 (inputs_plain id)) s). congruence.
  - cbn [layer_of] in *. injection HF as <-. eexists. split; [reflexivity|]. split; [reflexivity|]. split; [reflexivity|]. cbn [n_A n_out n_inc n_n n_W].
    assert (EU : flat_map (fun r => net_inputs None x (row m i r B)) (seq 0 m) = map (fun r => hidden x (row m i r B)) (seq 0 m)).
    { cbn [net_inputs]. rewrite flat_map_concat_map. induction (seq 0 m) as [|r l IH]; [reflexivity|]. cbn [map concat app]. rewrite IH. reflexivity. }
    rewrite EU. exists m. cbn [f_A f_n f_act f_inc f_W]. split; [rewrite map_length; apply gemm_length|]. split; [rewrite map_length, seq_length; reflexivity|].
    intros c Hc. rewrite (col_rows m (n_n x)) by (try assumption; rewrite map_length; apply gemm_length). unfold fvals. rewrite map_map.
    apply Permutation_refl'. apply map_ext_in. intros r Hr. apply in_seq in Hr. rewrite fc_row by (try lia; apply (under_len m B i); assumption).
    rewrite (nth_map_seq (fun c => act_f (outp_act (n_out x)) (zed (n_n x) (n_inc x) (n_W x) (row m (n_inc x) r (under m B (n_hid x))) c))) by exact Hc.
    rewrite (under_row m B i) by (try assumption; lia). reflexivity.
Qed.

Lemma look_ok i q pre x F b src sids : good_net i x -> layer_of q x = Some F ->
  holds 1%R b src sids -> s_bir src = false -> s_bias src = true -> sample_size src = i ->
  exists F', look q pre x b = Some F' /\ f_n F' = f_n F /\ f_inc F' = f_inc F /\ f_W F' = f_W F /\ f_act F' = pact pre (f_act F) /\
    shows F' (flat_map (fun k => net_inputs q x (sample src k)) sids).
Proof.
  intros HG HF Hh Hb Hs Hi. destruct (elems_x b src sids Hh Hb Hs) as (B & E1 & E2 & E3 & E4). unfold look. rewrite E1. cbn [obind].
  assert (EB : batch_size b = length sids). { destruct Hh as (H1 & _). unfold batch_size. exact H1. }
  rewrite EB. set (m := length sids) in *. rewrite Hi in *.
  assert (EM : forall f : list R -> list (list R), flat_map (fun r => f (row m i r B)) (seq 0 m) = flat_map (fun k => f (sample src k)) sids).
  { intros f. rewrite !flat_map_concat_map. f_equal. apply (nth_ext _ _ [] []); [rewrite !map_length, seq_length; reflexivity|]. rewrite map_length, seq_length. intros r Hr.
    destruct (nth_error sids r) as [k|] eqn:Ek; [|apply nth_error_None in Ek; unfold m in Hr; lia].
    rewrite (nth_indep _ [] (f (row m i 0 B))) by (rewrite map_length, seq_length; exact Hr). rewrite (map_nth (fun r => f (row m i r B))), seq_nth by exact Hr.
    rewrite (nth_indep _ [] (f (sample src 0))) by (rewrite map_length; exact Hr). rewrite (map_nth (fun k => f (sample src k))), (nth_error_nth _ _ _ Ek).
    f_equal. apply E4, Ek. }
  destruct pre.
  - destruct (ignoring_ok i q x F HG HF) as (G1 & G2 & G3). destruct (fprop_layer i m B (ignoring q x) q _ G1 E2 G2) as (x' & F' & Q1 & Q2 & Q3 & Q4).
    rewrite Q1. cbn [obind]. exists F'. split; [exact Q2|]. unfold strip in Q3. cbn in Q3. injection Q3 as J1 J2 J3 J4 J5. do 4 (split; [assumption|]).
    rewrite <- EM. rewrite (flat_map_ext_in (fun r => net_inputs q x (row m i r B)) (fun r => net_inputs q (ignoring q x) (row m i r B))); [exact Q4|]. intros r _. symmetry. apply G3.
  - destruct (fprop_layer i m B x q _ HG E2 HF) as (x' & F' & Q1 & Q2 & Q3 & Q4).
    rewrite Q1. cbn [obind]. exists F'. split; [exact Q2|]. unfold strip in Q3. injection Q3 as J1 J2 J3 J4 J5. do 4 (split; [assumption|]). rewrite <- EM. exact Q4.
Qed.
