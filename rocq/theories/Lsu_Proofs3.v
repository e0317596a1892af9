(** Weights: replaced, rescaled; the normalising passes. *)
From Coq Require Import Reals Lra Permutation.
From Verif Require Import Base BaseLemmas Act_Model Act_Spec Act_Proofs Loss_Proofs Smx_Model Smx_Spec Kern_Model Kern_Spec
  TData_Model TData_Spec TData_Proofs TData_Proofs2 TData_Proofs3 TData_Proofs4
  Net_Model Net_Spec Net_Proofs Net_Proofs2 Net_Proofs3 Net_Proofs4 Net_Proofs5 Nrm_Model Nrm_Spec Nrm_Proofs Nrm_Proofs2 Nrm_Proofs3 Nrm_Proofs4
  Fit_Model Fit_Spec Fit_Proofs Fit_Proofs2 Lsu_Model Lsu_Spec Lsu_Proofs Lsu_Proofs2.
Local Open Scope nat_scope.
Notation slice := Net_Model.slice.

(** ** Replacing the weights of one layer *)
Lemma tw_ext g g' : (forall l, (forall F, In F (fcl l) -> g (f_id F) (f_act F) (f_W F) = g' (f_id F) (f_act F) (f_W F)) -> tw g l = tw g' l) /\
  (forall s, (forall F, In F (sfcl s) -> g (f_id F) (f_act F) (f_W F) = g' (f_id F) (f_act F) (f_W F)) -> stw g s = stw g' s) /\
  (forall h, (forall F, In F (hfcl h) -> g (f_id F) (f_act F) (f_W F) = g' (f_id F) (f_act F) (f_W F)) -> htw g h = htw g' h).
Proof.
  apply layers_ind; simpl.
  - intros id a inc n W G A H. specialize (H _ (or_introl eq_refl)). cbn in H. rewrite H. reflexivity.
  - reflexivity.
  - intros s IH H. rewrite IH by exact H. reflexivity.
  - intros inc h IH b1 b2 H. rewrite IH by exact H. reflexivity.
  - intros k l IH inn A H. rewrite IH by exact H. reflexivity.
  - intros l IH H. rewrite IH by exact H. reflexivity.
  - intros l IH b IHb H. rewrite IH, IHb; [reflexivity| |]; intros; apply H; apply in_or_app; auto.
  - reflexivity.
  - intros o c l IH h IHh H. rewrite IH, IHh; [reflexivity| |]; intros; apply H; apply in_or_app; auto.
Qed.
Lemma tw_tw g g' : (forall l, tw g' (tw g l) = tw (fun i a W => g' i (fst (g i a W)) (snd (g i a W))) l) /\
  (forall s, stw g' (stw g s) = stw (fun i a W => g' i (fst (g i a W)) (snd (g i a W))) s) /\
  (forall h, htw g' (htw g h) = htw (fun i a W => g' i (fst (g i a W)) (snd (g i a W))) h).
Proof. apply layers_ind; intros; simpl; rewrite ?H, ?H0; reflexivity. Qed.

Definition setw (q : lname) (W : list R) (x : net) : net := put_w q (fun _ => W) x.
Lemma net_eq x y : n_hid x = n_hid y -> n_out x = n_out y -> n_inc x = n_inc y -> n_n x = n_n y -> n_W x = n_W y -> n_G x = n_G y -> n_A x = n_A y -> n_buf x = n_buf y -> x = y.
Proof. destruct x, y. cbn. intros. subst. reflexivity. Qed.
Lemma put_w_setw q u x F : NoDup (nids x) -> layer_of q x = Some F -> put_w q u x = setw q (u (f_W F)) x.
Proof.
  intros HN HF. unfold setw, put_w. destruct q as [id|].
  - apply net_eq; try reflexivity. rewrite !reweight_hid. unfold nids in HN. cbn [layer_of] in HF. unfold nfcl in *. destruct (n_hid x) as [s|]; [|reflexivity]. cbn [option_map]. f_equal.
    apply tw_ext. intros F' HF'. destruct (Nat.eqb_spec (f_id F') id) as [E|E]; [|reflexivity]. rewrite (find_id_in id (sfcl s) F' HN HF' E) in HF. injection HF as ->. reflexivity.
  - apply net_eq; try reflexivity. cbn [layer_of] in HF. injection HF as <-. reflexivity.
Qed.
Lemma setw_self q x F : NoDup (nids x) -> layer_of q x = Some F -> setw q (f_W F) x = x.
Proof.
  intros HN HF. rewrite <- (put_w_setw q (fun W => W) x F HN HF). unfold put_w. destruct q as [id|]; apply net_eq; try reflexivity; rewrite reweight_hid;
    destruct (n_hid x) as [s|]; try reflexivity; cbn [option_map]; f_equal; apply tw_id; intros j a W _; [destruct (j =? id)|]; reflexivity.
Qed.
Lemma setw_setw q W W' x : setw q W' (setw q W x) = setw q W' x.
Proof.
  unfold setw, put_w. destruct q as [id|]; apply net_eq; try reflexivity; rewrite !reweight_hid; destruct (n_hid x) as [s|]; try reflexivity; cbn [option_map]; f_equal;
    rewrite (proj1 (proj2 (tw_tw _ _))); apply tw_ext; intros F _; cbn [fst snd]; [destruct (f_id F =? id)|]; reflexivity.
Qed.
Lemma setw_layer q W x F : layer_of q x = Some F -> layer_of q (setw q W x) = Some (mkF (f_id F) (f_act F) (f_inc F) (f_n F) W (f_A F)).
Proof. apply (put_w_layer q (fun _ => W)). Qed.
Lemma setw_good i q W x F : good_net i x -> layer_of q x = Some F -> length W = length (f_W F) -> good_net i (setw q W x).
Proof. intros H1 H2 H3. apply (put_w_wf i q (fun _ => W) x F H1 H2 H3). Qed.

(** ** Rescaled weights *)
Lemma rescaled_id n inc W : rescaled (fun _ => 1%R) (fun _ => 0%R) n inc W W.
Proof. split; [reflexivity|]. intros c k _ _. destruct (k =? inc); ring. Qed.
Lemma rescaled_trans a b a' b' n inc W W' W'' : rescaled a b n inc W W' -> rescaled a' b' n inc W' W'' ->
  rescaled (fun c => a' c * a c)%R (fun c => a' c * b c + b' c)%R n inc W W''.
Proof.
  intros [L H] [L' H']. split; [congruence|]. intros c k Hc Hk. rewrite H' by assumption. rewrite H by assumption. destruct (k =? inc); ring.
Qed.
Lemma zed_rescaled a b n inc W W' u c : rescaled a b n inc W W' -> c < n -> zed n inc W' u c = (a c * zed n inc W u c + b c)%R.
Proof.
  intros [_ H] Hc. unfold zed. pose proof (H c inc Hc (Nat.le_refl _)) as H1. rewrite Nat.eqb_refl in H1. rewrite H1.
  assert (E : sumR (map (fun k => nth k u 0 * nth (c + k * n) W' 0)%R (seq 0 inc)) = (a c * sumR (map (fun k => nth k u 0 * nth (c + k * n) W 0)%R (seq 0 inc)))%R).
  { assert (G : forall l, (forall k, In k l -> k < inc) -> sumR (map (fun k => nth k u 0 * nth (c + k * n) W' 0)%R l) = (a c * sumR (map (fun k => nth k u 0 * nth (c + k * n) W 0)%R l))%R).
    { induction l as [|k l IH]; intros Hl; cbn [map]; [cbn; ring|]. rewrite !sumR_cons, IH by (intros; apply Hl; right; assumption).
      pose proof (Hl k (or_introl eq_refl)) as Hk. rewrite (H c k Hc) by lia. rewrite (proj2 (Nat.eqb_neq k inc)) by lia. ring. }
    apply G. intros k Hk. apply in_seq in Hk. lia. }
  rewrite E. ring.
Qed.

Section W.
Context (p : nset) (asc : R).
(** what a pass does to the values of a neuron before its activation *)
Definition lf (a : acc) : R := if do_scale p a then factor p a else 1%R.
Definition lg (a : acc) : R := if do_central p a then offset p asc a else 0%R.
Lemma norm_w_ok a n inc W : 0 < n -> length W = n * (inc + 1) -> rescaled (fun _ => lf a) (fun _ => lg a) n inc W (norm_w p asc a n inc W).
Proof.
  intros Hn HW. unfold norm_w. set (W1 := if do_scale p a then map (fun w => (w * factor p a)%R) W else W).
  assert (L1 : length W1 = length W) by (unfold W1; destruct (do_scale p a); [apply map_length|reflexivity]).
  assert (E1 : forall k, k < length W -> nth k W1 0%R = (lf a * nth k W 0)%R).
  { intros k Hk. unfold W1, lf. destruct (do_scale p a); [|ring]. rewrite (nth_indep _ 0%R (0 * factor p a)%R) by (rewrite map_length; exact Hk). rewrite (map_nth (fun w => (w * factor p a)%R)). ring. }
  assert (G : length (if do_central p a then firstn (n * inc) W1 ++ map (fun w => (w + offset p asc a)%R) (skipn (n * inc) W1) else W1) = length W1 /\
    forall k, k < length W -> nth k (if do_central p a then firstn (n * inc) W1 ++ map (fun w => (w + offset p asc a)%R) (skipn (n * inc) W1) else W1) 0%R =
      (nth k W1 0 + (if n * inc <=? k then lg a else 0))%R).
  { unfold lg. destruct (do_central p a).
    - assert (LF : length (firstn (n * inc) W1) = n * inc) by (rewrite firstn_length; lia). split; [rewrite app_length, map_length, LF, skipn_length; lia|].
      intros k Hk. destruct (Nat.leb_spec (n * inc) k) as [Q|Q].
      + rewrite app_nth2 by lia. rewrite LF. rewrite (nth_indep _ 0%R (0 + offset p asc a)%R) by (rewrite map_length, skipn_length; lia).
        rewrite (map_nth (fun w => (w + offset p asc a)%R)). f_equal. rewrite nth_skipn. f_equal. lia.
      + rewrite app_nth1 by lia. rewrite nth_firstn_lt by exact Q. ring.
    - split; [reflexivity|]. intros k Hk. destruct (_ <=? _); ring. }
  destruct G as [G1 G2]. split; [congruence|]. intros c k Hc Hk. assert (Hq : c + k * n < length W) by nia. rewrite G2, E1 by exact Hq. f_equal.
  destruct (Nat.eqb_spec k inc) as [->|Q]; [rewrite (proj2 (Nat.leb_le _ _)) by nia; reflexivity|].
  rewrite (proj2 (Nat.leb_gt _ _)) by nia. reflexivity.
Qed.
Lemma norm_row_ok a n inc c0 W : c0 < n -> length W = n * (inc + 1) ->
  rescaled (fun c => if c =? c0 then lf a else 1%R) (fun c => if c =? c0 then lg a else 0%R) n inc W (norm_row p asc a n inc c0 W).
Proof.
  intros Hn HW. unfold norm_row. set (W1 := if do_scale p a then map (fun k => (nth k W 0 * (if k mod n =? c0 then factor p a else 1))%R) (seq 0 (length W)) else W).
  assert (L1 : length W1 = length W) by (unfold W1; destruct (do_scale p a); [rewrite map_length, seq_length; reflexivity|reflexivity]).
  assert (E1 : forall c k, c < n -> k <= inc -> nth (c + k * n) W1 0%R = ((if c =? c0 then lf a else 1) * nth (c + k * n) W 0)%R).
  { intros c k Hc Hk. unfold W1, lf. destruct (do_scale p a); [|destruct (c =? c0); ring].
    rewrite (nth_map_seq (fun k => (nth k W 0 * (if k mod n =? c0 then factor p a else 1))%R)) by nia. rewrite Nat.mod_add, Nat.mod_small by lia. ring. }
  assert (G : length (if do_central p a then setn (c0 + n * inc) (nth (c0 + n * inc) W1 0 + offset p asc a)%R W1 else W1) = length W1 /\
    forall k, k < length W -> nth k (if do_central p a then setn (c0 + n * inc) (nth (c0 + n * inc) W1 0 + offset p asc a)%R W1 else W1) 0%R =
      (nth k W1 0 + (if k =? c0 + n * inc then lg a else 0))%R).
  { unfold lg. destruct (do_central p a).
    - assert (HK : c0 + n * inc < length W1) by nia. split; [apply setn_length; exact HK|]. intros k Hk. destruct (Nat.eqb_spec k (c0 + n * inc)) as [->|Q].
      + rewrite setn_nth_eq by exact HK. reflexivity.
      + rewrite setn_nth_neq by auto. ring.
    - split; [reflexivity|]. intros k Hk. destruct (_ =? _); ring. }
  destruct G as [G1 G2]. split; [congruence|]. intros c k Hc Hk. rewrite G2 by nia. rewrite E1 by assumption. f_equal.
  destruct (Nat.eqb_spec c c0) as [->|Q1], (Nat.eqb_spec k inc) as [->|Q2].
  - rewrite (proj2 (Nat.eqb_eq _ _)) by lia. reflexivity.
  - rewrite (proj2 (Nat.eqb_neq _ _)) by nia. reflexivity.
  - rewrite (proj2 (Nat.eqb_neq _ _)) by nia. reflexivity.
  - rewrite (proj2 (Nat.eqb_neq _ _)) by nia. reflexivity.
Qed.
Lemma lf_dos a : n_dos p = false -> lf a = 1%R.
Proof. intros H. unfold lf, do_scale. rewrite H, andb_false_r. reflexivity. Qed.
Lemma lg_doc a : n_doc p = false -> lg a = 0%R.
Proof. intros H. unfold lg, do_central. rewrite H, andb_false_r. reflexivity. Qed.
Lemma lf_eff a : lf a = fst (eff (pass_stat p a)). Proof. unfold lf, eff, pass_stat. cbn. reflexivity. Qed.
Lemma lg_eff a : asc = 1%R -> lg a = snd (eff (pass_stat p a)).
Proof. intros HA. unfold lg, offset, eff, pass_stat, shift. cbn [bofs ofs snd]. destruct (do_central p a); [|reflexivity]. destruct (get_central a) as [c|]; [rewrite HA; ring|reflexivity]. Qed.
Lemma lf_pos a : (0 < n_scale p)%R -> (0 < lf a)%R.
Proof. rewrite lf_eff. apply eff_pos. Qed.
Lemma settled_stays a : settled p a = true -> lf a = 1%R /\ lg a = 0%R.
Proof. unfold settled, lf, lg. destruct (do_scale p a), (do_central p a); try discriminate. auto. Qed.
End W.
