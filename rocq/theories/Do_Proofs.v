(** Proofs about networks with dropout. *)
From Coq Require Import Reals Lra Bool.
From Coquelicot Require Import Coquelicot.
From Verif Require Import Base BaseLemmas Workers_Model Kern_Model Act_Model Act_Spec Act_Proofs Loss_Proofs Net_Model Net_Spec Net_Proofs Net_Proofs2 Net_Proofs3 Net_Proofs4 Net_Proofs5
  La_Model La_Spec La_Proofs3 La_Proofs4 Drop_Model Drop_Spec Drop_Proofs Pen_Model Pen_Spec Pen_Proofs Pen_Proofs2 Do_Model Do_Spec.
Local Open Scope nat_scope.

(** ** Copies into the activations *)
Lemma same_refl : (forall l, same l l) /\ (forall s, ssame s s) /\ (forall h, hsame h h).
Proof. apply layers_ind; intros; simpl; auto 10. Qed.

Definition sset_acts (m : nat) (A : list R) (s : stack) : stack :=
  match s with SOne l => SOne (set_acts m A l) | SCons l b => SCons (set_acts m A l) b end.

Lemma set_acts_neurons m : (forall l A, neurons (set_acts m A l) = neurons l) /\
  (forall s A, sneurons (sset_acts m A s) = sneurons s) /\
  (forall h A, hneurons (hset_acts m A h) = hneurons h).
Proof.
  apply layers_ind; intros; simpl; try reflexivity; auto.
  specialize (H A). destruct s; exact H.
Qed.
Lemma set_acts_same m : (forall l A, same l (set_acts m A l)) /\
  (forall s A, ssame s (sset_acts m A s)) /\
  (forall h A, hsame h (hset_acts m A h)).
Proof.
  apply layers_ind; intros; simpl; auto 10.
  - apply H.
  - split; [reflexivity|]. apply same_refl.
  - split; [apply H|]. apply same_refl.
Qed.
Lemma set_acts_acts m : (forall l A, length A = m * neurons l -> acts (set_acts m A l) = A) /\
  (forall s A, length A = m * sneurons s -> sacts (sset_acts m A s) = A) /\
  (forall h A, length A = m * hneurons h -> hacts (hset_acts m A h) = A).
Proof.
  apply layers_ind; intros; simpl in *; auto.
  - specialize (H A). destruct s; apply H; exact H0.
  - destruct A; [reflexivity|]. simpl in H. lia.
  - rewrite H, H0; [apply firstn_skipn| |].
    + rewrite skipn_length. lia.
    + apply firstn_length_le. lia.
Qed.
Lemma set_acts_twice m : (forall l A B, set_acts m B (set_acts m A l) = set_acts m B l) /\
  (forall s A B, sset_acts m B (sset_acts m A s) = sset_acts m B s) /\
  (forall h A B, hset_acts m B (hset_acts m A h) = hset_acts m B h).
Proof.
  apply layers_ind; intros; simpl in *; auto.
  - specialize (H A B). destruct s; simpl in *; rewrite ?H; congruence.
  - rewrite H. reflexivity.
  - rewrite H. reflexivity.
  - rewrite H. reflexivity.
  - rewrite (proj1 (set_acts_neurons m)), H, H0. reflexivity.
Qed.
Lemma set_acts_id m : (forall l B, wf l -> length B = m * incoming l -> ready m B l -> set_acts m (acts l) l = l) /\
  (forall s B, swf s -> length B = m * sincoming s -> sready m B s -> sset_acts m (sacts s) s = s) /\
  (forall h inc B, hwf inc h -> length B = m * inc -> hready m B h -> hset_acts m (hacts h) h = h).
Proof.
  apply layers_ind; try reflexivity.
  - intros s IH B Hw HB HR. specialize (IH B Hw HB HR). cbn [set_acts acts]. fold (sset_acts m (sacts s) s). destruct s; cbn [sacts sset_acts] in *; congruence.
  - intros inc h IH b1 b2 B [_ Hw] HB HR. cbn [set_acts acts]. rewrite (IH inc B Hw HB HR). reflexivity.
  - intros l IH B Hw HB HR. cbn [sset_acts sacts]. rewrite (IH B Hw HB HR). reflexivity.
  - intros l IH b IHb B (W1 & W2 & W3) HB [R1 R2]. cbn [sset_acts sacts]. rewrite (IH _ W1 ltac:(rewrite (proj1 (proj2 fval_length) b m B W2 HB), W3; reflexivity) R2). reflexivity.
  - intros ofs cnt l IH h IHh inc B (W1 & W2 & W3 & W4) HB [R1 R2]. cbn [hset_acts hacts].
    assert (LS : length (slice (m * ofs) (m * cnt) B) = m * incoming l) by (rewrite slice_length by nia; rewrite W2; reflexivity).
    assert (LA : length (acts l) = m * neurons l). { rewrite (proj1 acts_ready _ _ _ R1). apply (proj1 fval_length); assumption. }
    rewrite <- LA, firstn_app, Nat.sub_diag, firstn_O, firstn_all, app_nil_r, skipn_app, Nat.sub_diag, skipn_all. cbn [skipn app].
    rewrite (IH _ W1 LS R1), (IHh inc B W4 HB R2). reflexivity.
Qed.

(** ** One layer *)
Definition active (d : option dst) : bool := match d with Some e => if Rlt_dec (d_p e) 1 then true else false | None => false end.
Definition dmask (d : option dst) (q : nat) : R :=
  match d with
  | Some e => if Rlt_dec (d_p e) 1 then
      match d_kind e with
      | Classic => if Rlt_dec (nth q (d_rnd e) 0) (d_p e) then / d_p e else 0
      | Alpha al mu nu => if Rlt_dec (nth q (d_rnd e) 0) (d_p e) then alpha_a al mu nu (d_p e) else 0
      end else 1
  | None => 1
  end%R.
Definition dshift (d : option dst) (q : nat) : R :=
  match d with
  | Some e => if Rlt_dec (d_p e) 1 then
      match d_kind e with
      | Classic => 0
      | Alpha al mu nu => if Rlt_dec (nth q (d_rnd e) 0) (d_p e) then alpha_b al mu nu (d_p e) else alpha_a al mu nu (d_p e) * al + alpha_b al mu nu (d_p e)
      end else 0
  | None => 0
  end%R.
Lemma thin_length d A : length (thin d A) = length A.
Proof. destruct d as [e|]; [|reflexivity]. cbn [thin]. destruct (Rlt_dec (d_p e) 1); [rewrite map_length, seq_length|]; reflexivity. Qed.
Lemma nth_thin d A q : q < length A -> nth q (thin d A) 0%R = (dmask d q * nth q A 0 + dshift d q)%R.
Proof.
  intros Hq. destruct d as [e|]; cbn [thin dmask dshift]; [|ring].
  destruct (Rlt_dec (d_p e) 1); [|ring]. rewrite nth_map_seq by exact Hq. unfold thin1, dropped, alpha_dropped.
  destruct (d_kind e) as [|al mu nu]; destruct (Rlt_dec (nth q (d_rnd e) 0%R) (d_p e)); try ring. unfold Rdiv. ring.
Qed.
Lemma thin_inactive d A : active d = false -> thin d A = A.
Proof. destruct d as [e|]; [|reflexivity]. cbn. destruct (Rlt_dec (d_p e) 1); [discriminate|reflexivity]. Qed.
Lemma dmask_inactive d q : active d = false -> dmask d q = 1%R.
Proof. destruct d as [e|]; [|reflexivity]. cbn. destruct (Rlt_dec (d_p e) 1); [discriminate|reflexivity]. Qed.

(** the dropout of a layer with [n] activations in [A] after forward propagation *)
Definition dkept (n : nat) (A : list R) (d d' : option dst) : Prop :=
  if active d then exists e', d' = Some e' /\ active d' = true /\ n <= length (d_mask e') /\ n <= length (d_orig e') /\
    (forall q, q < n -> nth q (d_mask e') 0%R = dmask d q) /\ (forall q, q < n -> nth q (d_orig e') 0%R = nth q A 0%R)
  else d' = d.

Definition dgood (n : nat) (d : option dst) : Prop :=
  match d with
  | None => True
  | Some e => (0 < d_p e <= 1)%R /\ (forall al mu nu, d_kind e = Alpha al mu nu -> (0 < nu)%R) /\ n <= length (d_mask e) /\ n <= length (d_orig e)
  end.

Lemma cells_bget n A K O D q : q < n -> bget (cells n A K O D) q = Some (mkX (nth q A 0%R) (nth q K 0%R) (nth q O 0%R) (nth q D 0%R)).
Proof. intros Hq. unfold cells, bget. rewrite nth_error_map, (nth_error_nth' _ 0) by (rewrite seq_length; exact Hq). rewrite seq_nth by exact Hq. reflexivity. Qed.
Lemma cells_length n A K O D : length (cells n A K O D) = n.
Proof. unfold cells. rewrite map_length, seq_length. reflexivity. Qed.
Lemma nth_map_bget (f : xcell -> R) c q y : bget c q = Some y -> nth q (map f c) 0%R = f y.
Proof. intros H. apply nth_error_nth. unfold bget in H. rewrite nth_error_map, H. reflexivity. Qed.

Section K.
Context (thd thm : nat) (pool : list prange).

Lemma do_apply_ok m l d (post : layer -> option dst -> Prop) : 0 < m -> 0 < neurons l -> length (acts l) = m * neurons l -> dgood (m * neurons l) d ->
  (forall d', dkept (m * neurons l) (acts l) d d' -> post (if active d then set_acts m (thin d (acts l)) l else l) d') ->
  do_apply thd pool true m l d post.
Proof.
  intros Hm Hn HA HG HP. destruct d as [e|]; [|apply HP; reflexivity]. cbn [do_apply].
  destruct HG as ([G1 G1'] & G2 & G3 & G4). unfold dkept in HP. cbn [active] in HP. destruct (Rlt_dec (d_p e) 1) as [Hp|Hp]; [|apply HP; reflexivity].
  cbv zeta. split; [exact G3|]. split; [exact G4|]. split; [exact HA|].
  set (n := m * neurons l) in *. assert (0 < n) by (unfold n; nia).
  apply apply_correct; [assumption|rewrite cells_length; lia|split; assumption|exact G2|].
  intros c (L & _ & HC). rewrite cells_length in L.
  assert (EA : map x_act c = thin (Some e) (acts l)).
  { apply nth_ext0; [rewrite map_length, thin_length; lia|]. rewrite map_length, L. intros q Hq.
    destruct (HC q _ Hq (cells_bget _ _ _ _ _ q Hq)) as (c' & B & _ & _ & K). rewrite (nth_map_bget x_act c q c' B).
    cbn [thin]. destruct (Rlt_dec (d_p e) 1); [|lra]. rewrite nth_map_seq by lia. unfold thin1. cbn [x_act] in K.
    destruct (d_kind e) as [|al mu nu] eqn:Ek; [apply K|]. destruct K as (a & b & mm & E & _ & K).
    destruct (coeffs_ok al mu nu (d_p e)) as (_ & _ & E'); [lra|apply (G2 al mu nu eq_refl)|]. rewrite E' in E. injection E as <- <- <-. exact K. }
  rewrite EA. apply HP. eexists. split; [reflexivity|]. cbn [active d_p d_mask d_orig]. destruct (Rlt_dec (d_p e) 1); [|lra].
  split; [reflexivity|]. rewrite !overwrite_length by (rewrite map_length; lia). split; [exact G3|]. split; [exact G4|]. split; intros q Hq; rewrite nth_overwrite by (rewrite map_length; lia).
  - rewrite map_length, Nat.sub_0_r. replace ((0 <=? q) && (q <? 0 + length c)) with true by (symmetry; apply andb_true_iff; split; [reflexivity|apply Nat.ltb_lt; lia]).
    destruct (HC q _ Hq (cells_bget _ _ _ _ _ q Hq)) as (c' & B & _ & _ & K). rewrite (nth_map_bget x_mask c q c' B). cbn [dmask].
    destruct (Rlt_dec (d_p e) 1); [|lra]. destruct (d_kind e) as [|al mu nu] eqn:Ek; [apply K|]. destruct K as (a & b & mm & E & K & _).
    destruct (coeffs_ok al mu nu (d_p e)) as (_ & _ & E'); [lra|apply (G2 al mu nu eq_refl)|]. rewrite E' in E. injection E as <- <- <-. exact K.
  - rewrite map_length, Nat.sub_0_r. replace ((0 <=? q) && (q <? 0 + length c)) with true by (symmetry; apply andb_true_iff; split; [reflexivity|apply Nat.ltb_lt; lia]).
    destruct (HC q _ Hq (cells_bget _ _ _ _ _ q Hq)) as (c' & B & K & _). rewrite (nth_map_bget x_orig c q c' B). exact K.
Qed.

Lemma do_restore_ok m l d d' D (post : layer -> list R -> Prop) : 0 < m -> 0 < neurons l -> length (acts l) = m * neurons l -> m * neurons l <= length D ->
  set_acts m (acts l) l = l -> dkept (m * neurons l) (acts l) d d' ->
  (forall D', length D' = length D -> (forall q, q < m * neurons l -> nth q D' 0%R = (nth q D 0 * dmask d q)%R) -> post l D') ->
  do_restore thm pool m (if active d then set_acts m (thin d (acts l)) l else l) d' D post.
Proof.
  intros Hm Hn HA HD HI HK HP. unfold dkept in HK. destruct (active d) eqn:Ed.
  - destruct HK as (e & -> & K1 & K2 & K3 & K4 & K5). cbn [do_restore]. cbn [active] in K1. destruct (Rlt_dec (d_p e) 1); [|discriminate K1]. cbv zeta.
    assert (LT : length (thin d (acts l)) = m * neurons l) by (rewrite thin_length; exact HA).
    rewrite (proj1 (set_acts_neurons m)), (proj1 (set_acts_acts m)) by exact LT.
    set (n := m * neurons l) in *. assert (0 < n) by (unfold n; nia).
    split; [exact K2|]. split; [exact K3|]. split; [exact LT|]. split; [exact HD|].
    apply restore_correct; [assumption|rewrite cells_length; lia|].
    intros c L _ HC. rewrite cells_length in L. rewrite (proj1 (set_acts_twice m)).
    assert (EA : map x_act c = acts l).
    { apply nth_ext0; [rewrite map_length; lia|]. rewrite map_length, L. intros q Hq.
      rewrite (nth_map_bget x_act c q _ (HC q _ Hq (cells_bget _ _ _ _ _ q Hq))). cbn [x_act x_orig]. apply K5. exact Hq. }
    rewrite EA, HI. apply HP; [apply overwrite_length; rewrite map_length; lia|]. intros q Hq. rewrite nth_overwrite by (rewrite map_length; lia).
    rewrite map_length, Nat.sub_0_r. replace ((0 <=? q) && (q <? 0 + length c)) with true by (symmetry; apply andb_true_iff; split; [reflexivity|apply Nat.ltb_lt; lia]).
    rewrite (nth_map_bget x_dl c q _ (HC q _ Hq (cells_bget _ _ _ _ _ q Hq))). cbn [x_dl x_mask]. rewrite K4 by exact Hq. reflexivity.
  - subst d'. assert (forall q, q < m * neurons l -> nth q D 0%R = (nth q D 0 * dmask d q)%R) by (intros; rewrite dmask_inactive by exact Ed; ring).
    destruct d as [e|]; [|apply HP; auto]. cbn [do_restore]. cbn [active] in Ed. destruct (Rlt_dec (d_p e) 1); [discriminate Ed|]. apply HP; auto.
Qed.
End K.
