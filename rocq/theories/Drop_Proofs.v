(** Lemmas about dropout. *)
From Coq Require Import Reals Lra Lia.
From Coquelicot Require Import Coquelicot.
From Verif Require Import Base BaseLemmas Workers_Model Workers_Spec Kern_Model Kern_Spec Kern_Proofs
  Ew_Model Ew_Spec Ew_Proofs Act_Spec Norm_Model Drop_Model Drop_Spec.
Local Open Scope nat_scope.

Lemma bget_combine_seq {X} (d : list X) i : forall k, bget (combine (seq k (length d)) d) i = option_map (fun c => (k + i, c)) (bget d i).
Proof.
  unfold bget. revert i. induction d as [|x d IH]; intros [|i] k; cbn; try reflexivity.
  - rewrite Nat.add_0_r. reflexivity.
  - rewrite IH. destruct (nth_error d i); cbn; [|reflexivity]. repeat f_equal. lia.
Qed.
Lemma pre_bget n f d i : bget (pre n f d) i = option_map (fun c => if i <? n then f i c else c) (bget d i).
Proof.
  unfold pre. unfold bget at 1. rewrite nth_error_map. fold (bget (combine (seq 0 (length d)) d) i). rewrite bget_combine_seq.
  destruct (bget d i); reflexivity.
Qed.
Lemma pre_length n f d : length (pre n f d) = length d.
Proof. unfold pre. rewrite map_length, combine_length, seq_length. lia. Qed.

Lemma xparts_tiles pool thr n : 0 < n -> tiles (xparts pool thr n) n.
Proof. intros H. unfold xparts. destruct (_ <? _); [apply whole_tiles; exact H|apply run_ranges_tiles; exact H]. Qed.

Lemma computes_post {A} call (d : list A) (P Q : list A -> Prop) :
  computes call d P -> (forall d', length d' = length d -> P d' -> Q d') -> computes call d Q.
Proof.
  intros (trs & E & RF & H) HQ. exists trs. split; [exact E|]. split; [exact RF|]. intros ws Hi. destruct (H ws Hi) as (d' & Ed & L & HP). exists d'. auto.
Qed.

Definition apply_out (k : dkind) (p : R) (rnd : list R) (n : nat) (d d' : list xcell) : Prop :=
  length d' = length d /\
  (forall i c, n <= i -> bget d i = Some c -> bget d' i = Some c) /\
  forall i c, i < n -> bget d i = Some c -> exists c', bget d' i = Some c' /\ x_orig c' = x_act c /\ x_dl c' = x_dl c /\
    match k with
    | Classic => x_mask c' = (if Rlt_dec (nth i rnd 0) p then / p else 0)%R /\ x_act c' = dropped p (x_act c) (nth i rnd 0%R)
    | Alpha al mu nu => exists a b m, calc_coeffs al mu nu p = Some (a, b, m) /\
        x_mask c' = (if Rlt_dec (nth i rnd 0) p then a else 0)%R /\ x_act c' = alpha_dropped al a b p (x_act c) (nth i rnd 0%R)
    end.

Lemma coeffs_ok al mu nu p : (0 < p < 1)%R -> (0 < nu)%R ->
  let a := sqrt (nu / (p * ((1 - p) * ((al - mu) * (al - mu)) + nu))) in
  (0 < a)%R /\ (a * a * (p * ((1 - p) * ((al - mu) * (al - mu)) + nu)) = nu)%R /\
  calc_coeffs al mu nu p = Some (a, (mu - a * (p * mu + (1 - p) * al))%R, (a * al + (mu - a * (p * mu + (1 - p) * al)))%R).
Proof.
  intros Hp Hn a. set (D := (p * ((1 - p) * ((al - mu) * (al - mu)) + nu))%R) in *.
  assert (HD : (0 < D)%R).
  { unfold D. apply Rmult_lt_0_compat; [lra|]. assert (0 <= (1 - p) * ((al - mu) * (al - mu)))%R; [|lra].
    apply Rmult_le_pos; [lra|]. apply Rle_0_sqr. }
  assert (HQ : (0 < nu / D)%R) by (apply Rdiv_lt_0_compat; lra).
  split; [apply sqrt_lt_R0; exact HQ|]. split.
  - unfold a. rewrite sqrt_sqrt by lra. field. lra.
  - unfold calc_coeffs, rdiv, rsqrt. fold D. destruct (Req_EM_T D 0); [lra|]. cbn [obind]. destruct (Rlt_dec (nu / D) 0); [lra|]. reflexivity.
Qed.

Lemma apply_correct k pool thr n p rnd d (post : list xcell -> Prop) : 0 < n -> n <= length d -> (0 < p < 1)%R ->
  (forall al mu nu, k = Alpha al mu nu -> (0 < nu)%R) ->
  (forall d', apply_out k p rnd n d d' -> post d') -> dropout_apply k pool thr n p rnd d post.
Proof.
  intros Hn Hd Hp Hk HP. unfold dropout_apply. cbv zeta.
  set (d1 := pre n _ d). set (d2 := pre n _ d1).
  assert (L2 : length d2 = length d) by (unfold d2, d1; rewrite !pre_length; reflexivity).
  assert (G2 : forall i, bget d2 i = option_map (fun c => if i <? n then mkX (x_act c) (nth i rnd 0%R) (x_act c) (x_dl c) else c) (bget d i)).
  { intros i. unfold d2, d1. rewrite !pre_bget. destruct (bget d i); [|reflexivity]. cbn [option_map]. destruct (i <? n); reflexivity. }
  destruct k as [|al mu nu].
  - eapply computes_post; [apply ew_correct; [apply xparts_tiles; exact Hn|lia|]|].
    + intros i v _ _. unfold f_dropout, rdiv. destruct (Req_EM_T p 0); [lra|]. discriminate.
    + intros d' L' [M1 M2]. apply HP. split; [lia|]. split.
      * intros i c Hi Hc. rewrite (M2 i Hi), G2, Hc. cbn [option_map]. destruct (Nat.ltb_spec i n); [lia|reflexivity].
      * intros i c Hi Hc. assert (H2 : bget d2 i = Some (mkX (x_act c) (nth i rnd 0%R) (x_act c) (x_dl c))).
        { rewrite G2, Hc. cbn [option_map]. destruct (Nat.ltb_spec i n); [reflexivity|lia]. }
        destruct (M1 i _ Hi H2) as [E _]. unfold f_dropout, rdiv in E. destruct (Req_EM_T p 0); [lra|]. cbn in E.
        eexists. split; [exact E|]. cbn. split; [reflexivity|]. split; [reflexivity|]. unfold dropped. unfold Rdiv.
        destruct (Rlt_dec (nth i rnd 0%R) p); rewrite ?Rmult_1_l, ?Rmult_0_r; split; reflexivity.
  - destruct (coeffs_ok al mu nu p Hp (Hk _ _ _ eq_refl)) as (Ha & _ & E). eexists _, _, _. split; [exact E|]. set (a := sqrt _) in *.
    eapply computes_post; [apply ew_correct; [apply xparts_tiles; exact Hn|lia|]|].
    + intros i v _ _. unfold f_alpha, rdiv. destruct (Req_EM_T a 0); [lra|]. discriminate.
    + intros d' L' [M1 M2]. apply HP. split; [lia|]. split.
      * intros i c Hi Hc. rewrite (M2 i Hi), G2, Hc. cbn [option_map]. destruct (Nat.ltb_spec i n); [lia|reflexivity].
      * intros i c Hi Hc. assert (H2 : bget d2 i = Some (mkX (x_act c) (nth i rnd 0%R) (x_act c) (x_dl c))).
        { rewrite G2, Hc. cbn [option_map]. destruct (Nat.ltb_spec i n); [reflexivity|lia]. }
        destruct (M1 i _ Hi H2) as [E1 _]. unfold f_alpha, rdiv in E1. destruct (Req_EM_T a 0); [lra|]. cbn in E1.
        eexists. split; [exact E1|]. cbn. split; [reflexivity|]. split; [reflexivity|]. eexists _, _, _. split; [exact E|]. split; [reflexivity|].
        unfold alpha_dropped. destruct (Rlt_dec (nth i rnd 0%R) p); field; exact n0.
Qed.

Lemma restore_correct pool thr n d (post : list xcell -> Prop) : 0 < n -> n <= length d ->
  (forall d', length d' = length d -> (forall i c, n <= i -> bget d i = Some c -> bget d' i = Some c) ->
     (forall i c, i < n -> bget d i = Some c -> bget d' i = Some (mkX (x_orig c) (x_mask c) (x_orig c) (x_dl c * x_mask c)%R)) -> post d') ->
  dropout_restore pool thr n d post.
Proof.
  intros Hn Hd HP. unfold dropout_restore. eapply computes_post; [apply ew_correct; [apply xparts_tiles; exact Hn|lia|discriminate]|].
  intros d' L' [M1 M2]. apply HP.
  - rewrite pre_length. exact L'.
  - intros i c Hi Hc. rewrite pre_bget, (M2 i Hi), Hc. cbn [option_map]. destruct (Nat.ltb_spec i n); [lia|reflexivity].
  - intros i c Hi Hc. destruct (M1 i _ Hi Hc) as [E _]. rewrite pre_bget, E. cbn [option_map]. destruct (Nat.ltb_spec i n); [reflexivity|lia].
Qed.

(** ** Expectations *)
Local Open Scope R_scope.
Lemma int_split p (u w : R) : 0 < p < 1 -> is_RInt (fun v => if Rlt_dec v p then u else w) 0 1 (p * u + (1 - p) * w).
Proof.
  intros Hp. apply (is_RInt_Chasles (V := R_NormedModule) _ 0 p 1 (p * u) ((1 - p) * w)).
  - apply (@is_RInt_ext R_NormedModule) with (f := fun _ => u).
    + intros v Hv. rewrite Rmin_left, Rmax_right in Hv by lra. destruct (Rlt_dec v p); [reflexivity|lra].
    + replace (p * u) with ((p - 0) * u) by ring. apply (is_RInt_const (V := R_NormedModule)).
  - apply (@is_RInt_ext R_NormedModule) with (f := fun _ => w).
    + intros v Hv. rewrite Rmin_left, Rmax_right in Hv by lra. destruct (Rlt_dec v p); [lra|reflexivity].
    + apply (is_RInt_const (V := R_NormedModule)).
Qed.

Lemma dropped_mean p x : 0 < p < 1 -> is_RInt (dropped p x) 0 1 x.
Proof. intros Hp. pose proof (int_split p (x / p) 0 Hp) as H. replace (p * (x / p) + (1 - p) * 0) with x in H by (field; lra). exact H. Qed.

Lemma sumR_cons x l : sumR (x :: l) = x + sumR l.
Proof. reflexivity. Qed.
Lemma int_mean l p (u w : R -> R) : 0 < p < 1 ->
  is_RInt (fun v => mean l (fun x => if Rlt_dec v p then u x else w x)) 0 1 (mean l (fun x => p * u x + (1 - p) * w x)).
Proof.
  intros Hp. unfold mean. induction l as [|[q x] l IH]; cbn [map].
  - assert (H : is_RInt (fun _ : R => 0) 0 1 ((1 - 0) * 0)) by apply (is_RInt_const (V := R_NormedModule)). rewrite Rmult_0_r in H. exact H.
  - rewrite sumR_cons. eapply is_RInt_ext; [intros v _; rewrite sumR_cons; reflexivity|].
    apply (is_RInt_plus (V := R_NormedModule)); [|exact IH]. apply (is_RInt_scal (V := R_NormedModule)). apply int_split. exact Hp.
Qed.

Lemma mean_ext l f g : (forall x, f x = g x) -> mean l f = mean l g.
Proof. intros H. unfold mean. f_equal. apply map_ext. intros [q x]. cbn. rewrite H. reflexivity. Qed.
Lemma mean_lin l c0 c1 c2 mu : sumR (map fst l) = 1 -> mean l (fun x => x) = mu ->
  mean l (fun x => c0 + c1 * x + c2 * (x - mu) ^ 2) = c0 + c1 * mu + c2 * mean l (fun x => (x - mu) ^ 2).
Proof.
  intros H1 H2. assert (G : mean l (fun x => c0 + c1 * x + c2 * (x - mu) ^ 2) = c0 * sumR (map fst l) + c1 * mean l (fun x => x) + c2 * mean l (fun x => (x - mu) ^ 2)).
  { clear H1 H2. unfold mean. induction l as [|[q x] l IH]; cbn [map].
    - unfold sumR; cbn. ring.
    - rewrite !sumR_cons, IH. cbn [fst snd]. ring. }
  rewrite G, H1, H2. ring.
Qed.

Lemma alpha_mean al mu nu p a b m l : 0 < p < 1 -> 0 < nu -> calc_coeffs al mu nu p = Some (a, b, m) -> dist l ->
  mean l (fun x => x) = mu -> mean l (fun x => (x - mu) ^ 2) = nu ->
  is_RInt (fun v => mean l (fun x => alpha_dropped al a b p x v)) 0 1 mu /\
  is_RInt (fun v => mean l (fun x => (alpha_dropped al a b p x v - mu) ^ 2)) 0 1 nu.
Proof.
  intros Hp Hn E [_ H1] Hm Hv. destruct (coeffs_ok al mu nu p Hp Hn) as (Ha & HA & E').
  rewrite E in E'. inversion E' as [[Ea Eb Em]]. rewrite <- Ea in *. rewrite <- Eb in *. clear E E' Em. split.
  - assert (K : mean l (fun x => p * (a * x + b) + (1 - p) * (a * al + b)) = mu).
    { rewrite (mean_ext _ _ (fun x => (p * b + (1 - p) * (a * al + b)) + p * a * x + 0 * (x - mu) ^ 2)) by (intros; ring).
      rewrite mean_lin by assumption. rewrite Eb. ring. }
    rewrite <- K. eapply is_RInt_ext; [|apply int_mean; exact Hp]. intros v _. apply mean_ext. intros x. cbv beta. unfold alpha_dropped. destruct (Rlt_dec v p); reflexivity.
  - assert (K : mean l (fun x => p * (a * x + b - mu) ^ 2 + (1 - p) * (a * al + b - mu) ^ 2) = nu).
    { set (t := a * mu + b - mu).
      rewrite (mean_ext _ _ (fun x => (p * t ^ 2 - p * 2 * a * t * mu + (1 - p) * (a * al + b - mu) ^ 2) + p * 2 * a * t * x + p * a ^ 2 * (x - mu) ^ 2)).
      2:{ intros x. unfold t. ring. }
      rewrite mean_lin by assumption. rewrite Hv. etransitivity; [|exact HA]. unfold t. rewrite Eb. ring. }
    rewrite <- K. eapply is_RInt_ext; [|apply int_mean; exact Hp]. intros v _. apply mean_ext. intros x. cbv beta. unfold alpha_dropped. destruct (Rlt_dec v p); reflexivity.
Qed.
