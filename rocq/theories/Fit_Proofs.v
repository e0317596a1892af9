(** A forward pass evaluates the network's function row by row. *)
From Coq Require Import Reals Lra.
From Coquelicot Require Import Coquelicot.
From Verif Require Import Base BaseLemmas Act_Model Act_Spec Net_Model Net_Spec Net_Proofs Net_Proofs2 Net_Proofs3 Net_Proofs4 Net_Proofs5 Fit_Spec.
Local Open Scope nat_scope.
Notation slice := Net_Model.slice.

Lemma row_length m n r A : length (row m n r A) = n.
Proof. unfold row. rewrite map_length, seq_length. reflexivity. Qed.
Lemma nth_row m n r A c : c < n -> nth c (row m n r A) 0%R = nth (r + c * m) A 0%R.
Proof. intros H. unfold row. rewrite nth_map_seq by assumption. reflexivity. Qed.
Lemma row_eq m n r A v : length v = n -> (forall c, c < n -> nth (r + c * m) A 0%R = nth c v 0%R) -> row m n r A = v.
Proof. intros L H. apply nth_ext0; [rewrite row_length; congruence|]. rewrite row_length. intros q Hq. rewrite nth_row by assumption. apply H, Hq. Qed.

Lemma row_app m n1 n2 r A A' : r < m -> length A = m * n1 -> row m (n1 + n2) r (A ++ A') = row m n1 r A ++ row m n2 r A'.
Proof.
  intros Hr HA. apply row_eq; [rewrite app_length, !row_length; reflexivity|]. intros c Hc.
  destruct (Nat.lt_ge_cases c n1) as [H|H].
  - rewrite !app_nth1 by (rewrite ?row_length; nia). rewrite nth_row by assumption. reflexivity.
  - rewrite !app_nth2 by (rewrite ?row_length; nia). rewrite row_length, nth_row by lia. f_equal. rewrite HA. nia.
Qed.
Lemma row_slice m inc ofs cnt r B : r < m -> ofs + cnt <= inc -> length B = m * inc ->
  row m cnt r (slice (m * ofs) (m * cnt) B) = slice ofs cnt (row m inc r B).
Proof.
  intros Hr H HB. apply row_eq; [rewrite slice_length; rewrite ?row_length; lia|]. intros c Hc.
  rewrite nth_slice by nia. rewrite nth_slice by assumption. rewrite nth_row by lia. f_equal. nia.
Qed.
Lemma row_roll m n k t r B : r < m -> t < k -> row (k * m) n (t * m + r) (roll m n k B) = slice (t * n) n (row m (k * n) r B).
Proof.
  intros Hr Ht. apply row_eq; [rewrite slice_length; rewrite ?row_length; nia|]. intros c Hc.
  rewrite nth_slice by assumption. rewrite nth_row by nia.
  replace (t * m + r + c * (k * m)) with (c * (k * m) + (t * m + r)) by lia.
  rewrite nth_roll by (apply tall_lt; assumption). rewrite ridx_at by (try assumption; lia). f_equal. nia.
Qed.
Lemma nth_flat (f : nat -> list R) n k t c : (forall t, length (f t) = n) -> t < k -> c < n ->
  nth (t * n + c) (flat_map f (seq 0 k)) 0%R = nth c (f t) 0%R.
Proof.
  intros L. assert (G : forall k a, t < k -> c < n -> nth (t * n + c) (flat_map f (seq a k)) 0%R = nth c (f (a + t)) 0%R); [|intros; apply (G k 0); assumption].
  revert t. intros t k'. revert t. induction k' as [|k' IH]; intros t a Ht Hc; [lia|]. cbn [seq flat_map].
  destruct t as [|t].
  - rewrite app_nth1 by (rewrite L; lia). rewrite Nat.add_0_r. reflexivity.
  - rewrite app_nth2 by (rewrite L; lia). rewrite L. replace (S t * n + c - n) with (t * n + c) by lia.
    rewrite IH by lia. f_equal. f_equal. lia.
Qed.
Lemma flat_length (f : nat -> list R) n l : (forall t, length (f t) = n) -> length (flat_map f l) = length l * n.
Proof. intros L. induction l as [|a l IH]; [reflexivity|]. cbn [flat_map length]. rewrite app_length, L, IH. lia. Qed.
Lemma row_unroll m n k r F : r < m -> row m (k * n) r (unroll m n k F) = flat_map (fun t => row (k * m) n (t * m + r) F) (seq 0 k).
Proof.
  intros Hr. apply row_eq; [rewrite (flat_length _ n), seq_length; [reflexivity|intros; apply row_length]|].
  intros q Hq. assert (0 < n) by nia. pose proof (Nat.div_mod q n ltac:(lia)) as D. pose proof (Nat.mod_upper_bound q n ltac:(lia)) as U.
  set (t := q / n) in *. set (c := q mod n) in *. assert (Ht : t < k) by (unfold t; apply Nat.div_lt_upper_bound; lia).
  replace q with (t * n + c) by lia. rewrite (nth_flat _ n k t c) by (try assumption; intros; apply row_length).
  rewrite nth_row by assumption. replace (r + (t * n + c) * m) with ((t * n + c) * m + r) by lia.
  rewrite nth_unroll by (apply wide_lt; assumption). rewrite uidx_at by assumption. f_equal. lia.
Qed.

Lemma zed_row m n inc r c W B : r < m -> length B = m * inc ->
  net_input m n inc (biased m B) W r c = zed n inc W (row m inc r B) c.
Proof.
  intros Hr HB. rewrite net_input_bs. unfold zed. rewrite bs_sumR, bs_app. f_equal.
  - apply bs_ext. intros k Hk. rewrite nth_row by assumption. rewrite nth_biased by nia. reflexivity.
  - unfold bs. cbn. rewrite Nat.add_0_r. rewrite nth_bias by nia. lra.
Qed.
Lemma fc_row m n inc r W B (f : R -> R) : r < m -> length B = m * inc ->
  row m n r (map f (gemm false true m n (inc + 1) 1%R (biased m B) m W n)) = map (fun c => f (zed n inc W (row m inc r B) c)) (seq 0 n).
Proof.
  intros Hr HB. apply row_eq; [rewrite map_length, seq_length; reflexivity|]. intros c Hc.
  rewrite (nth_map_seq (fun c => f (zed n inc W (row m inc r B) c))) by assumption.
  assert (Hq : r + c * m < m * n) by nia.
  rewrite (nth_indep _ 0%R (f 0%R)) by (rewrite map_length, gemm_length; exact Hq). rewrite map_nth. f_equal.
  replace (r + c * m) with (c * m + r) by lia. rewrite gemm_nth by assumption.
  rewrite <- (zed_row m n inc r c W B Hr HB), net_input_bs, Rmult_1_l. reflexivity.
Qed.

(** ** Rows of the activations *)
Lemma fval_row : (forall l m B, wf l -> length B = m * incoming l -> forall r, r < m -> row m (neurons l) r (fval m B l) = out l (row m (incoming l) r B)) /\
  (forall s m B, swf s -> length B = m * sincoming s -> forall r, r < m -> row m (sneurons s) r (sval m B s) = sout s (row m (sincoming s) r B)) /\
  (forall h m B inc, hwf inc h -> length B = m * inc -> forall r, r < m -> row m (hneurons h) r (hval m B h) = hout h (row m inc r B)).
Proof.
  destruct fval_length as (L1 & L2 & L3).
  apply layers_ind.
  - intros id a inc n W G A m B _ HB r Hr. cbn [fval out neurons incoming] in *. apply fc_row; assumption.
  - intros n A m B _ HB r Hr. reflexivity.
  - intros s IH m B H HB r Hr. apply (IH m B H HB r Hr).
  - intros inc h IH b1 b2 m B [_ H] HB r Hr. apply (IH m B inc H HB r Hr).
  - intros k l IH inn A m B [_ H] HB r Hr. cbn [fval out neurons incoming] in *. rewrite row_unroll by assumption.
    rewrite !flat_map_concat_map. f_equal. apply map_ext_in. intros t Ht. apply in_seq in Ht.
    rewrite (IH (k * m)); [|exact H|rewrite roll_length; lia|nia]. f_equal. apply row_roll; [assumption|lia].
  - intros l IH m B H HB r Hr. apply (IH m B H HB r Hr).
  - intros l IH b IHb m B (H1 & H2 & H3) HB r Hr. cbn [sval sout sneurons sincoming] in *.
    rewrite IH; [|exact H1|rewrite H3; apply L2; assumption|exact Hr]. rewrite H3. f_equal. apply IHb; assumption.
  - intros m B inc _ _ r _. reflexivity.
  - intros o c l IH h IHh m B inc (H1 & H2 & H3 & H4) HB r Hr. cbn [hval hout hneurons].
    assert (Hs : length (slice (m * o) (m * c) B) = m * incoming l) by (rewrite H2; apply slice_length; nia).
    rewrite row_app by (try assumption; apply L1; assumption). rewrite (IH m _ H1 Hs r Hr), (IHh m B inc H4 HB r Hr). f_equal.
    f_equal. rewrite H2. apply row_slice; assumption.
Qed.

(** ** Rows and differentiability *)
Lemma smooth_row : (forall l m B, wf l -> length B = m * incoming l ->
    (forall r, r < m -> kinkless l (row m (incoming l) r B)) -> smooth_at m (biased m B) l) /\
  (forall s m B, swf s -> length B = m * sincoming s ->
    (forall r, r < m -> skinkless s (row m (sincoming s) r B)) -> ssmooth_at m (biased m B) s) /\
  (forall h m B inc, hwf inc h -> length B = m * inc ->
    (forall r, r < m -> hkinkless h (row m inc r B)) -> hsmooth_at m inc (biased m B) h).
Proof.
  destruct fval_length as (L1 & L2 & L3). destruct acts_ready as (A1 & A2 & A3). destruct fval_same as (S1 & S2 & S3).
  destruct fval_row as (R1 & R2 & R3). apply layers_ind.
  - intros id a inc n W G A m B _ HB H r c Hr Hc. cbn [incoming] in *. rewrite zed_row by assumption. apply H; assumption.
  - intros; exact I.
  - intros s IH m B H HB Hk. apply IH; assumption.
  - intros inc h IH b1 b2 m B [_ H] HB Hk. apply IH; assumption.
  - intros k l IH inn A m B [_ H] HB Hk. cbn [smooth_at incoming kinkless] in *.
    assert (ER : roll m (incoming l) k (biased m B) = roll m (incoming l) k B)
      by (apply roll_ext; intros q Hq; apply nth_biased; lia).
    rewrite ER. apply IH; [exact H|rewrite roll_length; lia|]. intros q Hq.
    assert (0 < m) by nia. pose proof (Nat.div_mod q m ltac:(lia)) as D. pose proof (Nat.mod_upper_bound q m ltac:(lia)) as U.
    assert (Ht : q / m < k) by (apply Nat.div_lt_upper_bound; lia).
    replace q with (q / m * m + q mod m) by lia. rewrite row_roll by assumption. apply Hk; assumption.
  - intros l IH m B H HB Hk. apply IH; assumption.
  - intros l IH b IHb m B (H1 & H2 & H3) HB Hk. cbn [sincoming skinkless] in *.
    split; [apply IHb; [assumption|assumption|]; intros r Hr; apply Hk, Hr|].
    destruct (proj1 (proj2 fprop_ok) b m B H2 HB) as (b' & E & Q1 & Q2). exists b'. split; [exact E|].
    rewrite (A2 _ _ _ Q2), (S2 _ _ Q1). apply IH; [exact H1|rewrite H3; apply L2; assumption|].
    intros r Hr. rewrite H3, (R2 _ _ _ H2 HB r Hr). apply Hk, Hr.
  - intros; exact I.
  - intros o c l IH h IHh m B inc (H1 & H2 & H3 & H4) HB Hk. cbn [hkinkless] in *.
    split; [|apply IHh; [assumption|assumption|]; intros r Hr; apply Hk, Hr].
    rewrite slice_biased by nia. apply IH; [exact H1|rewrite H2; apply slice_length; nia|].
    intros r Hr. rewrite H2, (row_slice m inc) by assumption. apply Hk, Hr.
Qed.

(** ** The network *)
Lemma under_row m B i x r : net_wf i x -> length B = m * i -> r < m -> row m (n_inc x) r (under m B (n_hid x)) = hidden x (row m i r B).
Proof.
  intros (H1 & _) HB Hr. unfold under, hidden. destruct (n_hid x) as [s|]; [|congruence]. destruct H1 as (G1 & G2 & G3).
  rewrite <- G3, <- G2. apply fval_row; [exact G1|congruence|exact Hr].
Qed.
Lemma under_len m B i x : net_wf i x -> length B = m * i -> length (under m B (n_hid x)) = m * n_inc x.
Proof. intros (H1 & _) HB. apply (under_length m B i); [|exact HB]. destruct (n_hid x); exact H1. Qed.

Lemma net_rows m B i x : net_wf i x -> length B = m * i ->
  exists x1, net_fprop m (biased m B) x = Some x1 /\ length (n_A x1) = m * n_n x /\
    forall r, r < m -> row m (n_n x) r (n_A x1) = net_fun x (row m i r B).
Proof.
  intros Hw HB. destruct (net_fprop_ok m B i x Hw HB) as (h' & E & _). eexists. split; [exact E|]. cbn [n_A].
  split; [rewrite map_length; apply gemm_length|]. intros r Hr.
  rewrite fc_row by (try assumption; apply (under_len m B i); assumption). unfold net_fun.
  rewrite (under_row m B i) by assumption. reflexivity.
Qed.
Lemma loss_rows (f : R -> R -> R) m n A Y : loss_spec f (m * n) A Y = sumR (map (fun r => loss_spec f n (row m n r A) (row m n r Y)) (seq 0 m)).
Proof.
  unfold loss_spec. rewrite (bs_sumR (m * n)), bs_dbl, bs_swap, bs_sumR. apply bs_ext. intros r Hr. rewrite bs_sumR. apply bs_ext. intros c Hc.
  rewrite !nth_row by assumption. replace (c * m + r) with (r + c * m) by lia. reflexivity.
Qed.
Lemma mean_loss_rows m B i Y x : net_wf i x -> length B = m * i ->
  mean_loss m (biased m B) Y x = (/ INR m * sumR (map (fun r => sample_loss x (row m i r B) (row m (n_n x) r Y)) (seq 0 m)))%R.
Proof.
  intros Hw HB. destruct (net_rows m B i x Hw HB) as (x1 & E & _ & HR). unfold mean_loss. rewrite E. f_equal.
  rewrite loss_rows. f_equal. apply map_ext_in. intros r Hr. apply in_seq in Hr. unfold sample_loss. rewrite HR by lia. reflexivity.
Qed.
Lemma net_smooth_rows m B i Y x : net_wf i x -> length B = m * i ->
  (forall r, r < m -> net_kinkless x (row m i r B) (row m (n_n x) r Y)) -> net_smooth m (biased m B) Y x.
Proof.
  intros Hw HB H. pose proof (under_len m B i x Hw HB) as HU. pose proof (fun r => under_row m B i x r Hw HB) as HR.
  destruct Hw as (H1 & _). unfold net_smooth. exists (biased m (under m B (n_hid x))). split.
  - unfold net_kinkless in H. destruct (n_hid x) as [s|]; [|reflexivity]. destruct H1 as (G1 & G2 & G3). split.
    + apply smooth_row; [exact G1|congruence|]. intros r Hr. rewrite G2. apply H, Hr.
    + destruct (proj1 (proj2 fprop_ok) s m B G1) as (s' & E & Q1 & Q2); [congruence|]. exists s'. split; [exact E|].
      cbn [under]. rewrite (proj1 (proj2 acts_ready) _ _ _ Q2), (proj1 (proj2 fval_same) _ _ Q1). reflexivity.
  - intros r c Hr Hc. rewrite zed_row by assumption. rewrite HR by assumption.
    replace (nth (m * c + r) Y 0%R) with (nth c (row m (n_n x) r Y) 0%R) by (rewrite nth_row by assumption; f_equal; lia).
    apply H; assumption.
Qed.
