(** Sums, lists, and the forward pass. *)
From Coq Require Import Reals Bool Lra.
From Coquelicot Require Import Coquelicot.
From Verif Require Import Base BaseLemmas Act_Model Act_Spec Net_Model Net_Spec.
Local Open Scope nat_scope.

(** ** Sums *)
Fixpoint bs (n : nat) (f : nat -> R) : R := match n with 0 => 0%R | S n => (bs n f + f n)%R end.

Lemma bs_ext n f g : (forall i, i < n -> f i = g i) -> bs n f = bs n g.
Proof. induction n as [|n IH]; intros H; simpl; [reflexivity|]. rewrite IH, H by (intros; try apply H; lia). reflexivity. Qed.
Lemma bs_plus n f g : bs n (fun i => f i + g i)%R = (bs n f + bs n g)%R.
Proof. induction n as [|n IH]; simpl; [ring|rewrite IH; ring]. Qed.
Lemma bs_scal n k f : bs n (fun i => k * f i)%R = (k * bs n f)%R.
Proof. induction n as [|n IH]; simpl; [ring|rewrite IH; ring]. Qed.
Lemma bs_scalr n k f : bs n (fun i => f i * k)%R = (bs n f * k)%R.
Proof. induction n as [|n IH]; simpl; [ring|rewrite IH; ring]. Qed.
Lemma bs_0 n f : (forall i, i < n -> f i = 0%R) -> bs n f = 0%R.
Proof. induction n as [|n IH]; intros H; simpl; [reflexivity|]. rewrite IH, H by (intros; try apply H; lia). ring. Qed.
Lemma bs_swap n k (f : nat -> nat -> R) : bs n (fun i => bs k (fun j => f i j)) = bs k (fun j => bs n (fun i => f i j)).
Proof. induction n as [|n IH]; simpl; [symmetry; apply bs_0; reflexivity|]. rewrite IH, <- bs_plus. reflexivity. Qed.
Lemma bs_app a b f : bs (a + b) f = (bs a f + bs b (fun i => f (a + i)%nat))%R.
Proof. induction b as [|b IH]; simpl; [rewrite Nat.add_0_r; ring|]. rewrite Nat.add_succ_r. simpl. rewrite IH. ring. Qed.
Lemma bs_dbl M N f : bs (M * N) f = bs N (fun j => bs M (fun i => f (j * M + i))).
Proof.
  induction N as [|N IH]; simpl; [rewrite Nat.mul_0_r; reflexivity|].
  rewrite Nat.mul_succ_r, bs_app, IH. f_equal. apply bs_ext. intros. f_equal. lia.
Qed.
Lemma bs_rsum n f : rsum (map f (seq 0 n)) = bs n f.
Proof.
  assert (G : forall l l', rsum (l ++ l') = (rsum l + rsum l')%R).
  { unfold rsum. induction l as [|x l IHl]; intros; simpl; [ring|rewrite IHl; ring]. }
  induction n as [|n IH]; [reflexivity|]. rewrite seq_S, map_app, G, IH. simpl. ring.
Qed.
Lemma bs_sumR n f : sumR (map f (seq 0 n)) = bs n f.
Proof. apply bs_rsum. Qed.
Lemma bs_single n k v : k < n -> bs n (fun i => if Nat.eqb i k then v i else 0%R) = v k.
Proof.
  induction n as [|n IH]; intros H; [lia|]. simpl. destruct (Nat.eqb_spec n k) as [->|E].
  - rewrite bs_0; [ring|]. intros i Hi. destruct (Nat.eqb_spec i k); [lia|reflexivity].
  - rewrite IH by lia. ring.
Qed.
Lemma d_bs n (F : R -> nat -> R) dF (x : R) :
  (forall i, i < n -> is_derive (fun t => F t i) x (dF i)) -> is_derive (fun t => bs n (F t)) x (bs n dF).
Proof.
  induction n as [|n IH]; intros H; simpl; [apply (is_derive_const (K := R_AbsRing) (V := R_NormedModule))|].
  apply (is_derive_plus (fun t => bs n (F t)) (fun t => F t n)); [apply IH; intros; apply H; lia|apply H; lia].
Qed.

(** ** Lists *)
Lemma nth_map_seq (f : nat -> R) n q d : q < n -> nth q (map f (seq 0 n)) d = f q.
Proof.
  intros H. rewrite (nth_indep _ d (f 0)) by (rewrite map_length, seq_length; exact H).
  rewrite map_nth, seq_nth by exact H. reflexivity.
Qed.
Lemma nth_ext0 (l l' : list R) : length l = length l' -> (forall q, q < length l -> nth q l 0%R = nth q l' 0%R) -> l = l'.
Proof. intros. apply (nth_ext l l' 0%R 0%R); assumption. Qed.
Lemma nth_firstn (l : list R) n q : q < n -> nth q (firstn n l) 0%R = nth q l 0%R.
Proof. revert l q. induction n as [|n IH]; intros l q H; [lia|]. destruct l, q; simpl; auto. apply IH. lia. Qed.
Lemma nth_skipn (l : list R) n q : nth q (skipn n l) 0%R = nth (n + q) l 0%R.
Proof. revert l. induction n as [|n IH]; intros [|x l]; simpl; auto. destruct q; reflexivity. Qed.
Lemma nth_slice (l : list R) i n q : q < n -> nth q (slice i n l) 0%R = nth (i + q) l 0%R.
Proof. intros. unfold slice. rewrite nth_firstn, nth_skipn by assumption. reflexivity. Qed.
Lemma slice_length (l : list R) i n : i + n <= length l -> length (slice i n l) = n.
Proof. intros. unfold slice. rewrite firstn_length, skipn_length. lia. Qed.
Lemma nth_biased m B q : q < length B -> nth q (biased m B) 0%R = nth q B 0%R.
Proof. intros. unfold biased. apply app_nth1. assumption. Qed.
Lemma nth_repeat' (v : R) n q : q < n -> nth q (repeat v n) 0%R = v.
Proof. revert q. induction n as [|n IH]; intros [|q] H; simpl; try lia; auto. apply IH. lia. Qed.
Lemma nth_bias m B q : length B <= q -> q < length B + m -> nth q (biased m B) 0%R = 1%R.
Proof. intros. unfold biased. rewrite app_nth2 by lia. apply nth_repeat'. lia. Qed.
Lemma biased_length m B : length (biased m B) = length B + m.
Proof. unfold biased. rewrite app_length, repeat_length. reflexivity. Qed.
Lemma overwrite_length i (w l : list R) : i + length w <= length l -> length (overwrite i w l) = length l.
Proof. intros. unfold overwrite. rewrite !app_length, firstn_length, skipn_length. lia. Qed.
Lemma nth_overwrite i (w l : list R) q : i + length w <= length l ->
  nth q (overwrite i w l) 0%R = if (i <=? q) && (q <? i + length w) then nth (q - i) w 0%R else nth q l 0%R.
Proof.
  intros H. unfold overwrite.
  destruct (Nat.leb_spec i q); simpl.
  - rewrite app_nth2 by (rewrite firstn_length; lia). rewrite firstn_length. replace (Nat.min i (length l)) with i by lia.
    destruct (Nat.ltb_spec q (i + length w)).
    + apply app_nth1. lia.
    + rewrite app_nth2 by lia. rewrite nth_skipn. f_equal. lia.
  - rewrite app_nth1 by (rewrite firstn_length; lia). apply nth_firstn. assumption.
Qed.
Lemma gemm_length tA tB M N K alpha A lda B ldb : length (gemm tA tB M N K alpha A lda B ldb) = M * N.
Proof. unfold gemm. rewrite map_length, seq_length. reflexivity. Qed.
Lemma split_lt M N i j : i < M -> j < N -> j * M + i < M * N.
Proof. intros. nia. Qed.
Lemma dm M i j : i < M -> (j * M + i) mod M = i /\ (j * M + i) / M = j.
Proof.
  intros. split; [rewrite Nat.add_comm, Nat.mod_add by lia; apply Nat.mod_small; assumption|].
  rewrite Nat.add_comm, Nat.div_add, Nat.div_small by lia. reflexivity.
Qed.
Lemma gemm_nth tA tB M N K alpha A lda B ldb i j : i < M -> j < N ->
  nth (j * M + i) (gemm tA tB M N K alpha A lda B ldb) 0%R =
  (alpha * bs K (fun k => nth (if tA then k + i * lda else i + k * lda)%nat A 0 * nth (if tB then j + k * ldb else k + j * ldb)%nat B 0))%R.
Proof.
  intros Hi Hj. unfold gemm. rewrite nth_map_seq by (apply split_lt; assumption).
  destruct (dm M i j Hi) as [-> ->]. rewrite bs_rsum. reflexivity.
Qed.

(** ** Tiles *)
Definition ridx (m n k q : nat) : nat := (q mod (k * m)) mod m + m * (((q mod (k * m)) / m) * n + q / (k * m)).
Definition uidx (m n k q : nat) : nat := ((q / m) / n) * m + q mod m + (k * m) * ((q / m) mod n).
Lemma ridx_at m n k t j i : 0 < m -> i < m -> t < k -> ridx m n k (j * (k * m) + (t * m + i)) = (t * n + j) * m + i.
Proof.
  intros Hm Hi Ht. assert (H : t * m + i < k * m) by nia. unfold ridx.
  destruct (dm (k * m) (t * m + i) j H) as [-> ->]. destruct (dm m i t Hi) as [-> ->]. lia.
Qed.
Lemma uidx_at m n k t j i : i < m -> j < n -> uidx m n k ((t * n + j) * m + i) = j * (k * m) + (t * m + i).
Proof.
  intros Hi Hj. unfold uidx. destruct (dm m i (t * n + j) Hi) as [-> ->]. destruct (dm n j t Hj) as [-> ->]. lia.
Qed.
Lemma tall_split m n k q : q < k * m * n -> exists t j i, t < k /\ j < n /\ i < m /\ q = j * (k * m) + (t * m + i).
Proof.
  intros H. assert (0 < m) by nia. assert (0 < k) by nia.
  exists ((q mod (k * m)) / m), (q / (k * m)), ((q mod (k * m)) mod m).
  assert (q mod (k * m) < k * m) by (apply Nat.mod_upper_bound; nia).
  repeat split.
  - apply Nat.div_lt_upper_bound; nia.
  - apply Nat.div_lt_upper_bound; nia.
  - apply Nat.mod_upper_bound. lia.
  - pose proof (Nat.div_mod (q mod (k * m)) m ltac:(lia)) as E1. pose proof (Nat.div_mod q (k * m) ltac:(nia)) as E2.
    rewrite Nat.mul_comm in E1. rewrite Nat.mul_comm in E2. lia.
Qed.
Lemma wide_split m n k q : q < m * (k * n) -> exists t j i, t < k /\ j < n /\ i < m /\ q = (t * n + j) * m + i.
Proof.
  intros H. assert (0 < m) by nia. assert (0 < n) by nia. exists ((q / m) / n), ((q / m) mod n), (q mod m).
  assert (q / m < k * n) by (apply Nat.div_lt_upper_bound; nia).
  repeat split.
  - apply Nat.div_lt_upper_bound; nia.
  - apply Nat.mod_upper_bound. lia.
  - apply Nat.mod_upper_bound. lia.
  - pose proof (Nat.div_mod (q / m) n ltac:(lia)) as E1. pose proof (Nat.div_mod q m ltac:(lia)) as E2.
    rewrite Nat.mul_comm in E1. rewrite <- E1. rewrite Nat.mul_comm in E2. exact E2.
Qed.
Lemma wide_lt m n k t j i : t < k -> j < n -> i < m -> (t * n + j) * m + i < m * (k * n).
Proof. intros. assert (t * n + j < k * n) by nia. nia. Qed.
Lemma tall_lt m n k t j i : t < k -> j < n -> i < m -> j * (k * m) + (t * m + i) < k * m * n.
Proof. intros. assert (t * m + i < k * m) by nia. nia. Qed.
Lemma ridx_lt m n k q : q < k * m * n -> ridx m n k q < m * (k * n).
Proof.
  intros H. destruct (tall_split m n k q H) as (t & j & i & Ht & Hj & Hi & ->).
  rewrite ridx_at by lia. apply wide_lt; assumption.
Qed.
Lemma uidx_lt m n k q : q < m * (k * n) -> uidx m n k q < k * m * n.
Proof.
  intros H. destruct (wide_split m n k q H) as (t & j & i & Ht & Hj & Hi & ->).
  rewrite uidx_at by lia. apply tall_lt; assumption.
Qed.
Lemma roll_length m n k l : length (roll m n k l) = k * m * n.
Proof. unfold roll. rewrite map_length, seq_length. reflexivity. Qed.
Lemma unroll_length m n k l : length (unroll m n k l) = m * (k * n).
Proof. unfold unroll. rewrite map_length, seq_length. reflexivity. Qed.
Lemma nth_roll m n k l q : q < k * m * n -> nth q (roll m n k l) 0%R = nth (ridx m n k q) l 0%R.
Proof. intros. unfold roll. rewrite nth_map_seq by assumption. reflexivity. Qed.
Lemma nth_unroll m n k l q : q < m * (k * n) -> nth q (unroll m n k l) 0%R = nth (uidx m n k q) l 0%R.
Proof. intros. unfold unroll. rewrite nth_map_seq by assumption. reflexivity. Qed.
(** the sum over the wide matrix is the sum over the tall one *)
Lemma tile_sum m n k (f g : nat -> R) :
  bs (m * (k * n)) (fun q => f q * g (uidx m n k q))%R = bs (k * m * n) (fun q => f (ridx m n k q) * g q)%R.
Proof.
  rewrite bs_dbl. rewrite (Nat.mul_comm k n), bs_dbl. rewrite bs_dbl.
  transitivity (bs k (fun t => bs n (fun j => bs m (fun i => f ((t * n + j) * m + i)%nat * g (j * (k * m) + (t * m + i))%nat)%R))).
  - apply bs_ext. intros t Ht. apply bs_ext. intros j Hj. apply bs_ext. intros i Hi.
    rewrite uidx_at by assumption. reflexivity.
  - rewrite bs_swap. apply bs_ext. intros j Hj. rewrite (Nat.mul_comm k m), bs_dbl. apply bs_ext. intros t Ht.
    apply bs_ext. intros i Hi. rewrite <- (Nat.mul_comm k m). rewrite ridx_at by lia. reflexivity.
Qed.
Lemma roll_ext m n k (l l' : list R) : (forall q, q < m * (k * n) -> nth q l 0%R = nth q l' 0%R) -> roll m n k l = roll m n k l'.
Proof.
  intros H. apply nth_ext0; rewrite !roll_length; [reflexivity|]. intros q Hq.
  rewrite !nth_roll by assumption. apply H. apply ridx_lt. assumption.
Qed.
Lemma unroll_ext m n k (l l' : list R) : (forall q, q < k * m * n -> nth q l 0%R = nth q l' 0%R) -> unroll m n k l = unroll m n k l'.
Proof.
  intros H. apply nth_ext0; rewrite !unroll_length; [reflexivity|]. intros q Hq.
  rewrite !nth_unroll by assumption. apply H. apply uidx_lt. assumption.
Qed.

(** ** Windows of the lower layer's activations *)
Lemma part_view m inc ofs cnt B : length B = m * inc -> ofs + cnt <= inc ->
  exists P1, part_ctor m inc ofs cnt (biased m B) = Some (biased m (slice (m * ofs) (m * cnt) B), P1) /\
    part_dtor m inc ofs cnt (slice (m * (ofs + cnt)) m (biased m B)) P1 = biased m B.
Proof.
  intros HB HI. unfold part_ctor, part_dtor. rewrite (proj2 (Nat.leb_le _ _) HI). cbn [guard obind].
  assert (Hs : length (slice (m * ofs) (m * cnt) B) = m * cnt) by (apply slice_length; nia).
  destruct (Nat.ltb_spec (ofs + cnt) inc) as [E|E].
  - assert (Hl : m * (ofs + cnt) + m <= m * inc) by nia.
    assert (HW : length (overwrite (m * (ofs + cnt)) (repeat 1%R m) (biased m B)) = m * inc + m)
      by (rewrite overwrite_length; rewrite ?biased_length, ?repeat_length; lia).
    eexists. split; [f_equal; f_equal|].
    + apply nth_ext0.
      * rewrite slice_length, biased_length, Hs by (rewrite HW; nia). nia.
      * rewrite slice_length by (rewrite HW; nia). intros q Hq. rewrite nth_slice by assumption.
        rewrite nth_overwrite by (rewrite ?biased_length, ?repeat_length; lia). rewrite repeat_length.
        destruct (Nat.lt_ge_cases q (m * cnt)) as [Hq2|Hq2].
        -- rewrite (nth_biased m (slice _ _ _)) by lia. rewrite nth_slice by assumption.
           destruct (Nat.leb_spec (m * (ofs + cnt)) (m * ofs + q)); [nia|]. simpl. apply nth_biased. nia.
        -- rewrite (nth_bias m (slice _ _ _)) by nia. destruct (Nat.leb_spec (m * (ofs + cnt)) (m * ofs + q)); [|nia].
           destruct (Nat.ltb_spec (m * ofs + q) (m * (ofs + cnt) + m)); [|nia]. simpl. apply nth_repeat'. nia.
    + assert (Hs2 : length (slice (m * (ofs + cnt)) m (biased m B)) = m) by (apply slice_length; rewrite biased_length; lia).
      apply nth_ext0.
      * rewrite overwrite_length by (rewrite Hs2, HW; lia). rewrite HW, biased_length. lia.
      * rewrite overwrite_length by (rewrite Hs2, HW; lia). rewrite HW. intros q Hq.
        rewrite nth_overwrite by (rewrite Hs2, HW; lia). rewrite Hs2.
        rewrite nth_overwrite by (rewrite ?biased_length, ?repeat_length; lia). rewrite repeat_length.
        destruct (Nat.leb_spec (m * (ofs + cnt)) q); simpl; [|reflexivity].
        destruct (Nat.ltb_spec q (m * (ofs + cnt) + m)); [|reflexivity].
        rewrite nth_slice by lia. f_equal. lia.
  - assert (inc = ofs + cnt) by lia. subst inc. eexists. split; [f_equal; f_equal|reflexivity].
    apply nth_ext0.
    + rewrite slice_length, biased_length, Hs by (rewrite biased_length; nia). nia.
    + rewrite slice_length by (rewrite biased_length; nia). intros q Hq. rewrite nth_slice by assumption.
      destruct (Nat.lt_ge_cases q (m * cnt)) as [Hq2|Hq2].
      * rewrite !nth_biased by nia. rewrite nth_slice by assumption. reflexivity.
      * rewrite !nth_bias by nia. reflexivity.
Qed.

(** ** Induction over layers *)
Scheme layer_mind := Induction for layer Sort Prop
with stack_mind := Induction for stack Sort Prop
with hpack_mind := Induction for hpack Sort Prop.
Combined Scheme layers_ind from layer_mind, stack_mind, hpack_mind.

(** ** Values of the forward pass *)
Fixpoint fval (m : nat) (B : list R) (l : layer) : list R :=
  match l with
  | LFC _ a inc n W _ _ => map (act_f a) (gemm false true m n (inc + 1) 1%R (biased m B) m W n)
  | LI _ _ => B
  | LPV s => sval m B s
  | LPH _ h _ _ => hval m B h
  | LPT k l _ _ => unroll m (neurons l) k (fval (k * m) (roll m (incoming l) k B) l)
  end
with sval (m : nat) (B : list R) (s : stack) : list R :=
  match s with SOne l => fval m B l | SCons l b => fval m (sval m B b) l end
with hval (m : nat) (B : list R) (h : hpack) : list R :=
  match h with HNil => [] | HCons ofs cnt l h => fval m (slice (m * ofs) (m * cnt) B) l ++ hval m B h end.

(** State after forward propagation of m rows *)
Fixpoint ready (m : nat) (B : list R) (l : layer) : Prop :=
  match l with
  | LFC _ _ _ n _ _ A => A = fval m B l
  | LI _ _ => acts l = fval m B l
  | LPV s => sready m B s
  | LPH inc h _ _ => hready m B h
  | LPT k l' inn A => inn = roll m (incoming l') k B /\ A = fval m B l /\ ready (k * m) inn l'
  end
with sready (m : nat) (B : list R) (s : stack) : Prop :=
  match s with SOne l => ready m B l | SCons l b => sready m B b /\ ready m (sval m B b) l end
with hready (m : nat) (B : list R) (h : hpack) : Prop :=
  match h with HNil => True | HCons ofs cnt l h => ready m (slice (m * ofs) (m * cnt) B) l /\ hready m B h end.

(** same structure and sizes *)
Fixpoint sim (l l' : layer) : Prop :=
  match l, l' with
  | LFC id a inc n W G _, LFC id' a' inc' n' W' G' _ => id = id' /\ a = a' /\ inc = inc' /\ n = n' /\ length W = length W'
  | LI n _, LI n' _ => n = n'
  | LPV s, LPV s' => ssim s s'
  | LPH inc h b1 b2, LPH inc' h' b1' b2' => inc = inc' /\ hsim h h' /\ length b1 = length b1' /\ length b2 = length b2'
  | LPT k l _ _, LPT k' l' _ _ => k = k' /\ sim l l'
  | _, _ => False
  end
with ssim (s s' : stack) : Prop :=
  match s, s' with
  | SOne l, SOne l' => sim l l'
  | SCons l b, SCons l' b' => sim l l' /\ ssim b b'
  | _, _ => False
  end
with hsim (h h' : hpack) : Prop :=
  match h, h' with
  | HNil, HNil => True
  | HCons o c l h, HCons o' c' l' h' => o = o' /\ c = c' /\ sim l l' /\ hsim h h'
  | _, _ => False
  end.

Lemma sim_neurons : (forall l l', sim l l' -> neurons l' = neurons l) /\
  (forall s s', ssim s s' -> sneurons s' = sneurons s) /\ (forall h h', hsim h h' -> hneurons h' = hneurons h).
Proof.
  apply layers_ind.
  - intros id a inc n W G A [] H; try contradiction. simpl in *. intuition congruence.
  - intros n A [] H; try contradiction. simpl in *. congruence.
  - intros s IH [] H; try contradiction. apply (IH s0 H).
  - intros inc h IH b1 b2 [] H; try contradiction. simpl in *. apply IH. tauto.
  - intros k l IH inn A [] H; try contradiction. simpl in *. destruct H as [-> H]. rewrite (IH _ H). reflexivity.
  - intros l IH [] H; try contradiction. apply (IH _ H).
  - intros l IH b IHb [] H; try contradiction. apply IH. apply H.
  - intros [] H; try contradiction. reflexivity.
  - intros o c l IH h IHh [] H; try contradiction. simpl in *. destruct H as (_ & _ & H1 & H2).
    rewrite (IH _ H1), (IHh _ H2). reflexivity.
Qed.
Lemma sim_incoming : (forall l l', sim l l' -> incoming l' = incoming l) /\
  (forall s s', ssim s s' -> sincoming s' = sincoming s) /\ (forall h h', hsim h h' -> True).
Proof.
  apply layers_ind; try (intros; exact I).
  - intros id a inc n W G A [] H; try contradiction. simpl in *. intuition congruence.
  - intros n A [] H; try contradiction. simpl in *. congruence.
  - intros s IH [] H; try contradiction. apply (IH s0 H).
  - intros inc h IH b1 b2 [] H; try contradiction. simpl in *. intuition congruence.
  - intros k l IH inn A [] H; try contradiction. simpl in *. destruct H as [-> H]. rewrite (IH _ H). reflexivity.
  - intros l IH [] H; try contradiction. apply (IH _ H).
  - intros l IH b IHb [] H; try contradiction. destruct H as [H1 H2]. exact (IHb _ H2).
Qed.
Lemma sim_wf : (forall l l', sim l l' -> wf l -> wf l') /\ (forall s s', ssim s s' -> swf s -> swf s') /\
  (forall h h', hsim h h' -> forall inc, hwf inc h -> hwf inc h').
Proof.
  destruct sim_neurons as (N1 & N2 & N3). destruct sim_incoming as (I1 & I2 & _).
  apply layers_ind.
  - intros id a inc n W G A [] H; try contradiction. simpl in *. destruct H as (-> & -> & -> & -> & E). rewrite <- E. tauto.
  - intros n A [] H; try contradiction. simpl in *. congruence.
  - intros s IH [] H; try contradiction. apply (IH s0 H).
  - intros inc h IH b1 b2 [] H; try contradiction. simpl in *. destruct H as (-> & H & _ & _).
    rewrite (N3 _ _ H). intros [H1 H2]. split; [assumption|]. apply (IH _ H _ H2).
  - intros k l IH inn A [] H; try contradiction. simpl in *. destruct H as [-> H]. intros [H1 H2].
    split; [assumption|]. apply (IH _ H H2).
  - intros l IH [] H; try contradiction. apply (IH _ H).
  - intros l IH b IHb [] H; try contradiction. simpl in *. destruct H as [H1 H2]. intros (A1 & A2 & A3).
    rewrite (I1 _ _ H1), (N2 _ _ H2). auto.
  - intros [] H; try contradiction. auto.
  - intros o c l IH h IHh [] H; try contradiction. simpl in *. destruct H as (-> & -> & H1 & H2). intros inc (A1 & A2 & A3 & A4).
    rewrite (I1 _ _ H1). auto.
Qed.
Lemma sim_max : (forall l l', sim l l' -> forall M, max_dLdA M l' = max_dLdA M l) /\
  (forall s s', ssim s s' -> forall M, smax_dLdA M s' = smax_dLdA M s) /\
  (forall h h', hsim h h' -> forall M, hmax_dLdA M h' = hmax_dLdA M h /\ maxInc h' = maxInc h).
Proof.
  destruct sim_neurons as (N1 & N2 & N3). destruct sim_incoming as (I1 & I2 & _).
  apply layers_ind.
  - intros id a inc n W G A [] H; try contradiction. simpl in *. destruct H as (-> & -> & -> & -> & E). reflexivity.
  - intros n A [] H; try contradiction. reflexivity.
  - intros s IH [] H; try contradiction. apply (IH s0 H).
  - intros inc h IH b1 b2 [] H; try contradiction. simpl in *. destruct H as (-> & H & _ & _). rewrite (N3 _ _ H). reflexivity.
  - intros k l IH inn A [] H; try contradiction. simpl in *. destruct H as [-> H]. intros M.
    rewrite (N1 _ _ H), (I1 _ _ H), (IH _ H). reflexivity.
  - intros l IH [] H; try contradiction. apply (IH _ H).
  - intros l IH b IHb [] H; try contradiction. simpl in *. destruct H as [H1 H2]. intros M. rewrite (IH _ H1), (IHb _ H2). reflexivity.
  - intros [] H; try contradiction. auto.
  - intros o c l IH h IHh [] H M; try contradiction. simpl in *. destruct H as (-> & -> & H1 & H2).
    destruct (IHh _ H2 M) as [-> ->]. rewrite (IH _ H1), (I1 _ _ H1). auto.
Qed.
Lemma sim_inited : (forall l l', sim l l' -> forall M, inited M l -> inited M l') /\
  (forall s s', ssim s s' -> forall M, sinited M s -> sinited M s') /\
  (forall h h', hsim h h' -> forall M, hinited M h -> hinited M h').
Proof.
  destruct sim_max as (_ & _ & M3).
  apply layers_ind.
  - intros id a inc n W G A [] H; try contradiction. simpl in *. auto.
  - intros n A [] H; try contradiction. simpl. auto.
  - intros s IH [] H; try contradiction. apply (IH s0 H).
  - intros inc h IH b1 b2 [] H M; try contradiction. simpl in *. destruct H as (-> & H & <- & <-).
    unfold inner_cap. destruct (M3 _ _ H M) as [-> ->]. intuition eauto.
  - intros k l IH inn A [] H M; try contradiction. simpl in *. destruct H as [-> H]. apply (IH _ H).
  - intros l IH [] H; try contradiction. apply (IH _ H).
  - intros l IH b IHb [] H M; try contradiction. simpl in *. destruct H as [H1 H2]. intros [A1 A2]. eauto.
  - intros [] H; try contradiction. auto.
  - intros o c l IH h IHh [] H M; try contradiction. simpl in *. destruct H as (-> & -> & H1 & H2). intros [A1 A2]. eauto.
Qed.
Lemma sim_bottom : (forall l l', sim l l' -> bottom_id l' = bottom_id l) /\
  (forall s s', ssim s s' -> sbottom_id s' = sbottom_id s) /\ (forall h h', hsim h h' -> True).
Proof.
  apply layers_ind; try (intros; exact I).
  - intros id a inc n W G A [] H; try contradiction. reflexivity.
  - intros n A [] H; try contradiction. reflexivity.
  - intros s IH [] H; try contradiction. apply (IH s0 H).
  - intros inc h IH b1 b2 [] H; try contradiction. reflexivity.
  - intros k l IH inn A [] H; try contradiction. reflexivity.
  - intros l IH [] H; try contradiction. apply (IH _ H).
  - intros l IH b IHb [] H; try contradiction. destruct H as [H1 H2]. exact (IHb _ H2).
Qed.
(** same weights, structure and storages; other activations *)
Fixpoint same (l l' : layer) : Prop :=
  match l, l' with
  | LFC id a inc n W G _, LFC id' a' inc' n' W' G' _ => id = id' /\ a = a' /\ inc = inc' /\ n = n' /\ W = W' /\ G = G'
  | LI n _, LI n' _ => n = n'
  | LPV s, LPV s' => ssame s s'
  | LPH inc h b1 b2, LPH inc' h' b1' b2' => inc = inc' /\ hsame h h' /\ b1 = b1' /\ b2 = b2'
  | LPT k l _ _, LPT k' l' _ _ => k = k' /\ same l l'
  | _, _ => False
  end
with ssame (s s' : stack) : Prop :=
  match s, s' with
  | SOne l, SOne l' => same l l'
  | SCons l b, SCons l' b' => same l l' /\ ssame b b'
  | _, _ => False
  end
with hsame (h h' : hpack) : Prop :=
  match h, h' with
  | HNil, HNil => True
  | HCons o c l h, HCons o' c' l' h' => o = o' /\ c = c' /\ same l l' /\ hsame h h'
  | _, _ => False
  end.

Lemma same_sim : (forall l l', same l l' -> sim l l') /\ (forall s s', ssame s s' -> ssim s s') /\ (forall h h', hsame h h' -> hsim h h').
Proof.
  apply layers_ind.
  - intros id a inc n W G A [] H; try contradiction. simpl in *. intuition congruence.
  - intros n A [] H; try contradiction. exact H.
  - intros s IH [] H; try contradiction. apply (IH s0 H).
  - intros inc h IH b1 b2 [] H; try contradiction. simpl in *. destruct H as (-> & H & -> & ->). auto.
  - intros k l IH inn A [] H; try contradiction. simpl in *. destruct H as [-> H]. auto.
  - intros l IH [] H; try contradiction. apply (IH _ H).
  - intros l IH b IHb [] H; try contradiction. simpl in *. destruct H as [H1 H2]. auto.
  - intros [] H; try contradiction. exact I.
  - intros o c l IH h IHh [] H; try contradiction. simpl in *. destruct H as (-> & -> & H1 & H2). auto.
Qed.
Lemma same_neurons : (forall l l', same l l' -> neurons l' = neurons l) /\
  (forall s s', ssame s s' -> sneurons s' = sneurons s) /\ (forall h h', hsame h h' -> hneurons h' = hneurons h).
Proof.
  destruct same_sim as (S1 & S2 & S3). destruct sim_neurons as (H1 & H2 & H3).
  split; [|split]; eauto.
Qed.
Lemma same_incoming : (forall l l', same l l' -> incoming l' = incoming l) /\
  (forall s s', ssame s s' -> sincoming s' = sincoming s) /\ (forall h h', hsame h h' -> True).
Proof.
  destruct same_sim as (S1 & S2 & S3). destruct sim_incoming as (H1 & H2 & H3).
  split; [|split]; eauto.
Qed.
Lemma same_wf : (forall l l', same l l' -> wf l -> wf l') /\ (forall s s', ssame s s' -> swf s -> swf s') /\
  (forall h h', hsame h h' -> forall inc, hwf inc h -> hwf inc h').
Proof.
  destruct same_sim as (S1 & S2 & S3). destruct sim_wf as (H1 & H2 & H3).
  split; [|split]; eauto.
Qed.
Lemma same_max : (forall l l', same l l' -> forall M, max_dLdA M l' = max_dLdA M l) /\
  (forall s s', ssame s s' -> forall M, smax_dLdA M s' = smax_dLdA M s) /\
  (forall h h', hsame h h' -> forall M, hmax_dLdA M h' = hmax_dLdA M h /\ maxInc h' = maxInc h).
Proof.
  destruct same_sim as (S1 & S2 & S3). destruct sim_max as (H1 & H2 & H3).
  split; [|split]; eauto.
Qed.
Lemma same_inited : (forall l l', same l l' -> forall M, inited M l -> inited M l') /\
  (forall s s', ssame s s' -> forall M, sinited M s -> sinited M s') /\
  (forall h h', hsame h h' -> forall M, hinited M h -> hinited M h').
Proof.
  destruct same_sim as (S1 & S2 & S3). destruct sim_inited as (H1 & H2 & H3).
  split; [|split]; eauto.
Qed.
Lemma same_bottom : (forall l l', same l l' -> bottom_id l' = bottom_id l) /\
  (forall s s', ssame s s' -> sbottom_id s' = sbottom_id s) /\ (forall h h', hsame h h' -> True).
Proof.
  destruct same_sim as (S1 & S2 & S3). destruct sim_bottom as (H1 & H2 & H3).
  split; [|split]; eauto.
Qed.

Lemma fval_same : (forall l l', same l l' -> forall m B, fval m B l' = fval m B l) /\
  (forall s s', ssame s s' -> forall m B, sval m B s' = sval m B s) /\
  (forall h h', hsame h h' -> forall m B, hval m B h' = hval m B h).
Proof.
  destruct same_neurons as (N1 & N2 & N3). destruct same_incoming as (I1 & I2 & _).
  apply layers_ind.
  - intros id a inc n W G A [] H; try contradiction. simpl in *. destruct H as (-> & -> & -> & -> & -> & ->). reflexivity.
  - intros n A [] H; try contradiction. reflexivity.
  - intros s IH [] H; try contradiction. apply (IH s0 H).
  - intros inc h IH b1 b2 [] H; try contradiction. apply IH. apply H.
  - intros k l IH inn A [] H; try contradiction. simpl in *. destruct H as [-> H]. intros m B.
    rewrite (N1 _ _ H), (I1 _ _ H), (IH _ H). reflexivity.
  - intros l IH [] H; try contradiction. apply (IH _ H).
  - intros l IH b IHb [] H; try contradiction. simpl in *. destruct H as [H1 H2]. intros m B. rewrite (IHb _ H2), (IH _ H1). reflexivity.
  - intros [] H; try contradiction. reflexivity.
  - intros o c l IH h IHh [] H; try contradiction. simpl in *. destruct H as (-> & -> & H1 & H2). intros m B.
    rewrite (IH _ H1), (IHh _ H2). reflexivity.
Qed.

Lemma fval_length : (forall l m B, wf l -> length B = m * incoming l -> length (fval m B l) = m * neurons l) /\
  (forall s m B, swf s -> length B = m * sincoming s -> length (sval m B s) = m * sneurons s) /\
  (forall h m B inc, hwf inc h -> length B = m * inc -> length (hval m B h) = m * hneurons h).
Proof.
  apply layers_ind.
  - intros id a inc n W G A m B _ _. simpl. rewrite map_length, gemm_length. reflexivity.
  - intros n A m B _ H. exact H.
  - intros s IH m B H HB. apply (IH m B H HB).
  - intros inc h IH b1 b2 m B [_ H] HB. apply (IH m B inc H HB).
  - intros k l IH inn A m B _ _. simpl. rewrite unroll_length. reflexivity.
  - intros l IH m B H HB. apply (IH m B H HB).
  - intros l IH b IHb m B (H1 & H2 & H3) HB. simpl. apply IH; [assumption|]. rewrite H3. apply IHb; assumption.
  - intros. simpl. lia.
  - intros o c l IH h IHh m B inc (H1 & H2 & H3 & H4) HB. simpl. rewrite app_length.
    rewrite IH, (IHh m B inc) by (try assumption; rewrite slice_length; nia). lia.
Qed.

Lemma acts_ready : (forall l m B, ready m B l -> acts l = fval m B l) /\ (forall s m B, sready m B s -> sacts s = sval m B s) /\
  (forall h m B, hready m B h -> hacts h = hval m B h).
Proof.
  apply layers_ind.
  - intros id a inc n W G A m B H. exact H.
  - intros n A m B H. exact H.
  - intros s IH m B H. apply (IH m B H).
  - intros inc h IH b1 b2 m B H. apply (IH m B H).
  - intros k l IH inn A m B (H1 & H2 & H3). exact H2.
  - intros l IH m B H. apply (IH m B H).
  - intros l IH b IHb m B [H1 H2]. apply (IH _ _ H2).
  - reflexivity.
  - intros o c l IH h IHh m B [H1 H2]. simpl. rewrite (IH _ _ H1), (IHh _ _ H2). reflexivity.
Qed.

Lemma fprop_ok : (forall l m B, wf l -> length B = m * incoming l ->
    exists l', fprop m (biased m B) l = Some l' /\ same l l' /\ ready m B l') /\
  (forall s m B, swf s -> length B = m * sincoming s ->
    exists s', sfprop m (biased m B) s = Some s' /\ ssame s s' /\ sready m B s') /\
  (forall h m B inc, hwf inc h -> length B = m * inc ->
    exists h', hfprop m inc (biased m B) h = Some (h', biased m B) /\ hsame h h' /\ hready m B h').
Proof.
  destruct same_neurons as (N1 & N2 & N3). destruct same_incoming as (I1 & I2 & _).
  destruct fval_length as (L1 & L2 & L3). destruct acts_ready as (A1 & A2 & A3). destruct fval_same as (S1 & S2 & S3).
  apply layers_ind.
  - intros id a inc n W G A m B (H1 & H2 & H3 & H4) HB. simpl in HB. cbn [fprop].
    rewrite biased_length, HB. replace (m * inc + m) with (m * (inc + 1)) by lia. rewrite Nat.eqb_refl, (proj2 (Nat.eqb_eq _ _) H3).
    cbn [andb guard obind]. eexists. split; [reflexivity|]. split; [repeat split|reflexivity].
  - intros n A m B Hn HB. simpl in HB. cbn [fprop]. rewrite biased_length, HB. replace (m * n + m) with (m * (n + 1)) by lia.
    rewrite Nat.eqb_refl. cbn [guard obind]. eexists. split; [reflexivity|]. split; [reflexivity|].
    simpl. unfold biased. rewrite firstn_app, HB, Nat.sub_diag. simpl. rewrite app_nil_r. rewrite <- HB. apply firstn_all.
  - intros s IH m B H HB. destruct (IH m B H HB) as (s' & E & H1 & H2). exists (LPV s'). cbn [fprop]. rewrite E. auto.
  - intros inc h IH b1 b2 m B [H0 H] HB. simpl in HB. destruct (IH m B inc H HB) as (h' & E & H1 & H2).
    exists (LPH inc h' b1 b2). cbn [fprop]. rewrite biased_length, HB. replace (m * inc + m) with (m * (inc + 1)) by lia.
    rewrite Nat.eqb_refl. cbn [guard obind]. rewrite E. cbn [obind fst]. simpl. auto 6.
  - intros k l IH inn A m B [H0 H] HB. simpl in HB. cbn [fprop]. rewrite biased_length, HB.
    replace (m * (k * incoming l) + m) with (m * (k * incoming l + 1)) by lia.
    rewrite Nat.eqb_refl. cbn [guard obind].
    assert (ER : roll m (incoming l) k (biased m B) = roll m (incoming l) k B)
      by (apply roll_ext; intros q Hq; apply nth_biased; lia).
    rewrite ER.
    destruct (IH (k * m) (roll m (incoming l) k B) H) as (l' & E & H1 & H2); [rewrite roll_length; lia|].
    rewrite E. cbn [obind]. eexists. split; [reflexivity|]. split; [simpl; auto|].
    simpl. rewrite (I1 _ _ H1), (N1 _ _ H1). split; [reflexivity|]. split; [|assumption].
    rewrite (A1 _ _ _ H2). reflexivity.
  - intros l IH m B H HB. destruct (IH m B H HB) as (s' & E & H1 & H2). exists (SOne s'). cbn [sfprop]. rewrite E. auto.
  - intros l IH b IHb m B (H1 & H2 & H3) HB. simpl in HB. destruct (IHb m B H2 HB) as (b' & E & G1 & G2).
    cbn [sfprop]. rewrite E. cbn [obind]. rewrite (A2 _ _ _ G2), (S2 _ _ G1).
    destruct (IH m (sval m B b) H1) as (l' & E' & G3 & G4); [rewrite L2, H3 by assumption; reflexivity|].
    rewrite E'. cbn [obind]. eexists. split; [reflexivity|]. simpl. rewrite (S2 _ _ G1). auto.
  - intros m B inc _ _. exists HNil. simpl. auto.
  - intros o c l IH h IHh m B inc (H1 & H2 & H3 & H4) HB. cbn [hfprop].
    destruct (part_view m inc o c B HB H3) as (P1 & E1 & E2). rewrite E1. cbn [obind fst snd].
    destruct (IH m (slice (m * o) (m * c) B) H1) as (l' & E3 & G1 & G2); [rewrite slice_length; nia|].
    rewrite E3. cbn [obind]. rewrite E2. destruct (IHh m B inc H4 HB) as (h' & E4 & G3 & G4).
    rewrite E4. cbn [obind fst snd]. eexists. split; [reflexivity|]. simpl. auto 8.
Qed.
