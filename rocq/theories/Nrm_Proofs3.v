(** Looking at the data: what the accumulators have seen after a walk. *)
From Coq Require Import Reals Lra Permutation.
From Verif Require Import Base BaseLemmas Workers_Model Act_Spec Loss_Proofs Kern_Model Kern_Spec Kern_Proofs
  Smx_Model Smx_Spec TData_Model TData_Spec TData_Proofs2 TData_Proofs3 TData_Proofs4 TData_Proofs5 Nrm_Model Nrm_Spec Nrm_Proofs Nrm_Proofs2.
Local Open Scope nat_scope.

(** ** Lists *)
Lemma flat_map_swap {I J C} (f : I -> J -> C) (is : list I) (js : list J) :
  Permutation (flat_map (fun j => map (fun i => f i j) is) js) (flat_map (fun i => map (f i) js) is).
Proof.
  induction js as [|j js IH]; cbn [flat_map map].
  - induction is; [constructor|assumption].
  - eapply perm_trans; [apply Permutation_app_head; exact IH|]. clear IH. induction is as [|i is IH]; [constructor|]. cbn [map flat_map app].
    apply perm_skip. eapply perm_trans; [|apply Permutation_app_head; exact IH]. rewrite !app_assoc. apply Permutation_app_tail. apply Permutation_app_comm.
Qed.

Lemma nth_error_firstn_lt {C} (l : list C) n k : k < n -> nth_error (firstn n l) k = nth_error l k.
Proof. revert l k. induction n as [|n IH]; intros l k Hk; [lia|]. destruct l; [destruct k; reflexivity|]. destruct k; [reflexivity|]. cbn. apply IH. lia. Qed.
Lemma read_ok l i n g : (forall k, k < n -> bget l (i + k) = Some (g k)) -> (0 < n \/ i <= length l) -> read l i n = Some (map g (seq 0 n)).
Proof.
  intros H H0. unfold read. assert (Hl : i + n <= length l).
  { destruct n; [lia|]. specialize (H n). assert (bget l (i + n) = Some (g n)) by (apply H; lia). apply bget_some_lt in H1. lia. }
  rewrite (proj2 (Nat.leb_le _ _) Hl). cbn [guard obind]. f_equal.
  apply (nth_ext _ _ 0%R 0%R); [rewrite firstn_length, skipn_length, map_length, seq_length; lia|].
  intros k Hk. rewrite firstn_length, skipn_length in Hk. assert (k < n) by lia.
  pose proof (H k H1) as E.
  assert (E1 : nth_error (firstn n (skipn i l)) k = Some (g k)).
  { rewrite nth_error_firstn_lt by assumption. change (bget (skipn i l) k = Some (g k)). rewrite bget_skipn. exact E. }
  assert (E2 : nth_error (map g (seq 0 n)) k = Some (g k)).
  { apply map_nth_error. apply nth_error_seq. assumption. }
  rewrite (nth_error_nth _ _ _ E1), (nth_error_nth _ _ _ E2). reflexivity.
Qed.

(** ** A batch *)
Definition ids_in (x : smx R) (ids : list nat) : Prop := Forall (fun i => i < batch_size x) ids.

Lemma batch_col (x b : smx R) ids l : xdata x -> holds 1%R b x ids -> s_data b = Some l -> ids <> [] -> forall j, j < sample_size x ->
  read l (s_rows b * j) (s_rows b) = Some (map (fun i => xv x i j) ids).
Proof.
  intros Hx (Hb & Hs & Hbir & Hbias & Hw & _ & Hc) D Hne j Hj. pose proof Hx as (_ & Xbir & _). rewrite Xbir in Hbir.
  unfold batch_size in Hb. rewrite Hbir in Hb. rewrite Hb.
  rewrite (read_ok l (length ids * j) (length ids) (fun k => xv x (nth k ids 0) j)).
  - f_equal. rewrite <- (map_map (fun k => nth k ids 0) (fun i => xv x i j)). f_equal.
    apply (nth_ext _ _ 0 0); [rewrite map_length, seq_length; reflexivity|]. rewrite map_length, seq_length. intros k Hk.
    rewrite (nth_error_nth _ _ _ (map_nth_error (fun k => nth k ids 0) k (seq 0 (length ids)) (nth_error_seq 0 (length ids) k Hk))). reflexivity.
  - intros k Hk. destruct (Hc k (nth k ids 0) j) as [E1 E2]; [apply nth_error_nth'; exact Hk|exact Hj|].
    unfold xv. rewrite <- E1. unfold scell in *. rewrite Hbir in *. unfold cell in *. rewrite D in *. cbn [obind] in *. rewrite Hb in *.
    rewrite (Nat.add_comm (length ids * j) k). destruct (bget l (k + length ids * j)); [reflexivity|congruence].
  - left. destruct ids; [congruence|cbn; lia].
Qed.

Lemma read_app l i n m : read l i (n + m) = (do a <- read l i n; do b <- read l (i + n) m; Some (a ++ b)).
Proof.
  unfold read. destruct (Nat.leb_spec (i + (n + m)) (length l)).
  - rewrite (proj2 (Nat.leb_le (i + n) _)) by lia. rewrite (proj2 (Nat.leb_le (i + n + m) _)) by lia. cbn [guard obind]. f_equal.
    assert (E : skipn (i + n) l = skipn n (skipn i l)).
    { clear. revert l. induction i; intros l; [reflexivity|]. destruct l; [destruct n; reflexivity|]. apply IHi. }
    rewrite E. generalize (skipn i l). intros k. clear. revert k. induction n; intros k; [reflexivity|]. destruct k; [destruct m; reflexivity|]. cbn. f_equal. apply IHn.
  - cbn [guard obind]. destruct (Nat.leb_spec (i + n) (length l)); [|reflexivity]. cbn [guard obind].
    rewrite (proj2 (Nat.leb_gt (i + n + m) _)) by lia. reflexivity.
Qed.

Lemma batch_all (x b : smx R) ids l : xdata x -> holds 1%R b x ids -> s_data b = Some l -> ids <> [] -> forall W, W <= sample_size x ->
  read l 0 (s_rows b * W) = Some (flat_map (fun j => map (fun i => xv x i j) ids) (seq 0 W)).
Proof.
  intros Hx Hh D Hne. induction W as [|W IH]; intros HW.
  - rewrite Nat.mul_0_r. unfold read. cbn [Nat.add]. rewrite (proj2 (Nat.leb_le 0 _)) by lia. reflexivity.
  - rewrite Nat.mul_succ_r, read_app, IH by lia. cbn [obind Nat.add]. rewrite (batch_col x b ids l Hx Hh D Hne) by lia. cbn [obind].
    rewrite seq_S, flat_map_app. cbn [flat_map Nat.add]. rewrite app_nil_r. reflexivity.
Qed.

Lemma feed_ok (x b : smx R) ids prev : xdata x -> holds 1%R b x ids -> ids <> [] ->
  feed b (seen prev) = Some (seen (prev ++ flat_map (fun i => map (xv x i) (seq 0 (sample_size x))) ids)).
Proof.
  intros Hx Hh Hne. pose proof Hh as (Hb & Hs & Hbir & Hbias & Hw & _ & Hc). pose proof Hx as (_ & Xbir & Xb & _).
  destruct Hw as (_ & _ & l & D & _). unfold feed. rewrite Hbir, Xbir. cbn [negb guard obind]. rewrite D. cbn [obind].
  assert (En : s_numel_nb b = s_rows b * sample_size x).
  { rewrite <- Hs. unfold s_numel_nb, sample_size, s_rows_nb, s_bias_row. rewrite Hbir, Xbir, andb_false_r. cbn [Nat.b2n]. rewrite Nat.sub_0_r. reflexivity. }
  rewrite En, (batch_all x b ids l Hx Hh D Hne) by lia. cbn [obind]. f_equal. rewrite seen_app. apply seen_perm. apply Permutation_app_head.
  apply flat_map_swap.
Qed.

Lemma feed_cols_ok (x b : smx R) ids l prev : xdata x -> holds 1%R b x ids -> s_data b = Some l -> ids <> [] -> forall n c, c + n <= sample_size x ->
  feed_cols b l c (map (fun j => seen (map (fun i => xv x i j) prev)) (seq c n)) = Some (map (fun j => seen (map (fun i => xv x i j) (prev ++ ids))) (seq c n)).
Proof.
  intros Hx Hh D Hne. induction n as [|n IH]; intros c Hc; [reflexivity|]. cbn [seq map feed_cols].
  rewrite (batch_col x b ids l Hx Hh D Hne) by lia. cbn [obind]. replace (c + 1) with (S c) by lia. rewrite IH by lia. cbn [obind].
  rewrite seen_app, <- map_app. reflexivity.
Qed.
Lemma feed_cw_ok (x b : smx R) ids prev : xdata x -> holds 1%R b x ids -> ids <> [] ->
  feed_cw b (map (fun j => seen (map (fun i => xv x i j) prev)) (seq 0 (sample_size x))) =
  Some (map (fun j => seen (map (fun i => xv x i j) (prev ++ ids))) (seq 0 (sample_size x))).
Proof.
  intros Hx Hh Hne. pose proof Hh as (Hb & Hs & Hbir & Hbias & Hw & _ & Hc). pose proof Hx as (_ & Xbir & Xb & _).
  destruct Hw as (_ & _ & l & D & _). unfold feed_cw. rewrite Hbir, Xbir. cbn [negb guard obind]. rewrite D. cbn [obind].
  apply (feed_cols_ok x b ids l prev Hx Hh D Hne). lia.
Qed.

(** ** A walk *)
Section G.
Context {B : Type} (oneB : B).
Notation sets := (sets R B). Notation tds := (tds R B). Notation imath := (imath R B).

Lemma gather_ok {D} (f : smx R -> D -> option D) (Rl : list nat -> D -> Prop) (S : sets) fp tb n (im : nat -> imath) :
  coherent 1%R S -> (forall k, im_ok (im k)) -> 0 < n <= cnt S 0 ->
  (forall b ids prev d, holds 1%R b (x0 S) ids -> ids <> [] -> Rl prev d -> exists d', f b d = Some d' /\ Rl (prev ++ ids) d') ->
  forall m k t d prev, InvW 1%R oneB S fp tb t (Walking 0 n 2 k) -> Rl prev d -> k + m <= subsets (cnt S 0) n ->
  exists d' t' ph, gather f im S t k m d = Some (d', t') /\ Rl (prev ++ concat (map (slice (seq 0 (cnt S 0)) n) (seq k m))) d' /\
    InvW 1%R oneB S fp tb t' ph /\ t_mini t' = t_mini t /\ t_idx t' = t_idx t.
Proof.
  intros HC Him Hn Hf. induction m as [|m IH]; intros k t d prev HI HR Hk.
  - exists d, t, (Walking 0 n 2 k). cbn [gather seq map concat]. rewrite app_nil_r. auto.
  - destruct (subset_stepW 1%R oneB S fp tb t (Walking 0 n 2 k) (im k) k HC HI) as (b & t1 & ph1 & E & Hs & HI1 & Em & Ei).
    { split; [apply Him|]. split; [reflexivity|lia]. }
    cbn [gather]. unfold step in E. destruct (next_subset 1%R (im k) S t k) as [t1'|]; [|discriminate]. cbn [obind] in E. injection E as <- <-.
    destruct Hs as [(ox & oy & E & Hx & Hy) ->]. injection E as <- <-. change (2 =? 1) with false in Hx. cbv iota in Hx. destruct Hx as (bx & Ex & Hx).
    change (set_x S 0) with (x0 S) in Hx.
    cbn [obind]. rewrite Ex. cbn [obind].
    destruct (Hf bx (slice (seq 0 (cnt S 0)) n k) prev d Hx) as (d' & Ed & HR'); [|exact HR|].
    { destruct (subset_pos _ _ _ Hn (ltac:(lia) : k < subsets (cnt S 0) n)) as [Hk1 _]. rewrite slice_seq. intros Q.
      assert (Q' : length (seq (n * k) (Nat.min n (cnt S 0 - n * k))) = 0) by (rewrite Q; reflexivity). rewrite seq_length in Q'. lia. }
    rewrite Ed. cbn [obind]. destruct (IH (k + 1) t1' d' _ HI1 HR') as (d2 & t2 & ph2 & E2 & HR2 & HI2 & Em2 & Ei2); [lia|].
    exists d2, t2, ph2. split; [exact E2|]. split; [|split; [exact HI2|split; congruence]].
    replace (Datatypes.S k) with (k + 1) in * by lia. cbn [seq map concat]. replace (Datatypes.S k) with (k + 1) by lia. rewrite app_assoc. exact HR2.
Qed.

Lemma concat_looked N n m : 0 < n <= N -> m <= subsets N n ->
  concat (map (slice (seq 0 N) n) (seq 0 m)) = seq 0 (Nat.min (m * n) (if N mod n =? 1 then N - 1 else N)).
Proof.
  intros Hn Hm. pose proof (Nat.div_mod N n). pose proof (Nat.mod_upper_bound N n).
  assert (Hq : forall q, q <= N / n -> q * n <= N).
  { intros q Hq. pose proof (Nat.mul_le_mono_l q (N / n) n Hq). lia. }
  destruct (Nat.le_gt_cases m (N / n)) as [L|L].
  - rewrite concat_slices by (rewrite seq_length; auto). rewrite firstn_seq. f_equal. specialize (Hq m L).
    destruct (Nat.eqb_spec (N mod n) 1); [|lia]. assert (m * n <= N / n * n) by (apply Nat.mul_le_mono_r; exact L). lia.
  - unfold subsets in Hm. destruct (Nat.ltb_spec 1 (N mod n)); [|lia]. assert (Em : m = subsets N n).
    { unfold subsets. rewrite (proj2 (Nat.ltb_lt _ _)) by assumption. lia. }
    rewrite Em, walk_concat by exact Hn. f_equal. destruct (Nat.eqb_spec (N mod n) 1); [lia|]. rewrite <- Em.
    assert (N <= m * n); [|lia]. assert ((N / n + 1) * n <= m * n) by (apply Nat.mul_le_mono_r; lia). lia.
Qed.

(** a walk as done by the normalisation *)
Lemma pass_walk {D} (f : smx R -> D -> option D) (Rl : list nat -> D -> Prop) (p : nset) (S : sets) fp tb ibs t (im : nat -> imath) d0 :
  coherent 1%R S -> (forall k, im_ok (im k)) ->
  InvW 1%R oneB S fp tb t Idle -> 0 < asked fp ibs (n_bs p) ->
  is_initialized4inference S t (asked fp ibs (n_bs p)) = Some (asked fp ibs (n_bs p)) ->
  (forall b ids prev d, holds 1%R b (x0 S) ids -> ids <> [] -> Rl prev d -> exists d', f b d = Some d' /\ Rl (prev ++ ids) d') -> Rl [] d0 ->
  exists k t1 d t2, prepare p S t ibs = Some (k, t1) /\ gather f im S t1 0 k d0 = Some (d, t2) /\
    Rl (seq 0 (looked p (cnt S 0) (asked fp ibs (n_bs p)))) d /\
    InvW 1%R oneB S fp tb t2 Idle /\ t_mini t2 = t_mini t /\ t_idx t2 = t_idx t.
Proof.
  intros HC Him HI Hpos Hini Hf H0.
  destruct (walk_stepW 1%R oneB S fp tb t Idle 0 ibs (n_bs p) 2 HC HI) as (b & t1 & ph & E & Hs & HI1 & Em & Ei); [split; [lia|auto]|].
  destruct (coherent_set 1%R S 0 HC) as (_ & _ & _ & _ & _ & _ & _ & _ & Hcnt & _); [lia|].
  unfold step in E. unfold prepare. change train_set_id with 0. destruct (walk_over_set 1%R S t 0 ibs (n_bs p) 2) as [[w t1']|]; [|discriminate].
  cbn [obind] in E. injection E as <- <-. cbn [spec_step] in Hs. destruct Hs as [Hb ->]. injection Hb as ->.
  set (n := Nat.min (asked fp ibs (n_bs p)) (cnt S 0)) in *. cbn [obind].
  set (k := Nat.min (subsets (cnt S 0) n) (if n_bc p =? 0 then subsets (cnt S 0) n else n_bc p)).
  assert (Hn : 0 < n <= cnt S 0) by (unfold n; lia).
  destruct (gather_ok f Rl S fp tb n im HC Him Hn Hf k 0 t1' d0 [] HI1 H0) as (d & t2 & ph2 & Eg & HR & HI2 & Em2 & Ei2); [unfold k; lia|].
  exists k, t1', d, t2. split; [reflexivity|]. split; [exact Eg|]. split.
  - cbn [app] in HR. rewrite concat_looked in HR by (try exact Hn; unfold k; lia).
    replace (looked p (cnt S 0) (asked fp ibs (n_bs p))) with (Nat.min (k * n) (if cnt S 0 mod n =? 1 then cnt S 0 - 1 else cnt S 0)); [exact HR|].
    unfold looked. fold n. set (all := if cnt S 0 mod n =? 1 then cnt S 0 - 1 else cnt S 0).
    assert (Hall : all <= subsets (cnt S 0) n * n).
    { unfold all, subsets. pose proof (Nat.div_mod (cnt S 0) n). pose proof (Nat.mod_upper_bound (cnt S 0) n).
      destruct (Nat.ltb_spec 1 (cnt S 0 mod n)), (Nat.eqb_spec (cnt S 0 mod n) 1); lia. }
    unfold k. destruct (Nat.eqb_spec (n_bc p) 0); [rewrite Nat.min_id; lia|].
    destruct (Nat.le_gt_cases (subsets (cnt S 0) n) (n_bc p)) as [L|L].
    + rewrite (Nat.min_l (subsets (cnt S 0) n) (n_bc p)) by exact L. assert (subsets (cnt S 0) n * n <= n_bc p * n) by (apply Nat.mul_le_mono_r; exact L). lia.
    + rewrite (Nat.min_r (subsets (cnt S 0) n) (n_bc p)) by lia. reflexivity.
  - split; [|split; congruence]. destruct HI2 as (J1 & J2 & J3 & J4 & J5 & J6 & _). unfold InvW. cbn [in_phase]. auto 10.
Qed.
End G.
