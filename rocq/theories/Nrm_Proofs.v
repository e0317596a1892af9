(** Statistics of lists of numbers. *)
From Coq Require Import Reals Lra Permutation.
From Verif Require Import Base BaseLemmas Act_Spec Loss_Proofs Smx_Model Smx_Spec TData_Model TData_Spec Nrm_Model Nrm_Spec.
Local Open Scope R_scope.

Definition sq (l : list R) : R := sumR (map (fun v => v * v) l).

Lemma sumR_cons x l : sumR (x :: l) = x + sumR l. Proof. reflexivity. Qed.
Lemma sq_cons x l : sq (x :: l) = x * x + sq l. Proof. reflexivity. Qed.

Lemma acc_all_ok l : forall a, acc_all a l = mkAc (a_n a + length l)%nat (a_s a + sumR l) (a_q a + sq l).
Proof.
  induction l as [|x l IH]; intros a; cbn [acc_all fold_left length].
  - unfold sq. cbn. destruct a; cbn. f_equal; [lia|ring|ring].
  - change (fold_left acc_add l (acc_add a x)) with (acc_all (acc_add a x) l). rewrite IH. unfold acc_add. cbn [a_n a_s a_q].
    rewrite sumR_cons, sq_cons. f_equal; [lia|ring|ring].
Qed.
(** the accumulator that has seen [l] *)
Definition seen (l : list R) : acc := mkAc (length l) (sumR l) (sq l).
Lemma seen_app l l' : acc_all (seen l) l' = seen (l ++ l').
Proof. rewrite acc_all_ok. unfold seen, sq. cbn [a_n a_s a_q]. rewrite app_length, map_app, !sumR_app. reflexivity. Qed.
Lemma seen_nil : acc0 = seen []. Proof. reflexivity. Qed.
Lemma seen_perm l l' : Permutation l l' -> seen l = seen l'.
Proof.
  intros H. unfold seen, sq. rewrite (Permutation_length H), (sumR_perm _ _ H), (sumR_perm _ _ (Permutation_map (fun v => v * v) H)). reflexivity.
Qed.

Lemma sumR_affine a b l : sumR (map (fun v => a * v + b) l) = a * sumR l + INR (length l) * b.
Proof.
  induction l as [|x l IH]; [cbn; ring|]. cbn [map length]. rewrite !sumR_cons, IH, S_INR. ring.
Qed.
Lemma dev_sum m l : sumR (map (fun v => Rsqr (v - m)) l) = sq l - 2 * m * sumR l + INR (length l) * (m * m).
Proof.
  induction l as [|x l IH]; [cbn; ring|]. cbn [map length]. rewrite !sumR_cons, sq_cons, IH, S_INR. unfold Rsqr. ring.
Qed.
Lemma central_ok l : l <> [] -> get_central (seen l) = Some (mean l).
Proof. intros H. unfold get_central, seen, mean. cbn [a_n a_s]. destruct l; [congruence|]. reflexivity. Qed.
Lemma INR_pos n : (0 < n)%nat -> 0 < INR n. Proof. intros. apply lt_0_INR. assumption. Qed.
Lemma scale_ok adj l : (Nat.b2n adj < length l)%nat -> get_scale adj (seen l) = Some (dev adj l).
Proof.
  intros H. unfold get_scale, seen, dev. cbn [a_n a_s a_q]. rewrite (proj2 (Nat.leb_gt _ _) H). f_equal. f_equal.
  rewrite dev_sum. unfold mean.
  assert (Hn : 0 < INR (length l)) by (apply INR_pos; lia).
  destruct adj; cbn [Nat.b2n] in *.
  - rewrite minus_INR by lia. cbn [INR]. assert (1 < INR (length l)) by (apply (lt_INR 1); exact H). field. lra.
  - rewrite Nat.sub_0_r. field. lra.
Qed.
Lemma central_none : get_central (seen []) = None. Proof. reflexivity. Qed.
Lemma scale_none adj l : (length l <= Nat.b2n adj)%nat -> get_scale adj (seen l) = None.
Proof. intros H. unfold get_scale, seen. cbn [a_n]. rewrite (proj2 (Nat.leb_le _ _) H). reflexivity. Qed.

Lemma mean_affine a b l : l <> [] -> mean (map (fun v => a * v + b) l) = a * mean l + b.
Proof.
  intros H. unfold mean. rewrite map_length, sumR_affine. assert (0 < INR (length l)) by (apply INR_pos; destruct l; [congruence|cbn; lia]). field. lra.
Qed.
Lemma dev_affine adj a b l : l <> [] -> 0 < a -> dev adj (map (fun v => a * v + b) l) = a * dev adj l.
Proof.
  intros H Ha. unfold dev. rewrite map_length, map_map, mean_affine by exact H.
  assert (E : sumR (map (fun v => Rsqr (a * v + b - (a * mean l + b))) l) = a * a * sumR (map (fun v => Rsqr (v - mean l)) l)).
  { clear H. generalize (mean l). intros m. induction l as [|x l IH]; [cbn; ring|]. cbn [map]. rewrite !sumR_cons, IH. unfold Rsqr. ring. }
  rewrite E. unfold Rdiv. rewrite Rmult_assoc, sqrt_mult_alt by nra. rewrite sqrt_square by lra. reflexivity.
Qed.
Lemma dev_nonneg adj l : 0 <= dev adj l. Proof. apply sqrt_pos. Qed.

(** ** One pass over a list *)
Section P.
Context (p : nset).
(** what is applied: v -> fst * v + snd *)
Definition eff (s : scd) : R * R := ((if bsc s then sc s else 1), (if bofs s then ofs s else 0)).
Definition wfs (s : scd) : Prop := (bsc s = false -> sc s = 1) /\ (bofs s = false -> ofs s = 0).
Definition dirty (s : scd) : bool := bsc s || bofs s.
Definition one_pass (l : list R) (v : R) : R := fst (eff (pass_stat p (seen l))) * v + snd (eff (pass_stat p (seen l))).
Definition settled (a : acc) : bool := negb (do_scale p a) && negb (do_central p a).

Lemma fix_fun_eff s : match fix_fun s with Some f => dirty s = true /\ forall v, f v = fst (eff s) * v + snd (eff s) | None => dirty s = false /\ eff s = (1, 0) end.
Proof. unfold fix_fun, eff, dirty. destruct (bsc s), (bofs s); cbn [fst snd orb]; split; try reflexivity; intros v; ring. Qed.
Lemma wfs0 : wfs scd0. Proof. split; reflexivity. Qed.
Lemma eff_wf s : wfs s -> eff s = (sc s, ofs s).
Proof. intros [H1 H2]. unfold eff. destruct (bsc s), (bofs s); rewrite ?H1, ?H2 by reflexivity; reflexivity. Qed.
Lemma upd_ok a s : wfs s ->
  wfs (upd_stat p a s) /\ sc (upd_stat p a s) = fst (eff (pass_stat p a)) * sc s /\
  ofs (upd_stat p a s) = fst (eff (pass_stat p a)) * ofs s + snd (eff (pass_stat p a)) /\
  dirty (upd_stat p a s) = dirty s || negb (settled a) /\ (settled a = true -> upd_stat p a s = s).
Proof.
  intros [H1 H2]. unfold upd_stat, upd_scale, upd_ofs, pass_stat, eff, wfs, dirty, settled.
  destruct (do_scale p a) eqn:Es, (do_central p a); cbn [sc ofs bsc bofs fst snd negb andb orb].
  - split; [split; discriminate|]. split; [ring|]. split; [ring|]. split; [rewrite orb_true_r; reflexivity|discriminate].
  - split; [split; [discriminate|]; intros E; rewrite (H2 E); ring|]. split; [ring|]. split; [ring|]. split; [rewrite orb_true_r; reflexivity|discriminate].
  - split; [split; [exact H1|discriminate]|]. split; [ring|]. split; [ring|]. split; [rewrite !orb_true_r; reflexivity|discriminate].
  - split; [split; assumption|]. split; [ring|]. split; [ring|]. split; [rewrite orb_false_r; reflexivity|reflexivity].
Qed.
Lemma settled_near a : (negb (do_scale p a) || near (n_stol p) (n_scale p) (get_scale (n_adj p) a)) &&
  (negb (do_central p a) || near (n_ctol p) (n_central p) (get_central a)) = settled a.
Proof.
  unfold settled. assert (H1 : do_scale p a = true -> near (n_stol p) (n_scale p) (get_scale (n_adj p) a) = false).
  { unfold do_scale. cbv zeta. destruct (near _ _ _); cbn [negb andb]; [discriminate|reflexivity]. }
  assert (H2 : do_central p a = true -> near (n_ctol p) (n_central p) (get_central a) = false).
  { unfold do_central. cbv zeta. destruct (near (n_ctol p) (n_central p) (get_central a)); cbn [negb andb]; [discriminate|reflexivity]. }
  destruct (do_scale p a); [rewrite H1 by reflexivity|]; (destruct (do_central p a); [rewrite H2 by reflexivity|]); reflexivity.
Qed.
Lemma eff_dos a : n_dos p = false -> fst (eff (pass_stat p a)) = 1.
Proof. intros H. unfold eff, pass_stat, do_scale. rewrite H, andb_false_r. reflexivity. Qed.
Lemma eff_doc a : n_doc p = false -> snd (eff (pass_stat p a)) = 0.
Proof. intros H. unfold eff, pass_stat, do_central. rewrite H, andb_false_r. reflexivity. Qed.
Lemma get_scale_nonneg adj a s : get_scale adj a = Some s -> 0 <= s.
Proof. unfold get_scale. destruct (_ <=? _)%nat; [discriminate|]. intros E. injection E as <-. apply sqrt_pos. Qed.
Lemma eff_pos a : 0 < n_scale p -> 0 < fst (eff (pass_stat p a)).
Proof.
  intros H. unfold eff, pass_stat. cbn [bsc sc fst]. destruct (do_scale p a) eqn:E; [|lra]. unfold factor. rewrite E.
  unfold do_scale in E. apply andb_prop in E. destruct E as [_ E].
  destruct (get_scale (n_adj p) a) as [s|] eqn:Es; [|lra]. apply get_scale_nonneg in Es. unfold special, is_zero in E.
  destruct (Req_EM_T s 0); [discriminate|]. apply Rdiv_lt_0_compat; lra.
Qed.

Definition enough (l : list R) : Prop := (Nat.b2n (n_adj p) < length l)%nat.
Lemma enough_nil l : enough l -> l <> []. Proof. unfold enough. intros H ->. cbn in H. lia. Qed.
Lemma enough_map f l : enough l -> enough (map f l). Proof. unfold enough. rewrite map_length. auto. Qed.
Lemma good_stats l : enough l -> bad_stats p (seen l) = false.
Proof. intros H. unfold bad_stats. rewrite central_ok by (apply enough_nil; exact H). rewrite scale_ok by exact H. reflexivity. Qed.
Lemma do_scale_iff l : enough l -> do_scale p (seen l) = true <->
  n_dos p = true /\ dev (n_adj p) l <> 0 /\ ~ Rabs (dev (n_adj p) l - n_scale p) < n_stol p.
Proof.
  intros H. unfold do_scale. rewrite scale_ok by exact H. unfold near, good, special, is_zero.
  destruct (Rlt_dec _ _), (Req_EM_T _ _), (n_dos p); cbn [negb andb]; split; intros Q; try discriminate; try tauto;
    destruct Q as (Q1 & Q2 & Q3); try contradiction; discriminate.
Qed.
Lemma do_central_iff l : enough l -> do_central p (seen l) = true <->
  n_doc p = true /\ ~ Rabs (mean l - n_central p) < n_ctol p.
Proof.
  intros H. unfold do_central. rewrite central_ok by (apply enough_nil; exact H). unfold near, good.
  destruct (Rlt_dec _ _), (n_doc p); cbn [negb andb]; split; intros Q; try discriminate; try tauto;
    destruct Q as (Q1 & Q2); try contradiction; discriminate.
Qed.
Lemma settled_iff l : enough l -> settled (seen l) = true <-> met p l.
Proof.
  intros H. pose proof (do_scale_iff l H) as H1. pose proof (do_central_iff l H) as H2. unfold settled, met.
  destruct (do_scale p (seen l)), (do_central p (seen l)); cbn [negb andb].
  - split; [discriminate|]. intros [M _]. destruct H1 as [H1 _]. destruct (H1 eq_refl) as (A & C & D). destruct (M A); contradiction.
  - split; [discriminate|]. intros [M _]. destruct H1 as [H1 _]. destruct (H1 eq_refl) as (A & C & D). destruct (M A); contradiction.
  - split; [discriminate|]. intros [_ M]. destruct H2 as [H2 _]. destruct (H2 eq_refl) as (A & C). exfalso. exact (C (M A)).
  - split; [|reflexivity]. intros _. split.
    + intros E. destruct (Req_dec (dev (n_adj p) l) 0) as [Z|Z]; [left; exact Z|right].
      destruct (Rlt_dec (Rabs (dev (n_adj p) l - n_scale p)) (n_stol p)) as [L|L]; [exact L|]. destruct H1 as [_ H1]. discriminate H1. auto.
    + intros E. destruct (Rlt_dec (Rabs (mean l - n_central p)) (n_ctol p)) as [L|L]; [exact L|]. destruct H2 as [_ H2]. discriminate H2. auto.
Qed.

(** number of passes that change the list *)
Definition rank (l : list R) : nat :=
  if settled (seen l) then 0 else if do_scale p (seen l) && n_doc p then 2 else 1.
Lemma rank_le l : (rank l <= if n_dos p && n_doc p then 2 else 1)%nat.
Proof.
  unfold rank. destruct (settled (seen l)); [destruct (n_dos p && n_doc p); lia|]. unfold do_scale. destruct (n_dos p), (n_doc p);
    rewrite ?andb_false_r; cbn [andb]; try lia. destruct (_ && _); lia.
Qed.
Lemma rank0 l : rank l = 0%nat <-> settled (seen l) = true.
Proof. unfold rank. destruct (settled (seen l)); [tauto|]. destruct (_ && _); split; discriminate. Qed.
Lemma map_pass l : map (one_pass l) l = map (fun v => fst (eff (pass_stat p (seen l))) * v + snd (eff (pass_stat p (seen l)))) l.
Proof. reflexivity. Qed.
Lemma rank_pass l : enough l -> 0 < n_scale p -> 0 < n_stol p -> 0 < n_ctol p -> (0 < rank l)%nat -> (rank (map (one_pass l) l) < rank l)%nat.
Proof.
  intros H Hs Hst Hct Hr. pose proof (enough_nil l H) as Hn. pose proof (eff_pos (seen l) Hs) as Hp.
  pose proof (enough_map (one_pass l) l H) as H'.
  pose proof (do_scale_iff _ H') as S1. pose proof (do_central_iff _ H') as C1.
  rewrite map_pass in S1, C1. rewrite dev_affine in S1 by assumption. rewrite mean_affine in C1 by assumption. rewrite <- map_pass in S1, C1.
  pose proof (do_scale_iff l H) as S0. pose proof (do_central_iff l H) as C0.
  assert (Hf : fst (eff (pass_stat p (seen l))) = if do_scale p (seen l) then n_scale p / dev (n_adj p) l else 1).
  { unfold eff, pass_stat. cbn [bsc sc fst]. unfold factor. rewrite scale_ok by exact H. destruct (do_scale p (seen l)); reflexivity. }
  assert (Hg : snd (eff (pass_stat p (seen l))) = if do_central p (seen l) then (n_central p - mean l) * fst (eff (pass_stat p (seen l))) else 0).
  { unfold eff, pass_stat. cbn [bofs ofs bsc sc fst snd]. unfold shift. rewrite central_ok by exact Hn. destruct (do_central p (seen l)); [|reflexivity].
    unfold factor. rewrite scale_ok by exact H. destruct (do_scale p (seen l)); reflexivity. }
  assert (NS : do_scale p (seen (map (one_pass l) l)) = false).
  { destruct (do_scale p (seen (map (one_pass l) l))); [|reflexivity]. exfalso. destruct (proj1 S1 eq_refl) as (A & C & D). rewrite Hf in C, D.
    destruct (do_scale p (seen l)) eqn:E.
    - apply D. destruct (proj1 S0 eq_refl) as (_ & Z & _). replace (n_scale p / dev (n_adj p) l * dev (n_adj p) l - n_scale p) with 0 by (field; exact Z).
      rewrite Rabs_R0. exact Hst.
    - destruct S0 as [_ S0]. discriminate S0. rewrite Rmult_1_l in C, D. auto. }
  unfold rank in *. unfold settled in *. rewrite NS. cbn [negb andb].
  destruct (do_scale p (seen l)) eqn:E.
  - cbn [negb andb]. destruct (n_doc p) eqn:Ed.
    + destruct (do_central p (seen (map (one_pass l) l))); cbn [negb]; lia.
    + destruct (do_central p (seen (map (one_pass l) l))); [|cbn [negb]; lia]. destruct (proj1 C1 eq_refl). discriminate.
  - cbn [negb andb] in *. destruct (do_central p (seen l)) eqn:Ec; cbn [negb] in *; [|lia].
    destruct (do_central p (seen (map (one_pass l) l))); [|cbn [negb]; lia]. exfalso. destruct (proj1 C1 eq_refl) as [_ D]. apply D.
    rewrite Hg, Hf. replace (1 * mean l + (n_central p - mean l) * 1 - n_central p) with 0 by ring. rewrite Rabs_R0. exact Hct.
Qed.
End P.
