From Coq Require Import Permutation.
From Verif Require Import Base BaseLemmas Workers_Model FindK_Model FindK_Spec.

Section F.
Context {V : Type} (lt : V -> V -> bool) (bot : V) (ns : bool).
Notation fb := (first_better lt ns).
Notation pairs := (list (V * option nat)).
Notation column := (@column V).

(** ** The kernel on lists of (value, index) pairs *)
Definition col (P : pairs) : column := (map fst P, map snd P).

Fixpoint split_at (v : V) (R : pairs) : pairs * pairs :=
  match R with
  | [] => ([], [])
  | p :: R' => if fb (fst p) v then ([], R) else let '(lo, hi) := split_at v R' in (p :: lo, hi)
  end.
Definition astep (P : pairs) (i : nat) (v : V) : pairs :=
  match P with
  | [] => []
  | p0 :: R =>
    if fb v (fst p0) then
      let '(lo, hi) := split_at v R in
      if ns || fb v (fst (last lo p0)) then lo ++ (v, Some i) :: hi else P
    else P
  end.
Fixpoint arun (P : pairs) (i : nat) (src : list V) : pairs :=
  match src with [] => P | v :: src' => arun (astep P i v) (i + 1) src' end.

Lemma split_app v R : fst (split_at v R) ++ snd (split_at v R) = R.
Proof. induction R as [|p R IH]; [reflexivity|]. cbn [split_at]. destruct (fb (fst p) v); [reflexivity|]. destruct (split_at v R). cbn [fst snd app] in *. f_equal. exact IH. Qed.

Lemma nth_map_fst (P : pairs) j : bget (map fst P) j = option_map fst (nth_error P j).
Proof. apply nth_error_map. Qed.

Lemma find_hi_spec v R : forall A, find_hi lt ns (map fst (A ++ R)) v (length A) (length R) = Some (length A + length (fst (split_at v R))).
Proof.
  induction R as [|p R IH]; intros A; [cbn; rewrite Nat.add_0_r; reflexivity|].
  cbn [find_hi length split_at]. rewrite nth_map_fst, nth_error_app2, Nat.sub_diag by lia. cbn [nth_error option_map obind].
  destruct (fb (fst p) v); [cbn [fst length]; rewrite Nat.add_0_r; reflexivity|].
  specialize (IH (A ++ [p])). rewrite <- app_assoc, app_length in IH. cbn [app length] in IH. rewrite IH.
  destruct (split_at v R). cbn [fst length]. f_equal. lia.
Qed.

Lemma bset_mid {T} (A B : list T) x y : bset (A ++ x :: B) (length A) y = Some (A ++ y :: B).
Proof. induction A as [|a A IH]; [reflexivity|]. cbn [app length bset]. rewrite IH. reflexivity. Qed.
Lemma bset_mid' {T} (A B : list T) x y n : n = length A -> bset (A ++ x :: B) n y = Some (A ++ y :: B).
Proof. intros ->. apply bset_mid. Qed.
Lemma bget_mid {T} (A B : list T) x n : n = length A -> bget (A ++ x :: B) n = Some x.
Proof using. intros ->. clear. induction A as [|a A IH]; [reflexivity|exact IH]. Qed.

Lemma shift_loop n : forall A x B, n <= length B ->
  for_loop (length A) n (fun hj '(cache, idx) =>
    do a <- bget cache (hj + 1); do cache' <- bset cache hj a;
    do b <- bget idx (hj + 1); do idx' <- bset idx hj b; Some (cache', idx')) (col (A ++ x :: B))
  = Some (col (A ++ firstn n B ++ skipn n (x :: B))).
Proof.
  induction n as [|n IH]; intros A x B Hn; [reflexivity|]. destruct B as [|b B]; [cbn in Hn; lia|].
  cbn [for_loop]. unfold col at 1.
  assert (G1 : bget (map fst (A ++ x :: b :: B)) (length A + 1) = Some (fst b)).
  { rewrite nth_map_fst, nth_error_app2 by lia. replace (length A + 1 - length A) with 1 by lia. reflexivity. }
  assert (G2 : bget (map snd (A ++ x :: b :: B)) (length A + 1) = Some (snd b)).
  { unfold bget. rewrite nth_error_map, nth_error_app2 by lia. replace (length A + 1 - length A) with 1 by lia. reflexivity. }
  rewrite G1. cbn [obind]. rewrite map_app. cbn [map]. rewrite (bset_mid' (map fst A)) by (rewrite map_length; reflexivity). cbn [obind].
  rewrite G2. cbn [obind]. rewrite map_app. cbn [map]. rewrite (bset_mid' (map snd A)) by (rewrite map_length; reflexivity). cbn [obind].
  specialize (IH (A ++ [b]) b B). rewrite app_length in IH. cbn [length] in IH, Hn. rewrite Nat.add_1_r in IH.
  rewrite <- !app_assoc in IH. cbn [app] in IH. 
  unfold col in IH at 1. rewrite !map_app in IH. cbn [map] in IH. rewrite IH by lia. reflexivity.
Qed.

Lemma visit_astep k i v (P : pairs) c0 : 0 < k -> length P = k -> nth_error (map fst P) 0 = Some c0 ->
  exists c0', visit lt ns k i v (col P, c0) = Some (col (astep P i v), c0') /\
    nth_error (map fst (astep P i v)) 0 = Some c0' /\ length (astep P i v) = k.
Proof.
  intros Hk HL H0. destruct P as [|p0 R]; [cbn in HL; lia|]. cbn [map nth_error] in H0. inversion H0; subst c0. clear H0.
  unfold visit, col, astep. destruct (fb v (fst p0)) eqn:Ef; [|exists (fst p0); split; [reflexivity|]; split; [reflexivity|exact HL]].
  cbn [length] in HL. replace (k - 1) with (length R) by lia.
  pose proof (find_hi_spec v R [p0]) as Hh. cbn [app length] in Hh. rewrite Hh. cbn [obind].
  pose proof (split_app v R) as HS. destruct (split_at v R) as [lo hi]. cbn [fst snd] in *. subst R.
  replace (1 + length lo - 1) with (length lo) by lia.
  assert (G : bget (map fst (p0 :: lo ++ hi)) (length lo) = Some (fst (last lo p0))).
  { rewrite nth_map_fst. destruct lo as [|q lo] using rev_ind; [reflexivity|]. clear IHlo. rewrite app_length, last_last. cbn [length].
    rewrite Nat.add_1_r. cbn [nth_error]. rewrite <- app_assoc. rewrite nth_error_app2, Nat.sub_diag by lia. reflexivity. }
  rewrite G. cbn [obind]. destruct (ns || fb v (fst (last lo p0))).
  2: { exists (fst p0). split; [reflexivity|]. split; [reflexivity|]. cbn [length]. lia. }
  unfold shift. pose proof (shift_loop (length lo) [] p0 (lo ++ hi)) as Hs. cbn [app length] in Hs. unfold col in Hs at 1. rewrite Hs by (rewrite app_length; lia).
  rewrite firstn_app, Nat.sub_diag, firstn_all, firstn_O, app_nil_r.
  assert (SK : exists q, skipn (length lo) (p0 :: lo ++ hi) = q :: hi).
  { exists (last lo p0). clear. revert p0. induction lo as [|a lo IH]; intros p0; [reflexivity|]. cbn [length app skipn]. rewrite IH.
    destruct lo; [reflexivity|]. f_equal. cbn [last]. clear. revert p. induction lo; intros; [reflexivity|]. cbn [last] in *. apply IHlo. }
  destruct SK as [q ->]. cbn [obind col]. rewrite !map_app. cbn [map].
  rewrite (bset_mid' (map fst lo)) by (rewrite map_length; reflexivity). cbn [obind].
  rewrite (bset_mid' (map snd lo)) by (rewrite map_length; reflexivity). cbn [obind].
  destruct lo as [|a lo].
  - cbn [map app bget nth_error obind]. exists v. split; [reflexivity|]. split; [reflexivity|]. cbn [length app] in *. lia.
  - cbn [map app bget nth_error obind]. exists (fst a). split; [reflexivity|]. split; [reflexivity|].
    rewrite !app_length in *. cbn [length] in *. rewrite app_length in *. cbn [length]. lia.
Qed.

Lemma visits_arun k src0 : 0 < k -> forall src i P c0, length P = k -> nth_error (map fst P) 0 = Some c0 ->
  (forall j v, nth_error src j = Some v -> nth_error src0 (i + j) = Some v) ->
  exists c0', for_loop i (length src) (fun i st => do v <- bget src0 i; visit lt ns k i v st) (col P, c0) = Some (col (arun P i src), c0') /\
    length (arun P i src) = k.
Proof.
  intros Hk. induction src as [|v src IH]; intros i P c0 HL H0 Hs; [exists c0; split; [reflexivity|exact HL]|].
  cbn [length for_loop arun]. unfold bget. pose proof (Hs 0 v eq_refl) as Hv. rewrite Nat.add_0_r in Hv. rewrite Hv. cbn [obind].
  destruct (visit_astep k i v P c0 Hk HL H0) as (c1 & E & H1 & HL1). rewrite E. cbn [obind].
  rewrite Nat.add_1_r. apply (IH (S i) _ c1 HL1 H1). intros j w Hj. specialize (Hs (S j) w Hj).
  replace (S i + j) with (i + S j) by lia. exact Hs.
Qed.

Lemma fill_loop {T} (x : T) l : for_loop 0 (length l) (fun i l => bset l i x) l = Some (repeat x (length l)).
Proof.
  assert (K : forall (B A : list T), for_loop (length A) (length B) (fun i l => bset l i x) (A ++ B) = Some (A ++ repeat x (length B))).
  { induction B as [|b B IH]; intros A; [reflexivity|]. cbn [length for_loop repeat]. rewrite bset_mid. cbn [obind].
    specialize (IH (A ++ [x])). rewrite app_length, <- !app_assoc in IH. cbn [length app] in IH. rewrite Nat.add_1_r in IH. exact IH. }
  exact (K l []).
Qed.

Lemma col_repeat k (x : V * option nat) : col (repeat x k) = (repeat (fst x) k, repeat (snd x) k).
Proof. unfold col. f_equal; induction k; [reflexivity|cbn; congruence|reflexivity|cbn; congruence]. Qed.

(** the two ways a column is processed *)
Lemma find_k_first src (c : column) k : 0 < k -> length (fst c) = k -> length (snd c) = k ->
  find_k_column lt bot ns src c false = Some (col (arun (repeat (bot, None) k) 0 src)) /\
  length (arun (repeat (bot, None) k) 0 src) = k.
Proof.
  intros Hk L1 L2. destruct c as [cache idx]. cbn [fst snd] in *. unfold find_k_column.
  assert (F1 : for_loop 0 (length cache) (fun i l => bset l i None) idx = Some (repeat (@None nat) k)) by (rewrite L1, <- L2; apply fill_loop).
  rewrite F1. cbn [obind]. rewrite fill_loop. cbn [obind]. rewrite L1.
  assert (H0 : nth_error (map fst (repeat (bot, @None nat) k)) 0 = Some bot) by (destruct k; [lia|reflexivity]).
  destruct (visits_arun k src Hk src 0 (repeat (bot, None) k) bot) as (c0' & E & HL); [apply repeat_length|exact H0|auto|].
  rewrite col_repeat in E. cbn [fst snd] in E. unfold bget at 1.
  replace (nth_error (repeat bot k) 0) with (Some bot) by (destruct k; [lia|reflexivity]). cbn [obind]. unfold FindK_Model.column in *. rewrite E. cbn [obind].
  split; [reflexivity|exact HL].
Qed.
Lemma find_k_next src (P : pairs) k : 0 < k -> length P = k ->
  let P0 := map (fun p => (fst p, None)) P in
  find_k_column lt bot ns src (col P) true = Some (col (arun P0 0 src)) /\ length (arun P0 0 src) = k.
Proof.
  intros Hk HL P0. unfold col at 1, find_k_column. rewrite map_length, HL.
  assert (L2 : length (map snd P) = k) by (rewrite map_length; exact HL). rewrite <- L2 at 1. rewrite fill_loop. cbn [obind]. rewrite L2.
  assert (E0 : (map fst P, repeat None k) = col P0).
  { unfold col, P0. rewrite !map_map. f_equal. rewrite <- HL. clear. induction P as [|q P IH]; [reflexivity|]. cbn [length repeat map snd]. f_equal. exact IH. }
  destruct P as [|p P']; [cbn in HL; lia|]. cbn [map bget nth_error obind].
  change (fst p :: map fst P') with (map fst (p :: P')). rewrite E0.
  destruct (visits_arun k src Hk src 0 P0 (fst p)) as (c0' & E & HL'); [unfold P0; rewrite map_length; exact HL|reflexivity|auto|].
  unfold FindK_Model.column, col in *. rewrite E. cbn [obind]. split; [reflexivity|exact HL'].
Qed.
End F.
