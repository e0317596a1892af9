(** The object shows what it should. *)
From Coq Require Import Reals Lra Permutation.
From Verif Require Import Base BaseLemmas Act_Spec TData_Model TData_Spec TData_Proofs2 Nrm_Model Nrm_Spec Nrm_Proofs Tf_Model Tf_Spec.
Local Open Scope nat_scope.

Lemma slice_seq n c k : slice (seq 0 n) c k = seq (c * k) (Nat.min c (n - c * k)).
Proof.
  unfold slice. revert k. generalize dependent c. intros c k. generalize (c * k). intros o.
  assert (E : forall o s m, skipn o (seq s m) = seq (s + o) (m - o)).
  { induction o0 as [|o0 IH]; intros s m; [cbn [skipn]; f_equal; lia|]. destruct m; [reflexivity|]. cbn [seq skipn]. rewrite IH. f_equal; lia. }
  rewrite E. cbn [Nat.add]. generalize (n - o). generalize o.
  induction c as [|c IH]; intros o' m; [reflexivity|]. destruct m; [reflexivity|]. cbn [seq firstn Nat.min]. f_equal. apply IH.
Qed.

Section P.
Context {Y FS : Type} (F : tfun Y FS) (st : stor) (derive : nat -> nat -> list (list R * Y)) (Q : protocol FS).
Context (C : conforms F st derive Q).
Notation td := (td FS). Notation sample := (list R * Y)%type.

Definition norm_ok (n : nprm) : Prop := match n with NCols l => length l = f_xw F | _ => True end.
Definition coef (n : nprm) (j : nat) : R * R :=
  match n with NNone => (1, 0)%R | NWhole s => eff s | NCols l => eff (nth j l scd0) end.
Definition ca n j := fst (coef n j). Definition cb n j := snd (coef n j).
Definition wide (row : list R) : Prop := length row = f_xw F.

Lemma fix_elem_ok s v : fix_elem s v = (fst (eff s) * v + snd (eff s))%R.
Proof. unfold fix_elem. pose proof (fix_fun_eff s) as H. destruct (fix_fun s); destruct H as [_ H]; [apply H|]. rewrite H. cbn [fst snd]. ring. Qed.
Lemma affine_cons a b v row : affine a b (v :: row) = (a 0%nat * v + b 0%nat)%R :: affine (fun j => a (S j)) (fun j => b (S j)) row.
Proof. unfold affine. cbn [length seq map nth]. f_equal. rewrite <- seq_shift, map_map. reflexivity. Qed.
Lemma affine_const a b row : affine (fun _ => a) (fun _ => b) row = map (fun v => (a * v + b)%R) row.
Proof. induction row as [|v row IH]; [reflexivity|]. rewrite affine_cons. cbn [map]. f_equal. exact IH. Qed.
Lemma affine_length a b row : length (affine a b row) = length row.
Proof. unfold affine. rewrite map_length, seq_length. reflexivity. Qed.
Lemma affine_id row : affine (fun _ => 1%R) (fun _ => 0%R) row = row.
Proof. rewrite affine_const. rewrite <- (map_id row) at 2. apply map_ext. intros v. ring. Qed.
Lemma affine_ext a b a' b' row : (forall j, j < length row -> a j = a' j /\ b j = b' j) -> affine a b row = affine a' b' row.
Proof. intros H. apply map_ext_in. intros j Hj. apply in_seq in Hj. destruct (H j) as [-> ->]; [lia|reflexivity]. Qed.
Lemma fix_row_ok l : forall row, length row = length l -> fix_row l row = Some (affine (fun j => fst (eff (nth j l scd0))) (fun j => snd (eff (nth j l scd0))) row).
Proof.
  induction l as [|s l IH]; intros [|v row] H; try discriminate; [reflexivity|]. cbn [fix_row]. rewrite IH by (cbn in H; lia). cbn [obind].
  rewrite affine_cons. cbn [nth]. rewrite fix_elem_ok. reflexivity.
Qed.
Lemma omap_ok {A D} (f : A -> option D) g l : Forall (fun x => f x = Some (g x)) l -> omap f l = Some (map g l).
Proof. induction l as [|x l IH]; intros H; [reflexivity|]. inversion H as [|? ? H1 H2]; subst. cbn [omap map]. rewrite H1, (IH H2). reflexivity. Qed.
Lemma normed_ok n x : norm_ok n -> Forall wide x -> normed n x = Some (map (affine (ca n) (cb n)) x).
Proof.
  intros Hn Hx. unfold ca, cb. destruct n as [|s|l]; cbn [normed coef fst snd].
  - f_equal. rewrite <- (map_id x) at 1. apply map_ext. intros r. symmetry. apply affine_id.
  - f_equal. apply map_ext. intros r. rewrite affine_const. apply map_ext. intros v. apply fix_elem_ok.
  - apply omap_ok. eapply Forall_impl; [|exact Hx]. intros r Hr. apply fix_row_ok. cbn in Hn. rewrite Hn. exact Hr.
Qed.

Lemma map_fst_combine {A B} (xs : list A) : forall (ys : list B), length xs = length ys -> map fst (combine xs ys) = xs.
Proof. induction xs as [|x xs IH]; intros [|y ys] H; try discriminate; [reflexivity|]. cbn. f_equal. apply IH. cbn in H. lia. Qed.
Lemma shows_x flag x y (D : list sample) : flag <> 1 -> Forall (fun s => wide (fst s)) D -> shows flag x y D -> exists xs, x = Some xs /\ Forall wide xs.
Proof.
  intros Hf HD H. unfold shows in H. destruct (Nat.eqb_spec flag 1) as [E|_]; [contradiction|].
  assert (HD' : Forall wide (map fst D)) by (rewrite Forall_map; exact HD).
  destruct (flag =? 2).
  - destruct H as (xs & -> & P). exists xs. split; [reflexivity|]. eapply Permutation_Forall; [symmetry; exact P|exact HD'].
  - destruct H as (xs & ys & -> & -> & L & P). exists xs. split; [reflexivity|]. rewrite <- (map_fst_combine xs ys L). apply (Permutation_map fst) in P.
    eapply Permutation_Forall; [symmetry; exact P|exact HD'].
Qed.
Lemma combine_map_l {A B D} (g : A -> B) xs : forall (ys : list D), combine (map g xs) ys = map (fun s => (g (fst s), snd s)) (combine xs ys).
Proof. induction xs as [|x xs IH]; intros [|y ys]; try reflexivity. cbn. f_equal. apply IH. Qed.
Lemma shows_map flag xs y (D : list sample) a b : flag <> 1 -> shows flag (Some xs) y D -> shows flag (Some (map (affine a b) xs)) y (seen_as a b D).
Proof.
  intros Hf H. unfold shows in *. destruct (Nat.eqb_spec flag 1) as [E|_]; [contradiction|]. destruct (flag =? 2).
  - destruct H as (xs' & E & P). injection E as <-. exists (map (affine a b) xs). split; [reflexivity|]. unfold seen_as. rewrite map_map. cbn [fst].
    rewrite <- (map_map fst (affine a b)). apply Permutation_map. exact P.
  - destruct H as (xs' & ys & E & -> & L & P). injection E as <-. exists (map (affine a b) xs), ys. rewrite map_length.
    do 3 (split; [first [reflexivity|exact L]|]). rewrite combine_map_l. apply Permutation_map. exact P.
Qed.
Lemma shows_1 x y x' (D : list sample) a b : shows 1 x y D -> shows 1 x' y (seen_as a b D).
Proof. intros (ys & -> & P). exists ys. split; [reflexivity|]. unfold seen_as. rewrite map_map. exact P. Qed.
Lemma shows_id flag x y (D : list sample) a b : (forall s, In s D -> affine a b (fst s) = fst s) -> shows flag x y D -> shows flag x y (seen_as a b D).
Proof.
  intros E. unfold seen_as. replace (map _ D) with D; [auto|]. rewrite <- (map_id D) at 1. apply map_ext_in. intros [u v] Hs. rewrite (E _ Hs). reflexivity.
Qed.
Lemma derive_wide id ids : id < 2 -> Forall (fun i => i < st_cnt st id) ids -> Forall (fun s => wide (fst s)) (flat_map (derive id) ids).
Proof.
  intros Hid H. induction ids as [|i ids IH]; [constructor|]. inversion H; subst. cbn [flat_map]. apply Forall_app. split; [|apply IH; assumption].
  apply (cf_derive _ _ _ _ C id i Hid). assumption.
Qed.

(** ** The invariant *)
Definition Inv (t : td) (h : option (nat * nat)) : Prop :=
  norm_ok (d_norm t) /\
  match h with
  | None => d_fp t = 0
  | Some (fp, tb) => d_fp t = fp /\ d_tb t = tb /\ st_empty st = false /\ exists M B, fp = M * f_sibs F /\ 0 < M /\ tb = B * f_sibs F /\ B <= M /\
      M <= Nat.max (st_cnt st 0) (st_cnt st 1) /\
      ready Q M (d_f t) /\ (0 < B -> Permutation (d_idx t) (seq 0 (st_cnt st 0)) /\ B <= st_cnt st 0)
  end.
Definition InvP (t : td) (fp tb : nat) (ph : tphase) : Prop :=
  Inv t (Some (fp, tb)) /\
  match ph with
  | PIdle => True
  | PTrain c perm => 0 < c /\ d_cur t = c /\ d_idx t = perm /\ d_ptr t = true /\ Permutation perm (seq 0 (st_cnt st 0)) /\ training Q c (d_f t)
  | PWalk id c flag => id < 2 /\ 0 < c <= st_cnt st id /\ d_cur t = c /\ d_walk t = Some id /\ d_ex t = flag /\ d_ptr t = true /\ walking Q id c flag (d_f t)
  end.
Lemma inv_idle t fp tb ph : InvP t fp tb ph -> InvP t fp tb PIdle.
Proof. intros [H _]. split; [exact H|exact I]. Qed.

Notation s := (f_sibs F).
Lemma sibs_pos : 0 < s. Proof. exact (cf_sibs _ _ _ _ C). Qed.
Lemma mult_of b : b mod s = 0 -> exists c, b = c * s /\ b / s = c.
Proof. pose proof sibs_pos. intros E. exists (b / s). split; [|reflexivity]. pose proof (Nat.div_mod b s). lia. Qed.
Lemma same_size dflt ibs bs : real_batch_size dflt ibs bs = asked dflt ibs bs. Proof. reflexivity. Qed.
Lemma div_scale n c : 0 < c -> s * n / (c * s) = n / c.
Proof. intros H. pose proof sibs_pos. rewrite (Nat.mul_comm s n). apply Nat.div_mul_cancel_r; lia. Qed.
Lemma mod_scale n c : 0 < c -> (s * n) mod (c * s) = s * (n mod c).
Proof. intros H. pose proof sibs_pos. rewrite (Nat.mul_comm s n), Nat.mul_mod_distr_r by lia. lia. Qed.

(** ** Applying the normalisation *)
Lemma apply_ok t M flag y (D : list sample) : d_ptr t = true -> norm_ok (d_norm t) -> flag <> 1 -> Forall (fun s => wide (fst s)) D ->
  ready Q M (d_f t) -> f_Y F (d_f t) = y -> shows flag (f_X F (d_f t)) y D ->
  exists f', apply_normalization F t = Some (with_f t f') /\ ready Q M f' /\
    (forall b, training Q b (d_f t) -> training Q b f') /\ (forall id b flag, walking Q id b flag (d_f t) -> walking Q id b flag f') /\
    f_Y F f' = y /\ shows flag (f_X F f') y (seen_as (ca (d_norm t)) (cb (d_norm t)) D).
Proof.
  intros Hp Hn Hf HD HM Hy Hs. destruct (shows_x _ _ _ _ Hf HD Hs) as (xs & Ex & Hx).
  unfold apply_normalization. destruct (d_norm t) as [|sd|l] eqn:En.
  - exists (d_f t). split; [destruct t; reflexivity|]. split; [exact HM|]. split; [auto|]. split; [auto|]. split; [exact Hy|]. apply shows_id; [|exact Hs].
    intros r _. apply affine_id.
  - unfold batchX. rewrite Hp, Ex. cbn [obind]. rewrite (normed_ok _ xs Hn Hx). cbn [obind].
    destruct (cf_setX _ _ _ _ C xs (map (affine (ca (NWhole sd)) (cb (NWhole sd))) xs) (d_f t) Ex (map_length _ _)) as (S1 & S2 & S3 & S4 & S5).
    eexists. split; [reflexivity|]. split; [apply S3; exact HM|]. split; [exact S4|]. split; [exact S5|]. split; [rewrite S2; exact Hy|].
    rewrite S1. apply shows_map; [exact Hf|]. rewrite Ex in Hs. exact Hs.
  - unfold batchX. rewrite Hp, Ex. cbn [obind]. rewrite (normed_ok _ xs Hn Hx). cbn [obind].
    destruct (cf_setX _ _ _ _ C xs (map (affine (ca (NCols l)) (cb (NCols l))) xs) (d_f t) Ex (map_length _ _)) as (S1 & S2 & S3 & S4 & S5).
    eexists. split; [reflexivity|]. split; [apply S3; exact HM|]. split; [exact S4|]. split; [exact S5|]. split; [rewrite S2; exact Hy|].
    rewrite S1. apply shows_map; [exact Hf|]. rewrite Ex in Hs. exact Hs.
Qed.

Lemma inv_with_f t f h : Inv t h -> (forall M, ready Q M (d_f t) -> ready Q M f) -> Inv (with_f t f) h.
Proof.
  intros [Hn H] Hr. split; [exact Hn|]. destruct h as [[fp tb]|]; [|exact H]. destruct H as (H1 & H2 & H3 & M & B & H4 & H5 & H6 & H7 & Hm & H8 & H9).
  do 3 (split; [assumption|]). exists M, B. do 5 (split; [assumption|]). split; [apply Hr; exact H8|exact H9].
Qed.

Lemma next_ok t fp tb id c flag k : InvP t fp tb (PWalk id c flag) -> k < walks s (st_cnt st id) c ->
  exists t', next_subset F st t k = Some t' /\ InvP t' fp tb (PWalk id c flag) /\ d_norm t' = d_norm t /\ d_idx t' = d_idx t /\
    shows flag (batchX F t') (batchY F t') (seen_as (ca (d_norm t)) (cb (d_norm t)) (flat_map (derive id) (slice (seq 0 (st_cnt st id)) c k))).
Proof.
  intros [HI (Hid & Hc & Hcur & Hw & Hex & Hp & HQ)] Hk. pose proof sibs_pos as Hsp.
  assert (Hk' : k * c < st_cnt st id).
  { unfold walks in Hk. pose proof (Nat.div_mod (st_cnt st id) c ltac:(lia)). destruct (Nat.ltb_spec 1 (s * (st_cnt st id mod c))).
    - assert (0 < st_cnt st id mod c) by nia. nia.
    - nia. }
  unfold next_subset. rewrite Hw. cbn [obind]. rewrite Hcur, Hex. destruct (Nat.leb_spec (st_cnt st id) (k * c)) as [?|_]; [lia|].
  set (bs := if st_cnt st id - k * c <? c then st_cnt st id - k * c else c).
  assert (Hbs : bs = Nat.min c (st_cnt st id - k * c)) by (unfold bs; destruct (Nat.ltb_spec (st_cnt st id - k * c) c); lia).
  destruct HI as [Hn HI]. pose proof HI as HI'. destruct HI' as (H1 & H2 & H3 & M & B & H4 & H5 & H6 & H7 & Hm & H8 & H9).
  destruct (cf_next _ _ _ _ C M id c flag k bs (k * c) (d_f t) H8 HQ ltac:(lia) ltac:(lia)) as (f' & Ef & R' & W' & Sh). rewrite Ef. cbn [obind].
  rewrite slice_seq. rewrite (Nat.mul_comm c k), <- Hbs.
  assert (HD : Forall (fun s0 => wide (fst s0)) (flat_map (derive id) (seq (k * c) bs))).
  { apply derive_wide; [exact Hid|]. apply Forall_forall. intros i Hi. apply in_seq in Hi. lia. }
  assert (HI2 : forall f'', ready Q M f'' -> walking Q id c flag f'' -> InvP (with_f t f'') fp tb (PWalk id c flag)).
  { intros f'' R'' W''. split; [|do 6 (split; [assumption|]); exact W'']. split; [exact Hn|]. do 3 (split; [assumption|]). exists M, B. do 5 (split; [assumption|]).
    split; [exact R''|exact H9]. }
  cbn [d_ex with_f]. rewrite Hex. unfold exclude_dataX. destruct (Nat.eqb_spec flag 1) as [E1|E1].
  - exists (with_f t f'). split; [reflexivity|]. split; [apply HI2; assumption|]. split; [reflexivity|]. split; [reflexivity|].
    rewrite E1 in Sh |- *. unfold batchY. cbn [d_ptr with_f d_f]. rewrite Hp. eapply shows_1. exact Sh.
  - destruct (apply_ok (with_f t f') M flag _ _ Hp Hn E1 HD R' eq_refl Sh) as (f2 & E2 & R2 & _ & W2 & Y2 & S2). exists (with_f t f2).
    split; [rewrite E2; reflexivity|]. split; [apply HI2; [exact R2|apply W2; exact W']|]. split; [reflexivity|]. split; [reflexivity|].
    unfold batchX, batchY. cbn [d_ptr with_f d_f] in *. rewrite Hp, Y2. exact S2.
Qed.

Lemma slice_length l n k : (k + 1) * n <= length l -> length (slice l n k) = n.
Proof. intros H. unfold slice. rewrite firstn_length, skipn_length. nia. Qed.
Lemma slice_in l n k x : In x (slice l n k) -> In x l.
Proof. unfold slice. intros H. apply (In_nth_error _ _) in H. destruct H as [i H].
  assert (In x (skipn (n * k) l)). { rewrite <- (firstn_skipn n (skipn (n * k) l)). apply in_or_app. left. exact (nth_error_In _ _ H). }
  rewrite <- (firstn_skipn (n * k) l). apply in_or_app. right. exact H0. Qed.

Lemma batch_ok t fp tb c perm k : InvP t fp tb (PTrain c perm) -> k < st_cnt st 0 / c ->
  exists t', on_next_batch F t k = Some t' /\ InvP t' fp tb (PTrain c perm) /\ d_norm t' = d_norm t /\
    shows 0 (batchX F t') (batchY F t') (seen_as (ca (d_norm t)) (cb (d_norm t)) (flat_map (derive 0) (slice perm c k))).
Proof.
  intros [HI (Hc & Hcur & Hx & Hp & HP & HQ)] Hk.
  assert (HL : length perm = st_cnt st 0) by (rewrite (Permutation_length HP), seq_length; reflexivity).
  assert (Hk' : k * c + c <= st_cnt st 0) by (pose proof (Nat.div_mod (st_cnt st 0) c ltac:(lia)); nia).
  unfold on_next_batch. rewrite Hcur, Hx, HL. destruct (Nat.leb_spec (k * c + c) (st_cnt st 0)) as [_|?]; [|lia]. cbn [guard obind].
  destruct HI as [Hn HI]. pose proof HI as HI'. destruct HI' as (H1 & H2 & H3 & M & B & H4 & H5 & H6 & H7 & Hm & H8 & H9).
  assert (HA : Forall (fun i => i < st_cnt st 0) (slice perm c k)).
  { apply Forall_forall. intros i Hi. apply slice_in in Hi. apply (Permutation_in _ HP) in Hi. apply in_seq in Hi. lia. }
  assert (EL : length (slice perm c k) = c) by (apply slice_length; rewrite HL; nia).
  destruct (cf_batch _ _ _ _ C M k (slice perm c k) c (d_f t) H8 HQ EL HA) as (f' & Ef & R' & T' & Sh).
  unfold slice in Ef. rewrite (Nat.mul_comm c k) in Ef. rewrite Ef. cbn [obind].
  destruct (apply_ok (with_f t f') M 0 _ _ Hp Hn ltac:(lia) (derive_wide 0 _ ltac:(lia) HA) R' eq_refl Sh) as (f2 & E2 & R2 & T2 & _ & Y2 & S2).
  exists (with_f t f2). split; [rewrite E2; reflexivity|].
  split; [split|].
  - split; [exact Hn|]. do 3 (split; [assumption|]). exists M, B. do 5 (split; [assumption|]). split; [exact R2|exact H9].
  - do 5 (split; [assumption|]). apply T2. exact T'.
  - split; [reflexivity|]. unfold batchX, batchY. cbn [d_ptr with_f d_f] in *. rewrite Hp, Y2. exact S2.
Qed.

Lemma walk_ok t fp tb ph id ibs bs flag : InvP t fp tb ph -> id < 2 -> 0 < asked fp ibs bs <= fp -> asked fp ibs bs mod s = 0 ->
  let c := Nat.min (asked fp ibs bs / s) (st_cnt st id) in
  exists t', walk_over_set F t id ibs bs flag = Some (walks s (st_cnt st id) c, t') /\ InvP t' fp tb (PWalk id c flag) /\ d_norm t' = d_norm t /\ d_idx t' = d_idx t.
Proof.
  intros [HI _] Hid Hb Hm c. pose proof sibs_pos as Hsp. unfold walk_over_set. rewrite same_size. destruct HI as [Hn HI].
  pose proof HI as (H1 & H2 & H3 & M & B & H4 & H5 & H6 & H7 & Hmm & H8 & H9). rewrite H1.
  destruct (mult_of _ Hm) as (q & Eq & Eq2). pose proof (cf_stor _ _ _ _ C H3 id Hid) as Hpos.
  unfold dataset_samples_count. rewrite (cf_count _ _ _ _ C id Hid).
  assert (E : (if s * st_cnt st id <? asked fp ibs bs then s * st_cnt st id else asked fp ibs bs) = c * s).
  { unfold c. rewrite Eq2. rewrite Eq. destruct (Nat.ltb_spec (s * st_cnt st id) (q * s)) as [Hlt|Hlt].
    - assert (st_cnt st id < q) by nia. rewrite Nat.min_r by lia. lia.
    - assert (q <= st_cnt st id) by nia. rewrite Nat.min_l by lia. reflexivity. }
  rewrite E. assert (Hq : 0 < q <= M) by nia. assert (Hc : 0 < c <= st_cnt st id /\ c <= q) by (unfold c; rewrite Eq2; lia).
  rewrite Nat.div_mul by lia. destruct (Nat.ltb_spec 0 (c * s)) as [_|?]; [|nia]. cbn [guard obind].
  rewrite div_scale, mod_scale by lia. eexists. split; [reflexivity|].
  destruct (cf_walk _ _ _ _ C M id c flag (d_f t) H8 Hid ltac:(lia)) as (R' & W').
  split; [|split; reflexivity]. split.
  - split; [exact Hn|]. cbn [d_fp d_tb d_f d_idx]. do 3 (split; [first [assumption|reflexivity]|]). exists M, B. do 5 (split; [assumption|]). split; [exact R'|exact H9].
  - cbn. repeat split; try assumption; try lia.
Qed.

Lemma epoch_ok t fp tb ph e rv ibs bs : InvP t fp tb ph -> rng_ok rv -> 0 < asked tb ibs bs <= tb -> asked tb ibs bs mod s = 0 ->
  let c := asked tb ibs bs / s in
  exists t' perm, on_next_epoch F t e rv ibs bs = Some (st_cnt st 0 / c, t') /\ Permutation perm (seq 0 (st_cnt st 0)) /\
    InvP t' fp tb (PTrain c perm) /\ d_norm t' = d_norm t.
Proof.
  intros [HI _] Hrv Hb Hm c. pose proof sibs_pos as Hsp. unfold on_next_epoch. rewrite same_size. destruct HI as [Hn HI].
  pose proof HI as (H1 & H2 & H3 & M & B & H4 & H5 & H6 & H7 & Hmm & H8 & H9). rewrite H2.
  destruct (mult_of _ Hm) as (q & Eq & Eq2). fold c in Eq2. subst q.
  assert (HB : 0 < B) by nia. destruct (H9 HB) as [HP HBn].
  destruct (shuffle_perm rv (d_idx t) Hrv) as (idx' & Ei & Pi). rewrite Ei. cbn [obind]. fold c.
  destruct (Nat.ltb_spec 0 (asked tb ibs bs)) as [_|?]; [|lia]. cbn [guard obind].
  unfold dataset_samples_count. rewrite (cf_count _ _ _ _ C 0 ltac:(lia)). assert (Hc : 0 < c <= M) by nia.
  assert (ED : s * st_cnt st 0 / asked tb ibs bs = st_cnt st 0 / c) by (transitivity (s * st_cnt st 0 / (c * s)); [f_equal; exact Eq|apply div_scale; lia]).
  rewrite ED.
  destruct (cf_epoch _ _ _ _ C M e c (d_f t) H8 Hc) as (R' & T').
  eexists. exists idx'. split; [reflexivity|]. assert (PP : Permutation idx' (seq 0 (st_cnt st 0))) by (etransitivity; [exact Pi|exact HP]).
  split; [exact PP|]. split; [|reflexivity]. split.
  - split; [exact Hn|]. cbn [d_fp d_tb d_f d_idx]. do 3 (split; [first [assumption|reflexivity]|]). exists M, B. do 5 (split; [assumption|]). split; [exact R'|]. intros _. split; assumption.
  - cbn. repeat split; try assumption; lia.
Qed.

Lemma step_refines t fp tb ph o : InvP t fp tb ph -> tallowed F st fp tb ph o ->
  exists r t' ph', tstep F st t o = Some (r, t') /\ tspec F st derive (ca (d_norm t)) (cb (d_norm t)) fp tb ph o r ph' /\ InvP t' fp tb ph' /\ d_norm t' = d_norm t.
Proof.
  intros HI Ha. destruct o as [e rv ibs bs|k|id ibs bs flag|k]; cbn [tallowed tstep tspec] in *.
  - destruct Ha as (Hrv & Hb & Hm). destruct (epoch_ok t fp tb ph e rv ibs bs HI Hrv Hb Hm) as (t' & perm & E & P & I' & N'). rewrite E. cbn [obind].
    exists (TNum (st_cnt st 0 / (asked tb ibs bs / s))), t', (PTrain (asked tb ibs bs / s) perm). split; [reflexivity|]. split; [|split; assumption].
    destruct ph; exists perm; auto.
  - destruct ph as [|c perm|]; try contradiction. destruct (batch_ok _ _ _ _ _ _ HI Ha) as (t' & E & I' & N' & Sh). rewrite E. cbn [obind].
    eexists _, t', (PTrain c perm). split; [reflexivity|]. split; [|split; assumption]. split; [|reflexivity]. eexists _, _. split; [reflexivity|exact Sh].
  - destruct Ha as (Hid & Hb & Hm). destruct (walk_ok t fp tb ph id ibs bs flag HI Hid Hb Hm) as (t' & E & I' & N' & _). rewrite E. cbn [obind].
    eexists _, t', (PWalk id (Nat.min (asked fp ibs bs / s) (st_cnt st id)) flag). split; [reflexivity|]. split; [|split; assumption]. destruct ph; split; reflexivity.
  - destruct ph as [| |id c flag]; try contradiction. destruct (next_ok _ _ _ _ _ _ _ HI Ha) as (t' & E & I' & N' & _ & Sh). rewrite E. cbn [obind].
    eexists _, t', (PWalk id c flag). split; [reflexivity|]. split; [|split; assumption]. split; [|reflexivity]. eexists _, _. split; [reflexivity|exact Sh].
Qed.

Lemma run_refines fp tb os : forall t ph, InvP t fp tb ph -> trun_allowed F st derive fp tb ph os ->
  exists rs t' ph', trun F st t os = Some (rs, t') /\ trun_spec F st derive (ca (d_norm t)) (cb (d_norm t)) fp tb ph os rs ph' /\ InvP t' fp tb ph' /\ d_norm t' = d_norm t.
Proof.
  induction os as [|o os IH]; intros t ph HI Ha.
  - exists [], t, ph. split; [reflexivity|]. split; [constructor|]. split; [exact HI|reflexivity].
  - inversion Ha as [|? ? ? Ho Hrest]; subst. destruct (step_refines _ _ _ _ _ HI Ho) as (r & t' & ph' & E & Sp & I' & N').
    destruct (IH t' ph' I' (Hrest _ _ _ _ Sp)) as (rs & t'' & ph'' & E2 & Sp2 & I2 & N2). cbn [trun]. rewrite E. cbn [obind]. rewrite E2. cbn [obind].
    exists (r :: rs), t'', ph''. split; [reflexivity|]. rewrite N' in Sp2, N2. split; [econstructor; eassumption|]. split; assumption.
Qed.
Lemma inv_serves t fp tb : Inv t (Some (fp, tb)) -> tserves F st derive (ca (d_norm t)) (cb (d_norm t)) t fp tb.
Proof.
  intros HI os Ha. destruct (run_refines fp tb os t PIdle (conj HI I) Ha) as (rs & t' & ph & E & Sp & _). exists rs, t', ph. split; assumption.
Qed.

(** ** Initialisation *)
Lemma inv_deinit t h : Inv t h -> Inv (deinit4all F t) None.
Proof. intros [Hn _]. split; [exact Hn|reflexivity]. Qed.
Lemma checks_ok t mf mt e t' : base_init_checks F st t mf mt = (e, t') ->
  (e = TfSuccess /\ t' = deinit4all F t /\ st_empty st = false /\ (0 <= mf)%Z /\ (0 <= mt)%Z /\ Z.to_nat mf mod s = 0 /\ Z.to_nat mt mod s = 0) \/ (e = TfOther /\ t' = t).
Proof.
  pose proof sibs_pos as Hsp. unfold base_init_checks. destruct (st_empty st); cbn [orb]; [intros E; injection E as <- <-; right; auto|].
  destruct (negb (st_coherent st)); [intros E; injection E as <- <-; right; auto|].
  assert (HZ : forall z, bad_size F z = false -> (0 <= z)%Z /\ Z.to_nat z mod s = 0).
  { intros z E. unfold bad_size in E. apply orb_false_elim in E. destruct E as [E1 E2]. apply Z.ltb_ge in E1. apply negb_false_iff, Z.eqb_eq in E2.
    split; [exact E1|]. rewrite <- (Z2Nat.id z E1) in E2. rewrite <- Nat2Z.inj_mod in E2. lia. }
  destruct (bad_size F mf) eqn:E1; [intros E; injection E as <- <-; right; auto|]. destruct (HZ _ E1) as [P1 M1].
  destruct (Z.ltb_spec mt 0) as [?|P2]; cbn [orb]; [intros E; injection E as <- <-; right; auto|].
  destruct (Z.ltb_spec 0 mt) as [P3|P3]; cbn [andb].
  - destruct (bad_size F mt) eqn:E2; intros E; injection E as <- <-; [right; auto|]. destruct (HZ _ E2) as [_ M2]. left. auto 10.
  - intros E. injection E as <- <-. left. replace mt with 0%Z by lia. change (Z.to_nat 0) with 0. rewrite Nat.mod_0_l by lia. repeat split; auto. lia.
Qed.
Lemma biggest_ok : base_biggest F = Nat.max (st_cnt st 0) (st_cnt st 1).
Proof. unfold base_biggest. cbn [seq fold_left]. rewrite (cf_count _ _ _ _ C 0), (cf_count _ _ _ _ C 1) by lia. lia. Qed.
Lemma negotiate_ok n b : 0 < b -> 0 < negotiate n b <= b /\ (0 < n <= b -> negotiate n b = n) /\ (n = 0 \/ b < n -> negotiate n b = b).
Proof. intros H. unfold negotiate. destruct (Nat.eqb_spec n 0), (Nat.ltb_spec b n); cbn [orb]; lia. Qed.

Lemma init_inf_ok t h mf fp t' : Inv t h -> init4inference F st t mf = (TfSuccess, Z.of_nat fp, t') ->
  Inv t' (Some (fp, 0)) /\ d_norm t' = d_norm t /\ fp = negotiate (Z.to_nat mf / s) (Nat.max (st_cnt st 0) (st_cnt st 1)) * s.
Proof.
  intros [Hn _] E. unfold init4inference in E. destruct (base_init_checks F st t mf 0) as [e t0] eqn:Ec.
  destruct (checks_ok _ _ _ _ _ Ec) as [(-> & -> & He & P1 & _ & M1 & _)|(-> & ->)]; [|discriminate].
  rewrite biggest_ok in E. set (M := negotiate _ _) in *. destruct (_ <? _)%Z in E; [discriminate|]. cbv zeta in E.
  pose proof (cf_stor _ _ _ _ C He 0 ltac:(lia)) as Hp0. pose proof sibs_pos.
  assert (HM : 0 < M <= Nat.max (st_cnt st 0) (st_cnt st 1)) by (apply negotiate_ok; lia).
  destruct (f_init F M _) as [[|] f] eqn:Ei; [|discriminate]. injection E as E <-. apply Nat2Z.inj in E. subst fp.
  split; [|split; reflexivity]. split; [exact Hn|]. cbn. do 3 (split; [auto|]). exists M, 0. do 5 (split; [lia|]). split; [|lia].
  eapply (cf_init _ _ _ _ C); [|exact Ei]. lia.
Qed.
Lemma init_train_ok t h mem mf mt fp tb mini t' : Inv t h -> init4train F st mem t mf mt = (TfSuccess, Z.of_nat fp, Z.of_nat tb, mini, t') ->
  Inv t' (Some (fp, tb)) /\ d_norm t' = d_norm t /\ fp = negotiate (Z.to_nat mf / s) (Nat.max (st_cnt st 0) (st_cnt st 1)) * s /\
  tb = negotiate (Z.to_nat mt / s) (st_cnt st 0) * s /\ mini = Some (negotiate (Z.to_nat mt / s) (st_cnt st 0) <? st_cnt st 0).
Proof.
  intros [Hn _] E. unfold init4train in E. destruct (base_init_checks F st t mf mt) as [e t0] eqn:Ec.
  destruct (checks_ok _ _ _ _ _ Ec) as [(-> & -> & He & P1 & P2 & M1 & M2)|(-> & ->)]; [|discriminate].
  rewrite biggest_ok, (cf_count _ _ _ _ C 0) in E by lia. set (M := negotiate _ (Nat.max _ _)) in *. set (B := negotiate _ (st_cnt st 0)) in *. cbv zeta in E.
  destruct (Nat.ltb_spec M B) as [?|HMB]; [discriminate|]. destruct (_ <? _)%Z in E; [discriminate|]. destruct (_ <? _)%Z in E; [discriminate|].
  destruct mem; cbn [negb] in E; [|discriminate].
  pose proof (cf_stor _ _ _ _ C He 0 ltac:(lia)) as Hp0. pose proof sibs_pos.
  assert (HM : 0 < M <= Nat.max (st_cnt st 0) (st_cnt st 1)) by (apply negotiate_ok; lia).
  assert (HB : 0 < B <= st_cnt st 0) by (apply negotiate_ok; lia).
  rewrite Nat.max_l in E by lia.
  destruct (f_init F M _) as [[|] f] eqn:Ei; [|discriminate]. injection E as E1 E2 <- <-. apply Nat2Z.inj in E1, E2. subst fp tb.
  split; [|repeat split; reflexivity]. split; [exact Hn|]. cbn. do 3 (split; [auto|]). exists M, B. do 5 (split; [lia|]). split; [|intros _; split; [reflexivity|lia]].
  eapply (cf_init _ _ _ _ C); [|exact Ei]. lia.
Qed.
End P.
