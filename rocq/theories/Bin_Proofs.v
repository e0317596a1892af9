(** Bytes, matrices and single fields. *)
From Verif Require Import Base BaseLemmas Kern_Model Smx_Model Smx_Spec Smx_Proofs TData_Model Bin_Model Bin_Spec.
From Coq Require Import NArith Nnat Permutation.

(** ** Bytes *)
Lemma enc_int_length k : forall n, length (enc_int k n) = k.
Proof. induction k; intros n; simpl; auto. Qed.

Lemma enc_int_byte k : forall n, Forall is_byte (enc_int k n).
Proof.
  induction k; intros n; simpl; constructor; auto. unfold is_byte.
  apply N.mod_lt. discriminate.
Qed.

Lemma le_enc k : forall n, (n < 256 ^ N.of_nat k)%N -> le (enc_int k n) = n.
Proof.
  induction k; intros n H.
  - change (256 ^ N.of_nat 0)%N with 1%N in H. simpl. lia.
  - cbn [enc_int le]. rewrite IHk.
    + pose proof (N.div_mod n 256 ltac:(discriminate)). lia.
    + rewrite Nat2N.inj_succ, N.pow_succ_r' in H. apply N.div_lt_upper_bound; [discriminate|exact H].
Qed.

Lemma enc_le l : Forall is_byte l -> enc_int (length l) (le l) = l.
Proof.
  induction 1; [reflexivity|]. cbn [length enc_int le]. unfold is_byte in *.
  replace ((x + 256 * le l) mod 256)%N with x.
  - replace ((x + 256 * le l) / 256)%N with (le l); [congruence|].
    rewrite (N.mul_comm 256), N.div_add by discriminate. rewrite N.div_small by assumption. lia.
  - rewrite (N.mul_comm 256), N.mod_add by discriminate. rewrite N.mod_small by assumption. reflexivity.
Qed.

Lemma le_bound l : Forall is_byte l -> (le l < 256 ^ N.of_nat (length l))%N.
Proof.
  induction 1; [reflexivity|]. cbn [length le]. rewrite Nat2N.inj_succ, N.pow_succ_r'. unfold is_byte in *. nia.
Qed.

Lemma fread_app a b n : N.of_nat (length a) = n -> fread n (a ++ b) = Some (a, b).
Proof.
  intros H. unfold fread. rewrite app_length.
  assert (E : (n <=? N.of_nat (length a + length b))%N = true) by (apply N.leb_le; lia).
  rewrite E. replace (N.to_nat n) with (length a) by lia.
  rewrite firstn_app, Nat.sub_diag, firstn_all, firstn_O, app_nil_r.
  rewrite skipn_app, Nat.sub_diag, skipn_all. reflexivity.
Qed.

Lemma fread_inv n f d f' : fread n f = Some (d, f') -> f = d ++ f' /\ N.of_nat (length d) = n.
Proof.
  unfold fread. destruct (N.leb_spec n (N.of_nat (length f))) as [H|H]; [|discriminate].
  intros E. injection E as <- <-. split; [symmetry; apply firstn_skipn|].
  rewrite firstn_length. lia.
Qed.

Lemma fread_short n f : (N.of_nat (length f) < n)%N -> fread n f = None.
Proof. intros H. unfold fread. destruct (N.leb_spec n (N.of_nat (length f))); [lia|reflexivity]. Qed.

Lemma bytes_eq_true a : forall b, bytes_eq a b = true <-> a = b.
Proof.
  induction a as [|x a IH]; intros [|y b]; simpl; split; try discriminate; try reflexivity.
  - rewrite andb_true_iff, N.eqb_eq, IH. intros [-> ->]. reflexivity.
  - intros E. injection E as -> ->. rewrite N.eqb_refl. simpl. apply IH. reflexivity.
Qed.

Lemma cstr_spec name : is_cstring name (cstr name).
Proof.
  unfold is_cstring. induction name as [|b l [IH1 IH2]]; simpl; [split; [constructor|left; reflexivity]|].
  destruct (N.eqb_spec b 0) as [->|Hb].
  - split; [constructor|]. right. exists l. reflexivity.
  - split; [constructor; assumption|]. destruct IH2 as [E|(t & E)].
    + left. congruence.
    + right. exists t. simpl. congruence.
Qed.

Lemma cstring_cstr name s : is_cstring name s -> cstr name = s.
Proof.
  intros [H1 H2]. assert (E : forall t, cstr (s ++ 0%N :: t) = s).
  { intros t. clear H2. induction H1 as [|b l Hb Hl IH]; [reflexivity|]. simpl.
    destruct (N.eqb_spec b 0); [contradiction|]. f_equal. exact IH. }
  destruct H2 as [->|(t & ->)]; [|apply E].
  clear E. induction H1 as [|b l Hb Hl IH]; [reflexivity|]. simpl.
  destruct (N.eqb_spec b 0); [contradiction|]. congruence.
Qed.

(** ** Chunks *)
Lemma chunks_concat k es : forall tl, Forall (fun e => length e = k) es ->
  chunks k (length es) (concat es ++ tl) = es.
Proof.
  induction es as [|e es IH]; intros tl H; [reflexivity|]. inversion H as [|x l He Hes]; subst.
  cbn [length chunks concat]. rewrite <- app_assoc. rewrite firstn_app, Nat.sub_diag, firstn_all, firstn_O, app_nil_r.
  rewrite skipn_app, Nat.sub_diag, skipn_all. cbn [app skipn]. rewrite IH by assumption. reflexivity.
Qed.

Lemma chunks_length k n : forall l, length (chunks k n l) = n.
Proof. induction n; intros l; simpl; auto. Qed.

Lemma concat_chunks k n : forall l, length l = n * k ->
  concat (chunks k n l) = l /\ Forall (fun e => length e = k) (chunks k n l).
Proof.
  induction n; intros l H.
  - destruct l; [|discriminate]. split; [reflexivity|constructor].
  - cbn [chunks concat]. simpl in H.
    assert (H1 : length (firstn k l) = k) by (rewrite firstn_length; lia).
    assert (H2 : length (skipn k l) = n * k) by (rewrite skipn_length; lia).
    destruct (IHn _ H2) as [E F]. split; [rewrite E; apply firstn_skipn|constructor; assumption].
Qed.

Lemma esize_elem t : esize t = N.of_nat (elem_bytes t).
Proof. unfold esize, elem_bytes. destruct (t =? 0)%N; reflexivity. Qed.
Lemma elem_bytes_pos t : 0 < elem_bytes t <= 8.
Proof. unfold elem_bytes. destruct (t =? 0)%N; lia. Qed.

(** ** Field entries *)
Lemma sub_app0 (a b : list N) n : length a = n -> sub 0 n (a ++ b) = a.
Proof. intros <-. unfold sub. cbn [skipn]. rewrite firstn_app, Nat.sub_diag, firstn_all, firstn_O, app_nil_r. reflexivity. Qed.
Lemma sub_app (a b : list N) o n : length a <= o -> sub o n (a ++ b) = sub (o - length a) n b.
Proof.
  intros H. unfold sub. rewrite skipn_app.
  assert (E : skipn o a = []) by (apply skipn_all2; exact H). rewrite E. reflexivity.
Qed.

Lemma parse_entry_bytes r c name t :
  (r < 2 ^ 32)%N -> (c < 2 ^ 32)%N -> length name = 15 -> is_byte t ->
  parse_entry (entry_bytes r c name t) = mkE r c name t /\ length (entry_bytes r c name t) = 24.
Proof.
  intros Hr Hc Hn Ht. unfold parse_entry, entry_bytes. split.
  - rewrite (sub_app0 (enc_int 4 r)) by apply enc_int_length.
    rewrite !(sub_app (enc_int 4 r)) by (rewrite enc_int_length; lia). rewrite enc_int_length.
    change (4 - 4) with 0. change (8 - 4) with 4. change (23 - 4) with 19.
    rewrite (sub_app0 (enc_int 4 c)) by apply enc_int_length.
    rewrite !(sub_app (enc_int 4 c)) by (rewrite enc_int_length; lia). rewrite enc_int_length.
    change (4 - 4) with 0. change (19 - 4) with 15.
    rewrite (sub_app0 name) by exact Hn. rewrite (sub_app name) by lia. rewrite Hn, Nat.sub_diag.
    rewrite !le_enc by assumption. unfold sub. simpl. f_equal. lia.
  - rewrite !app_length, !enc_int_length, Hn. reflexivity.
Qed.

Lemma sub_byte o n l : Forall is_byte l -> Forall is_byte (sub o n l).
Proof.
  intros H. unfold sub. rewrite <- (firstn_skipn o l) in H. apply Forall_app in H. destruct H as [_ H].
  rewrite <- (firstn_skipn n (skipn o l)) in H. apply Forall_app in H. apply H.
Qed.
Lemma sub_length o n (l : list N) : o + n <= length l -> length (sub o n l) = n.
Proof. intros H. unfold sub. rewrite firstn_length, skipn_length. lia. Qed.
Lemma entry_bytes_parse d : length d = 24 -> Forall is_byte d ->
  let e := parse_entry d in
  d = entry_bytes (e_rows e) (e_cols e) (e_name e) (e_type e) /\
  length (e_name e) = 15 /\ is_byte (e_type e) /\ (e_rows e < 2 ^ 32)%N /\ (e_cols e < 2 ^ 32)%N.
Proof.
  intros L B e. unfold e, parse_entry. cbn [e_rows e_cols e_name e_type].
  assert (L1 : length (sub 0 4 d) = 4) by (apply sub_length; lia).
  assert (L2 : length (sub 4 4 d) = 4) by (apply sub_length; lia).
  assert (L3 : length (sub 8 15 d) = 15) by (apply sub_length; lia).
  assert (L4 : length (sub 23 1 d) = 1) by (apply sub_length; lia).
  pose proof (le_bound _ (sub_byte 0 4 d B)) as R. rewrite L1 in R.
  pose proof (le_bound _ (sub_byte 4 4 d B)) as C. rewrite L2 in C.
  pose proof (le_bound _ (sub_byte 23 1 d B)) as T. rewrite L4 in T.
  split; [|repeat split; assumption].
  unfold entry_bytes.
  pose proof (enc_le _ (sub_byte 0 4 d B)) as E1. rewrite L1 in E1. rewrite E1.
  pose proof (enc_le _ (sub_byte 4 4 d B)) as E2. rewrite L2 in E2. rewrite E2.
  assert (E3 : [le (sub 23 1 d)] = sub 23 1 d).
  { destruct (sub 23 1 d) as [|x [|y l]]; try discriminate. simpl. f_equal. lia. }
  rewrite E3. clear - L.
  do 24 (destruct d as [|? d]; [discriminate|]). destruct d; [reflexivity|discriminate].
Qed.

(** ** Headers *)
Lemma parse_header_bytes n k : (n < 2 ^ 16)%N -> (k < 2 ^ 16)%N ->
  parse_header (header_bytes n k) = mkH signature 0 n k /\ length (header_bytes n k) = 10.
Proof.
  intros Hn Hk. unfold parse_header, header_bytes. split.
  - change (sub 0 4 ([110; 110; 116; 108; 0; 0] ++ enc_int 2 n ++ enc_int 2 k)%N) with [110; 110; 116; 108]%N.
    change (sub 4 2 ([110; 110; 116; 108; 0; 0] ++ enc_int 2 n ++ enc_int 2 k)%N) with [0; 0]%N.
    rewrite !(sub_app [110; 110; 116; 108; 0; 0]%N) by (simpl; lia). cbn [length].
    change (6 - 6) with 0. change (8 - 6) with 2.
    rewrite (sub_app0 (enc_int 2 n)) by apply enc_int_length.
    rewrite (sub_app (enc_int 2 n)) by (rewrite enc_int_length; lia). rewrite enc_int_length.
    change (2 - 2) with 0. rewrite <- (app_nil_r (enc_int 2 k)).
    rewrite (sub_app0 (enc_int 2 k)) by apply enc_int_length.
    rewrite !le_enc by assumption. reflexivity.
  - rewrite !app_length, !enc_int_length. reflexivity.
Qed.

Lemma read_header_bytes n k tl : (n < 2 ^ 16)%N -> (k < 2 ^ 16)%N ->
  read_header (header_bytes n k ++ tl) = inr (mkH signature 0 n k, tl).
Proof.
  intros Hn Hk. destruct (parse_header_bytes n k Hn Hk) as [E L]. unfold read_header.
  rewrite (fread_app (header_bytes n k) tl 10) by (rewrite L; reflexivity). rewrite E. reflexivity.
Qed.

Lemma sig_bytes d : length d = 4 -> Forall is_byte d -> le d = signature -> d = [110; 110; 116; 108]%N.
Proof.
  intros L B E. rewrite <- (enc_le d B), L, E. vm_compute. reflexivity.
Qed.

Lemma read_header_inv f h tl : Forall is_byte f -> read_header f = inr (h, tl) ->
  f = header_bytes (h_fields h) (h_classes h) ++ tl /\ (h_fields h < 2 ^ 16)%N /\ (h_classes h < 2 ^ 16)%N.
Proof.
  intros B. unfold read_header. destruct (fread 10 f) as [[d f1]|] eqn:E; [|discriminate].
  apply fread_inv in E. destruct E as [-> L]. apply Forall_app in B. destruct B as [B _].
  destruct (negb (h_sig (parse_header d) =? signature)%N) eqn:E1; [discriminate|].
  destruct (negb (h_ver (parse_header d) =? 0)%N) eqn:E2; [discriminate|].
  intros E. injection E as <- <-.
  apply negb_false_iff, N.eqb_eq in E1. apply negb_false_iff, N.eqb_eq in E2.
  unfold parse_header in *. cbn [h_sig h_ver h_fields h_classes] in *.
  assert (L1 : length (sub 0 4 d) = 4) by (apply sub_length; lia).
  assert (L2 : length (sub 4 2 d) = 2) by (apply sub_length; lia).
  assert (L3 : length (sub 6 2 d) = 2) by (apply sub_length; lia).
  assert (L4 : length (sub 8 2 d) = 2) by (apply sub_length; lia).
  pose proof (le_bound _ (sub_byte 6 2 d B)) as R. rewrite L3 in R.
  pose proof (le_bound _ (sub_byte 8 2 d B)) as C. rewrite L4 in C.
  split; [|split; assumption].
  unfold header_bytes.
  pose proof (enc_le _ (sub_byte 6 2 d B)) as E3. rewrite L3 in E3. rewrite E3.
  pose proof (enc_le _ (sub_byte 8 2 d B)) as E4. rewrite L4 in E4. rewrite E4.
  pose proof (enc_le _ (sub_byte 4 2 d B)) as E5. rewrite L2, E2 in E5.
  pose proof (sig_bytes _ L1 (sub_byte 0 4 d B) E1) as E6.
  assert (L' : length d = 10) by lia. clear - L' E5 E6.
  do 10 (destruct d as [|? d]; [discriminate|]). destruct d; [|discriminate].
  unfold sub in *. cbn [firstn skipn enc_int] in *.
  change (0 mod 256)%N with 0%N in E5. change (0 / 256 mod 256)%N with 0%N in E5.
  injection E5 as <- <-. injection E6 as -> -> -> ->. reflexivity.
Qed.
