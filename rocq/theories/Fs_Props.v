(** C109: the numerically stable sums in floating-point arithmetic. *)
From Coq Require Import Reals Lra Lia.
From Flocq Require Import Core.
From Verif Require Import Base Workers_Model Kern_Model Act_Spec Sum_Model Sum_Spec Fs_Model Fs_Spec Fs_Proofs3 Fs_Proofs4.
Local Open Scope R_scope.

Section P.
Context (prec emin : Z) (choice : Z -> bool) (Hp : (6 <= prec)%Z).
Local Notation rnd := (nearest prec emin choice).
Local Notation fmt := (float prec emin).
Local Notation u := (unit_roundoff prec).

(** A stretch of an array, stably and plainly; the cells of the threads. *)
Theorem C109_vector data ofs n : (ofs + n <= length data)%nat -> let l := firstn n (skipn ofs data) in
  Forall fmt l -> INR n * u <= 1 ->
  (exists s, fvec_sum rnd true data ofs n = Some s /\ fmt s /\ stable_sum u l s) /\
  (exists s, fvec_sum rnd false data ofs n = Some s /\ fmt s /\ plain_sum u l s).
Proof. intros H l Fl Hn. destruct (vector_main prec emin choice Hp data ofs n H Fl Hn) as (A & B & _). split; [exact A|exact B]. Qed.
Print Assumptions C109_vector.
Theorem C109_cells cells : Forall fmt cells -> INR (length cells) * u <= 1 ->
  stable_sum u cells (freduce_vec_sum rnd true cells) /\ plain_sum u cells (freduce_vec_sum rnd false cells).
Proof. exact (cells_main prec emin choice Hp cells). Qed.
Print Assumptions C109_cells.
(** The elements other than [cv], and their number. *)
Theorem C109_others data ofs n cv : (ofs + n <= length data)%nat ->
  let l := firstn n (skipn ofs data) in let l' := filter (fun v => if Req_EM_T v cv then false else true) l in
  Forall fmt l -> INR n * u <= 1 ->
  (exists s C, vec_apply_func data ofs n (fkahannz_op rnd cv) (0, 0, 0%nat) = Some (s, C, length l') /\ fmt s /\ stable_sum u l' s) /\
  (exists s, vec_apply_func data ofs n (fsumnz_op rnd cv) (0, 0%nat) = Some (s, length l') /\ fmt s /\ plain_sum u l' s).
Proof.
  intros H l l' Fl Hn. destruct (vector_main prec emin choice Hp data ofs n H Fl Hn) as (_ & _ & D). split; [exact (D cv)|].
  exact (sumnz_main prec emin choice Hp data ofs n cv H Fl).
Qed.
Print Assumptions C109_others.
(** The sum of the squares and the quadratic loss, whatever the number of the threads. *)
Theorem C109_squares pool thr data n : (0 < n <= length data)%nat -> Forall fmt data -> INR n * u <= 1 ->
  exists s, fewSumSquares rnd pool thr true data n = Some s /\ fmt s /\
    let S := total n (fun i => Rsqr (nth i data 0)) in
    Rabs (s - S) <= (7 * u + 72 * INR n * u * u) * S + 3 * INR n * tiny_error emin.
Proof. exact (squares_main prec emin choice Hp pool thr data n). Qed.
Print Assumptions C109_squares.
Theorem C109_loss pool thr acts y : fits acts y -> Forall fmt (m_data acts) -> Forall fmt (m_data y) -> INR (numel acts) * u <= 1 ->
  exists s, floss_quadratic rnd pool thr true acts y = Some s /\ fmt s /\
    let L := / 2 * total (numel acts) (fun i => Rsqr (elem acts i - elem y i)) in
    Rabs (s - L) <= (10 * u + 104 * INR (numel acts) * u * u) * L + 3 * INR (numel acts) * tiny_error emin.
Proof. exact (loss_main prec emin choice Hp pool thr acts y). Qed.
Print Assumptions C109_loss.
End P.

(** No such bound holds of the plain sum: for every K there are numbers whose sum is off by more
    than K roundings of the sum of their absolute values. *)
Theorem C109_plain (K : nat) : exists prec emin data, (6 <= prec)%Z /\ Forall (float prec emin) data /\ INR (length data) * unit_roundoff prec <= 1 /\
  exists s, fvec_sum (nearest prec emin to_even) false data 0 (length data) = Some s /\
    Rabs (s - sumR data) > INR K * unit_roundoff prec * abs_total data.
Proof. exact (plain_loses K). Qed.
Print Assumptions C109_plain.
(** Without rounding these are the functions of Sum_Model. *)
Theorem C109_exact : fsum_op exact = sum_op /\ fkahan_op exact = kahan_op /\ fsumnz_op exact = sumnz_op /\ fkahannz_op exact = kahannz_op /\
  fewSumSquares exact = ewSumSquares /\ floss_quadratic exact = loss_quadratic.
Proof. exact same_functors. Qed.
Print Assumptions C109_exact.

(** float, four numbers, the first much larger than the others *)
Definition ex_data : list R := map (fun e => bpow radix2 e) [40; 3; 0; -2]%Z.
Lemma ex_float : Forall (float 24 (-149)) ex_data.
Proof. unfold ex_data. cbn [map]. repeat constructor; apply f_pow; lia. Qed.
Lemma ex_small n : (n <= 16)%nat -> INR n * unit_roundoff 24 <= 1.
Proof.
  intros H. apply Rle_trans with (INR 16 * bpow radix2 (-4)).
  - apply Rmult_le_compat; [apply pos_INR|apply bpow_ge_0|apply le_INR, H|apply bpow_le; lia].
  - change (bpow radix2 (-4)) with (/ 16). rewrite INR_IZR_INZ. cbn. lra.
Qed.
Example C109_vector_ex : exists s, fvec_sum (nearest 24 (-149) to_even) true ex_data 1 3 = Some s /\ stable_sum (unit_roundoff 24) [8; 1; / 4] s.
Proof.
  destruct (C109_vector 24 (-149) to_even ltac:(lia) ex_data 1 3) as [(s & E & _ & B) _]; [cbn; lia| |apply ex_small; lia|exists s; split; [exact E|exact B]].
  apply Forall_forall. intros x Hx. apply (proj1 (Forall_forall _ _) ex_float). cbn in *. intuition.
Qed.
Example C109_cells_ex : stable_sum (unit_roundoff 24) ex_data (freduce_vec_sum (nearest 24 (-149) to_even) true ex_data).
Proof. apply (C109_cells 24 (-149) to_even ltac:(lia) ex_data ex_float). apply ex_small. cbn. lia. Qed.
Example C109_others_ex : exists s C k, vec_apply_func ex_data 0 4 (fkahannz_op (nearest 24 (-149) to_even) 8) (0, 0, 0%nat) = Some (s, C, k) /\ float 24 (-149) s.
Proof.
  destruct (C109_others 24 (-149) to_even ltac:(lia) ex_data 0 4 8) as [(s & C & E & F & _) _]; [cbn; lia|exact ex_float|apply ex_small; lia|exists s, C; eexists; split; [exact E|exact F]].
Qed.
(** threads: two ranges and the main thread *)
Definition ex_pool : list prange := [mkR 0 0 1; mkR 0 0 2].
Example C109_squares_ex : exists s, fewSumSquares (nearest 24 (-149) to_even) ex_pool 2 true ex_data 4 = Some s /\ float 24 (-149) s.
Proof.
  destruct (C109_squares 24 (-149) to_even ltac:(lia) ex_pool 2 ex_data 4) as (s & E & F & _); [cbn; lia|exact ex_float|apply ex_small; lia|exists s; split; assumption].
Qed.
Example C109_loss_ex : exists s, floss_quadratic (nearest 24 (-149) to_even) ex_pool 2 true (mkM 2 2 false false ex_data) (mkM 2 2 false false (rev ex_data)) = Some s /\ float 24 (-149) s.
Proof.
  destruct (C109_loss 24 (-149) to_even ltac:(lia) ex_pool 2 (mkM 2 2 false false ex_data) (mkM 2 2 false false (rev ex_data))) as (s & E & F & _).
  - unfold fits, alloc, numel. cbn [m_rows m_cols m_data]. rewrite rev_length. unfold ex_data. rewrite map_length. cbn. lia.
  - exact ex_float.
  - apply Forall_rev, ex_float.
  - apply ex_small. cbn. lia.
  - exists s; split; assumption.
Qed.
