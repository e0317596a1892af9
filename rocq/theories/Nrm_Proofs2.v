(** Changing the data: scaling and shifting of all values or of columns. *)
From Coq Require Import Reals Lra Permutation.
From Verif Require Import Base BaseLemmas Workers_Model Act_Spec Loss_Proofs Kern_Model Kern_Spec Kern_Proofs Ew_Model Ew_Spec Ew_Proofs
  Smx_Model Smx_Spec TData_Model TData_Spec Nrm_Model Nrm_Spec Nrm_Proofs.
Local Open Scope nat_scope.

(** x data with samples in rows *)
Definition xdata (m : smx R) : Prop :=
  well_alloc m /\ s_bir m = false /\ s_bias m = true /\ biases_one 1%R m /\ 0 < sample_size m.

Lemma xdata_dims m : xdata m -> batch_size m = s_rows m /\ s_cols m = sample_size m + 1 /\ s_numel_nb m = s_rows m * sample_size m /\
  0 < s_rows m /\ exists l, s_data m = Some l /\ s_rows m * (sample_size m + 1) <= length l.
Proof.
  intros ((W1 & W2 & l & D & N) & Hbir & Hb & _ & HW).
  unfold batch_size, sample_size, s_numel_nb, s_rows_nb, s_cols_nb, s_bias_row, s_bias_col, s_numel in *. rewrite Hbir, Hb in *. cbn [andb negb Nat.b2n] in *.
  split; [reflexivity|]. split; [lia|]. split; [f_equal; lia|]. split; [exact W1|]. exists l. split; [exact D|].
  replace (s_cols m - 1 + 1) with (s_cols m) by lia. exact N.
Qed.

Lemma xv_some m l i j : xdata m -> s_data m = Some l -> i < batch_size m -> j < sample_size m ->
  bget l (i + s_rows m * j) = Some (xv m i j) /\ i + s_rows m * j < s_rows m * sample_size m.
Proof.
  intros H D Hi Hj. destruct (xdata_dims m H) as (E1 & E2 & _ & _ & l' & D' & Hl). assert (l' = l) by congruence. subst l'.
  assert (i + s_rows m * j < s_rows m * sample_size m).
  { pose proof (Nat.mul_le_mono_l (j + 1) (sample_size m) (s_rows m)). lia. }
  split; [|assumption]. unfold xv, scell. destruct H as (_ & -> & _). unfold cell. rewrite D. cbn [obind].
  destruct (bget_lt l (i + s_rows m * j)) as [v Ev]; [lia|]. rewrite Ev. reflexivity.
Qed.

Lemma mapped_intro a b m l l' : xdata m -> s_data m = Some l -> length l' = length l ->
  (forall i j, i < batch_size m -> j < sample_size m -> bget l' (i + s_rows m * j) = Some (a j * xv m i j + b j)%R) ->
  (forall k, s_rows m * sample_size m <= k -> bget l' k = bget l k) ->
  mapped a b m (with_mem m (Some l')) /\ xdata (with_mem m (Some l')).
Proof.
  intros H D Hl Hin Hout. destruct (xdata_dims m H) as (E1 & E2 & _ & _ & l0 & D' & Hl0). assert (l0 = l) by congruence. subst l0.
  pose proof H as (Hw & Hbir & Hb & Ho & HW). split.
  - do 5 (split; [reflexivity|]). intros i j Hi Hj. unfold scell. cbn [with_mem s_bir]. rewrite Hbir. unfold cell. cbn [with_mem s_data s_rows obind].
    apply Hin; assumption.
  - split; [|split; [exact Hbir|split; [exact Hb|split; [|exact HW]]]].
    + destruct Hw as (W1 & W2 & _). split; [exact W1|]. split; [exact W2|]. exists l'. split; [reflexivity|]. unfold s_numel in *. cbn [with_mem s_rows s_cols].
      rewrite E2. lia.
    + intros _. cbn [with_mem s_bir]. rewrite Hbir. cbn [with_mem s_cols s_rows]. specialize (Ho Hb). rewrite Hbir in Ho. destruct Ho as [Ho1 Ho2].
      split; [exact Ho1|]. intros r Hr. specialize (Ho2 r Hr). unfold cell in *. cbn [with_mem s_data s_rows]. rewrite D in Ho2. cbn [obind] in *.
      rewrite Hout; [exact Ho2|]. replace (s_cols m - 1) with (sample_size m) by lia. lia.
Qed.

Section F.
Context {B : Type}.
Notation imath := (imath R B).

Lemma mapped_id m : xdata m -> mapped (fun _ => 1%R) (fun _ => 0%R) m m.
Proof.
  intros H. do 5 (split; [reflexivity|]). intros i j Hi Hj. destruct (xdata_dims m H) as (_ & _ & _ & _ & l & D & _).
  destruct (xv_some m l i j H D Hi Hj) as [E _]. unfold scell. destruct H as (_ & -> & _). unfold cell. rewrite D. cbn [obind]. rewrite E. f_equal. ring.
Qed.

Lemma fix_whole_ok (im : imath) m s : im_ok im -> xdata m ->
  exists m', fix_whole im m s = Some m' /\ mapped (fun _ => fst (eff s)) (fun _ => snd (eff s)) m m' /\ xdata m'.
Proof.
  intros (Hp & HsA & _) H. pose proof H as (Hw & Hbir & Hb & Ho & HW). destruct (xdata_dims m H) as (E1 & E2 & E3 & E4 & l & D & Hl).
  unfold fix_whole. rewrite Hbir. cbn [negb guard obind]. pose proof (fix_fun_eff s) as Hf. destruct (fix_fun s) as [f|].
  2: { destruct Hf as [_ Hf]. rewrite Hf. cbn [fst snd]. exists m. split; [reflexivity|]. split; [apply mapped_id; exact H|exact H]. }
  destruct Hf as [_ Hf]. rewrite D, E3. cbn [obind].
  destruct (ew_correct (im_parts im (s_rows m * sample_size m)) (s_rows m * sample_size m) (fun _ v => Some (f v)) l) as (trs & Et & _ & Hc).
  - apply Hp. apply Nat.mul_pos_pos; assumption.
  - lia.
  - discriminate.
  - rewrite Et. cbn [obind]. unfold commit. destruct (Hc _ (HsA trs)) as (l' & -> & Hl' & Hin & Hout). cbn [obind].
    eexists. split; [reflexivity|]. apply mapped_intro with (l := l); try assumption.
    intros i j Hi Hj. destruct (xv_some m l i j H D Hi Hj) as [Ev Hlt]. destruct (Hin _ _ Hlt Ev) as [-> _]. f_equal. apply Hf.
Qed.

Lemma fix_cw_ok (im : imath) m st : im_ok im -> xdata m -> length st = sample_size m ->
  exists m', fix_cw im m st = Some m' /\ mapped (fun j => fst (eff (nth j st scd0))) (fun j => snd (eff (nth j st scd0))) m m' /\ xdata m'.
Proof.
  intros (Hp & HsA & _) H HL. pose proof H as (Hw & Hbir & Hb & Ho & HW). destruct (xdata_dims m H) as (E1 & E2 & E3 & E4 & l & D & Hl).
  unfold fix_cw. rewrite Hbir, D. cbn [negb guard obind].
  set (rows := s_rows m) in *. set (W := sample_size m) in *.
  set (val := fun a => match bget l a with Some v => Some (fst (eff (nth (a / rows) st scd0)) * v + snd (eff (nth (a / rows) st scd0)))%R | None => None end).
  assert (Hst : forall c, c < W -> bget st c = Some (nth c st scd0)).
  { intros c Hc. unfold bget. apply nth_error_nth'. lia. }
  assert (Hcol : forall c, c < W -> rows * c + rows <= length l).
  { intros c Hc. pose proof (Nat.mul_le_mono_l (c + 1) W rows). lia. }
  assert (Hdiv : forall c k, rows * c <= k < rows * c + rows -> k / rows = c).
  { intros c k Hk. symmetry. apply (Nat.div_unique k rows c (k - rows * c)); lia. }
  assert (Hcp : computes (par (fix_range m st l) (im_parts im W)) l
    (fun d' => forall a, if a <? rows * W then bget d' a = val a else bget d' a = bget l a)).
  { apply computes_intro with (cnt := W) (F := val) (dom := fun a => a < rows * W /\ dirty (nth (a / rows) st scd0) = true) (owner := fun a => a / rows).
    - apply Hp. exact HW.
    - intros r Hr Hr0 Hr1. unfold fix_range.
      set (ws := fun k => match fix_fun (nth (r_ofs r + k) st scd0) with None => []
        | Some f => match iew (fun _ v => Some (f v)) l (mkR (rows * (r_ofs r + k)) rows 0) with Some w => w | None => [] end end).
      assert (Hiew : forall f c, c < W -> exists t, iew (fun _ v => Some (f v)) l (mkR (rows * c) rows 0) = Some t /\
          forall a v, In (a, v) t <-> rows * c <= a < rows * c + rows /\ (do x <- bget l a; Some (f x)) = Some v).
      { intros f c Hc. apply (iew_closed (fun _ v => Some (f v)) l (mkR (rows * c) rows 0)). cbn [r_ofs r_cnt]. intros i Hi.
        destruct (bget_lt l i) as [v Hv]; [specialize (Hcol c Hc); lia|]. eauto. }
      rewrite (ptr_loop_closed' (r_cnt r) (r_ofs r) _ 1 _ tt (fun _ => tt) ws); [|reflexivity|lia|lia|].
      2: { intros i Hi. rewrite Nat.mul_1_r. rewrite Hst by lia. cbn [obind]. unfold ws. fold rows.
           destruct (fix_fun (nth (r_ofs r + i) st scd0)) as [f|]; [|reflexivity].
           destruct (Hiew f (r_ofs r + i)) as (t & -> & _); [lia|]. reflexivity. }
      cbn [obind]. eexists. split; [reflexivity|]. split.
      + intros a v Ha. apply in_flat_map in Ha. destruct Ha as (k & Hk & Ha). apply in_seq in Hk. unfold ws in Ha.
        pose proof (fix_fun_eff (nth (r_ofs r + k) st scd0)) as Hf. destruct (fix_fun _) as [f|]; [|destruct Ha]. destruct Hf as [Hd Hf].
        destruct (Hiew f (r_ofs r + k)) as (t & Et & Hin); [lia|]. rewrite Et in Ha. apply Hin in Ha. destruct Ha as [Ha Hv].
        rewrite (Hdiv _ _ Ha). pose proof (Nat.mul_le_mono_l (r_ofs r + k + 1) W rows). split; [split; [lia|exact Hd]|]. split; [lia|].
        unfold val. rewrite (Hdiv _ _ Ha). destruct (bget l a) as [x|]; [|discriminate]. cbn [obind] in Hv. injection Hv as <-. f_equal. symmetry. apply Hf.
      + intros a [Ha Hd] Hown. pose proof (fix_fun_eff (nth (a / rows) st scd0)) as Hf.
        assert (Hr2 : rows * (a / rows) <= a < rows * (a / rows) + rows).
        { pose proof (Nat.div_mod a rows). pose proof (Nat.mod_upper_bound a rows). lia. }
        destruct (fix_fun (nth (a / rows) st scd0)) as [f|] eqn:Ef; [|destruct Hf; congruence].
        destruct (Hiew f (a / rows)) as (t & Et & Hin); [lia|].
        destruct (bget_lt l a) as [x Hx]; [lia|]. exists (f x). apply in_flat_map. exists (a / rows - r_ofs r). split; [apply in_seq; lia|].
        unfold ws. replace (r_ofs r + (a / rows - r_ofs r)) with (a / rows) by lia. rewrite Ef, Et. apply Hin. split; [exact Hr2|]. rewrite Hx. reflexivity.
    - intros a [Ha _]. split; [lia|]. apply Nat.div_lt_upper_bound; lia.
    - intros d' Hd' Hin Hout a. destruct (Nat.ltb_spec a (rows * W)) as [Ha|Ha].
      + destruct (dirty (nth (a / rows) st scd0)) eqn:Ed; [apply Hin; auto|]. rewrite Hout by (intros [_ Q]; congruence). unfold val.
        destruct (bget l a) as [x|]; [|reflexivity]. pose proof (fix_fun_eff (nth (a / rows) st scd0)) as Hf.
        destruct (fix_fun (nth (a / rows) st scd0)); [destruct Hf; congruence|]. destruct Hf as [_ ->]. cbn [fst snd]. f_equal. ring.
      + apply Hout. intros [Q _]. lia. }
  destruct Hcp as (trs & -> & _ & Hc). cbn [obind]. unfold commit. destruct (Hc _ (HsA trs)) as (l' & -> & Hl' & Hpost). cbn [obind].
  eexists. split; [reflexivity|]. apply mapped_intro with (l := l); try assumption.
  - intros i j Hi Hj. destruct (xv_some m l i j H D Hi Hj) as [Ev Hlt]. specialize (Hpost (i + s_rows m * j)). fold rows in Ev, Hlt, Hpost |- *. fold W in Hlt.
    rewrite (proj2 (Nat.ltb_lt _ _) Hlt) in Hpost. rewrite Hpost. unfold val. rewrite Ev, (Hdiv j); [reflexivity|]. rewrite E1 in Hi. fold rows in Hi. lia.
  - intros k Hk. specialize (Hpost k). fold rows W in Hk. rewrite (proj2 (Nat.ltb_ge _ _) Hk) in Hpost. exact Hpost.
Qed.
End F.
