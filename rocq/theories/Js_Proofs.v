(** The loops of the JSON reader. *)
From Verif Require Import Base BaseLemmas Kern_Model Smx_Model Smx_Spec Smx_Proofs TData_Model Js_Model Js_Spec.
From Coq Require Import String List.
Local Open Scope list_scope.

Section P.
Context {D A : Type} (one : A) (extract : num D -> option A).
Implicit Types (d : smx A).

Definition shape d d' : Prop :=
  s_rows d' = s_rows d /\ s_cols d' = s_cols d /\ s_bias d' = s_bias d /\ s_bir d' = s_bir d /\ s_ext d' = s_ext d.
Definition fine d : Prop := well_alloc d /\ biases_one one d.
Definition kept d d' (P : nat -> nat -> Prop) : Prop :=
  forall r c, r < s_rows d -> c < s_cols d -> P r c -> cell d' r c = cell d r c.

Lemma shape_refl d : shape d d.
Proof. repeat split. Qed.
Lemma shape_trans a b c : shape a b -> shape b c -> shape a c.
Proof. intros (?&?&?&?&?) (?&?&?&?&?). repeat split; congruence. Qed.
Lemma shape_nb d d' : shape d d' -> s_rows_nb d' = s_rows_nb d /\ s_cols_nb d' = s_cols_nb d.
Proof. intros (H1&H2&H3&H4&H5). unfold s_rows_nb, s_cols_nb, s_bias_row, s_bias_col. rewrite H1, H2, H3, H4. auto. Qed.

Lemma addr_lt d j i : j < s_rows d -> i < s_cols d -> j + s_rows d * i < s_numel d.
Proof. intros. unfold s_numel. nia. Qed.
Lemma addr_eq R a b c e : a < R -> c < R -> a + R * b = c + R * e -> a = c /\ b = e.
Proof. intros. assert (b = e) by nia. subst. split; lia. Qed.

Lemma set_data d j i v :
  fine d -> j < s_rows_nb d -> i < s_cols_nb d ->
  exists d', set d j i v = Some d' /\ shape d d' /\ fine d' /\ cell d' j i = Some v /\
    kept d d' (fun r c => r <> j \/ c <> i).
Proof.
  intros ((W1 & W2 & l & Hd & Hl) & HB) Hj Hi.
  assert (Hj' : j < s_rows d) by (unfold s_rows_nb in Hj; lia).
  assert (Hi' : i < s_cols d) by (unfold s_cols_nb in Hi; lia).
  destruct (bset_lt l (j + s_rows d * i) v) as [l' El]; [pose proof (addr_lt d j i Hj' Hi'); lia|].
  exists (with_mem d (Some l')). unfold set. rewrite Hd. cbn [obind]. rewrite El. cbn [obind].
  pose proof (bset_some _ _ _ _ El) as (L1 & L2 & L3).
  assert (K : kept d (with_mem d (Some l')) (fun r c => r <> j \/ c <> i)).
  { intros r c Hr Hc Hne. unfold cell. cbn [s_data with_mem s_rows obind]. rewrite Hd. cbn [obind].
    rewrite L3. destruct (Nat.eqb_spec (r + s_rows d * c) (j + s_rows d * i)) as [E|E]; [|reflexivity].
    apply addr_eq in E; [|lia|lia]. lia. }
  split; [reflexivity|]. split; [repeat split|]. split; [|split; [|exact K]].
  - split.
    + split; [exact W1|]. split; [exact W2|]. exists l'. split; [reflexivity|]. unfold s_numel in *. cbn. lia.
    + intros Hb. cbn [with_mem s_bias s_bir] in *. specialize (HB Hb).
      unfold s_rows_nb, s_cols_nb, s_bias_row, s_bias_col in *. rewrite Hb in *.
      cbn [with_mem s_rows s_cols] in *. destruct (s_bir d); cbn [andb negb Nat.b2n] in *.
      * destruct HB as [H0 HB]. split; [exact H0|]. intros c Hc. rewrite K; [apply HB; exact Hc|lia|exact Hc|lia].
      * destruct HB as [H0 HB]. split; [exact H0|]. intros r Hr. rewrite K; [apply HB; exact Hr|exact Hr|lia|lia].
  - unfold cell. cbn [s_data with_mem s_rows obind]. rewrite L3, Nat.eqb_refl. reflexivity.
Qed.

(** What a rejected value leaves behind *)
Definition cleared d d' : Prop :=
  s_data d' = None /\ s_rows d' = 0 /\ s_cols d' = 0 /\ s_bias d' = s_bias d /\ s_ext d' = false /\ s_bir d' = false.
Lemma clear_cleared d : cleared d (clear d).
Proof. repeat split. Qed.

Definition is_num (x : json D) : Prop := exists n, x = JNum n.
Definition conv_list (l : list (json D)) : Prop := forall n, In (JNum n) l -> extract n <> None.

(** Column [i] from row [j] on is [row] *)
Definition col_is d (i j : nat) (row : list (json D)) : Prop :=
  forall k, k < length row -> exists n v, nth_error row k = Some (JNum n) /\ extract n = Some v /\ cell d (j + k) i = Some v.

Lemma row_loop_spec i : forall row j d,
  fine d -> j + length row <= s_rows_nb d -> i < s_cols_nb d -> conv_list row ->
  exists ok d', row_loop extract i j row d = Some (ok, d') /\
    (if ok then shape d d' /\ fine d' /\ col_is d' i j row /\ kept d d' (fun r c => r < j \/ c <> i)
     else cleared d d' /\ exists x, In x row /\ ~ is_num x).
Proof.
  induction row as [|x row IH]; intros j d HF Hj Hi HC; cbn [row_loop].
  - exists true, d. split; [reflexivity|]. split; [apply shape_refl|]. split; [exact HF|].
    split; [intros k Hk; cbn in Hk; lia|]. intros r c _ _ _. reflexivity.
  - cbn [length] in Hj. destruct x as [|b|s|n|l|ms].
    4:{ assert (Hn : extract n <> None) by (apply HC; left; reflexivity).
        destruct (extract n) as [v|] eqn:En; [|congruence]. cbn [obind].
        destruct (set_data d j i v HF) as (d1 & E1 & S1 & F1 & C1 & K1); [lia|exact Hi|].
        rewrite E1. cbn [obind]. destruct (shape_nb _ _ S1) as [N1 N2].
        destruct (IH (S j) d1 F1) as (ok & d2 & E2 & H2); [lia|lia|intros m Hm; apply HC; right; exact Hm|].
        exists ok, d2. split; [exact E2|]. destruct ok.
        - destruct H2 as (S2 & F2 & C2 & K2). split; [eapply shape_trans; eassumption|]. split; [exact F2|].
          pose proof S1 as (R1 & Q1 & _).
          assert (Hjr : j < s_rows d) by (unfold s_rows_nb in *; lia).
          assert (Hic : i < s_cols d) by (unfold s_cols_nb in *; lia).
          split.
          + intros [|k] Hk; cbn [length] in Hk.
            * exists n, v. split; [reflexivity|]. split; [exact En|]. rewrite Nat.add_0_r.
              rewrite K2; [exact C1|lia|lia|left; lia].
            * destruct (C2 k) as (m & w & P1 & P2 & P3); [lia|]. exists m, w. split; [exact P1|]. split; [exact P2|].
              rewrite <- P3. f_equal. lia.
          + intros r c Hr Hc Hne. rewrite K2; [|lia|lia|lia]. apply K1; [exact Hr|exact Hc|lia].
        - destruct H2 as [H2 (x & Hx & Hnx)]. split.
          + destruct S1 as (_ & _ & S3 & _). unfold cleared in *. rewrite <- S3. exact H2.
          + exists x. split; [right; exact Hx|exact Hnx]. }
    all: exists false, (clear d); (split; [reflexivity|]); (split; [apply clear_cleared|]);
      eexists; (split; [left; reflexivity|]); intros [m Hm]; discriminate.
Qed.

Lemma vec_loop_row : forall vec i d, vec_loop extract i vec d = row_loop extract 0 i vec d.
Proof.
  induction vec as [|x vec IH]; intros i d; [reflexivity|]. cbn [vec_loop row_loop].
  destruct x; try reflexivity. destruct (extract n); [|reflexivity]. cbn [obind].
  destruct (set d i 0 a); [|reflexivity]. cbn [obind]. apply IH.
Qed.

Definition is_row (r : nat) (x : json D) : Prop := exists row, x = JArr row /\ length row = r /\ Forall is_num row.
Definition conv_rows (rows : list (json D)) : Prop := forall row, In (JArr row) rows -> conv_list row.

Lemma mtx_loop_spec r : forall rows i d,
  fine d -> r <= s_rows_nb d -> i + length rows <= s_cols_nb d -> conv_rows rows ->
  exists ok d', mtx_loop extract r i rows d = Some (ok, d') /\
    (if ok then shape d d' /\ fine d' /\
       (forall k, k < length rows -> exists row, nth_error rows k = Some (JArr row) /\ length row = r /\ col_is d' (i + k) 0 row) /\
       kept d d' (fun _ c => c < i)
     else cleared d d' /\ exists x, In x rows /\ ~ is_row r x).
Proof.
  induction rows as [|x rows IH]; intros i d HF Hr Hi HC; cbn [mtx_loop].
  - exists true, d. split; [reflexivity|]. split; [apply shape_refl|]. split; [exact HF|].
    split; [intros k Hk; cbn in Hk; lia|]. intros a c _ _ _. reflexivity.
  - cbn [length] in Hi. destruct x as [|b|s|n|l|ms].
    5:{ destruct (Nat.eqb_spec r (length l)) as [El|El].
        - destruct (row_loop_spec i l 0 d HF) as (ok & d1 & E1 & H1); [lia|lia|apply HC; left; reflexivity|].
          rewrite E1. cbn [obind]. destruct ok.
          + destruct H1 as (S1 & F1 & C1 & K1). destruct (shape_nb _ _ S1) as [N1 N2].
            destruct (IH (S i) d1 F1) as (ok & d2 & E2 & H2);
              [lia|lia|intros row Hrow; apply HC; right; exact Hrow|].
            exists ok, d2. split; [exact E2|]. pose proof S1 as (R1 & Q1 & B1 & _). destruct ok.
            * destruct H2 as (S2 & F2 & C2 & K2). split; [eapply shape_trans; eassumption|]. split; [exact F2|].
              assert (Hic : i < s_cols d) by (unfold s_cols_nb in *; lia).
              split.
              -- intros [|k] Hk; cbn [length] in Hk.
                 ++ exists l. split; [reflexivity|]. split; [auto|]. rewrite Nat.add_0_r. intros k Hk'.
                    destruct (C1 k Hk') as (m & w & P1 & P2 & P3). exists m, w. split; [exact P1|]. split; [exact P2|].
                    rewrite K2; [exact P3| |lia|lia]. unfold s_rows_nb in *. cbn. lia.
                 ++ destruct (C2 k) as (row & P1 & P2 & P3); [lia|]. exists row. split; [exact P1|]. split; [exact P2|].
                    replace (i + S k) with (S i + k) by lia. exact P3.
              -- intros a c Ha Hc Hlt. rewrite K2; [|lia|lia|lia]. apply K1; [exact Ha|exact Hc|right; lia].
            * destruct H2 as [H2 (x & Hx & Hnx)]. split.
              -- unfold cleared in *. rewrite <- B1. exact H2.
              -- exists x. split; [right; exact Hx|exact Hnx].
          + destruct H1 as [H1 (x & Hx & Hnx)]. exists false, d1. split; [reflexivity|]. split; [exact H1|].
            exists (JArr l). split; [left; reflexivity|]. intros (row & Er & _ & Hn). injection Er as <-.
            rewrite Forall_forall in Hn. exact (Hnx (Hn x Hx)).
        - exists false, (clear d). split; [reflexivity|]. split; [apply clear_cleared|].
          exists (JArr l). split; [left; reflexivity|]. intros (row & Er & Hl & _). injection Er as <-. congruence. }
    all: exists false, (clear d); (split; [reflexivity|]); (split; [apply clear_cleared|]);
      eexists; (split; [left; reflexivity|]); intros (row & Er & _); discriminate.
Qed.
End P.
