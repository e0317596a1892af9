(** Properties of the classification evaluators: C56.
    [coherent], [allowed_run], [run]: usable training data and legal histories of calls
    of the training data object (TData_Spec.v).  [used]: any later use of the data object
    and of the observer (Ev_Spec.v).  [shown N n]: the number of samples of the set a walk
    in batches of n shows (C12: all, or all but the last one). *)
From Coq Require Import Permutation.
From Verif Require Import Base BaseLemmas Workers_Model Kern_Model Kern_Spec Kern_Proofs IdxMax_Model IdxMax_Spec IdxMax_Proofs
  Smx_Model Smx_Spec TData_Model TData_Spec TData_Proofs3 TData_Proofs5 TData_Props Ev_Model Ev_Spec Ev_Proofs Ev_Proofs2 Ev_Proofs3 Ev_Proofs4.

Section M.
Context {A B : Type} (oneA : A) (oneB : B) (gt : B -> B -> bool) (th : thrs).
Implicit Types (S : sets A B) (t : tds A B).

Lemma bs_each S fp maxBS : Nat.min fp (Nat.max (cnt S 0) (cnt S 1)) <= maxBS -> forall id, id < 2 -> Nat.min fp (cnt S id) <= maxBS.
Proof. intros H id Hid. destruct id as [|[|]]; lia. Qed.

Lemma bin_eq frac v u : (binz gt frac v =? binz gt frac u) = Bool.eqb (gt v frac) (gt u frac).
Proof. unfold binz. destruct (gt v frac), (gt u frac); reflexivity. Qed.

Lemma binary_main mx my mi S tt reqF reqT fp tb t0 os bs t1 me ims ks ibs maxBS nsets e Y :
  coherent oneA S -> s_bir (y0 S) = false ->
  init4train oneA oneB mx my mi S tt reqF reqT = Some (Success, fp, tb, t0) ->
  allowed_run oneA oneB S fp tb t0 Idle os -> run oneA S t0 os = Some (bs, t1) ->
  plain (b_y0 e) -> plain (b_y1 e) -> plain (b_p0 e) -> plain (b_p1 e) ->
  (forall i b, im_ok (ims i b)) -> (forall i b, mth_ok (ks i b)) ->
  Nat.min fp (Nat.max (cnt S 0) (cnt S 1)) <= maxBS ->
  (forall id, id < 2 -> truth (set_y S id) (Y id)) ->
  let w := yWidth S in let frac := b_frac e in
  exists ok t2 e2, bev_init oneA gt th me ims ks ibs maxBS nsets S t1 e = Some (ok, t2, e2) /\
    ((forall i, me i <> None) -> ok = true) /\
    (ok = true -> forall t o, used oneA bev_prepare bev_total (bev_correct gt th) oneB S fp tb maxBS nsets t2 e2 t (o_ev o) ->
      (forall id ims ks net P ibs, id < 2 -> id < length (o_res o) ->
         (forall b, im_ok (ims b)) -> (forall b, mth_ok (ks b) /\ roomy maxBS (ks b)) ->
         let n := Nat.min fp (cnt S id) in let M := shown (cnt S id) n in
         predicts oneA net S id n w P ->
         exists t' o', report_walk bev_prepare bev_total (bev_correct gt th) oneA ims ks net ibs S t o id = Some (t', o') /\
           only_entry id (M * w, count_pairs (fun i j => Bool.eqb (gt (P i j) frac) (gt (Y id i j) frac)) M w) (o_res o) (o_res o')) /\
      (forall id batches spec, 2 <= id -> 2 < nsets -> id < length (o_res o) ->
         Forall2 (fun b '(m, P, Y) => extra_batch S maxBS b m P Y) batches spec ->
         exists o', report_set bev_prepare bev_total (bev_correct gt th) o id batches = Some o' /\
           only_entry id (list_sum (map (fun '(m, _, _) => m) spec) * w,
             list_sum (map (fun '(m, P, Y) => count_pairs (fun i j => Bool.eqb (gt (P i j) frac) (gt (Y i j) frac)) m w) spec))
             (o_res o) (o_res o'))).
Proof.
  intros HC HY E Ha Er P0 P1 P2 P3 Him Hk Hbs HT w frac. pose proof (bs_each S fp maxBS Hbs) as Hb.
  pose proof (init_inv oneA oneB mx my mi S tt reqF reqT fp tb t0 HC E) as HI.
  destruct (run_refines oneA oneB S fp tb os HC t0 Idle HI Ha) as (bs' & t1' & ph1 & E1 & _ & HI1). rewrite Er in E1. injection E1 as <- <-.
  destruct (init_b oneA oneB gt th S fp tb HC HY maxBS nsets frac Y HT Hb me ims ks ibs t1 ph1 e HI1 eq_refl P0 P1 P2 P3 Him Hk) as (ok & t2 & e2 & Ei & HI2 & HE2 & Hok).
  exists ok, t2, e2. split; [exact Ei|]. split; [exact Hok|]. intros Hok' t o HU. specialize (HE2 Hok').
  pose proof (corr_b oneA gt th S fp HC HY maxBS nsets frac Y HT Hb) as Hcorr.
  pose proof (extra_b oneA gt th S fp HC HY maxBS nsets frac Y HT Hb) as Hextra.
  pose proof (@total_b A B S) as Htot.
  pose proof (good0_b gt S frac Y) as H0. pose proof (goodS_b gt S frac Y) as HS.
  pose proof (prep_b gt S fp maxBS nsets frac Y) as Hprep.
  destruct (used_ok oneA oneB S fp tb HC HY bev_prepare bev_total (bev_correct gt th) maxBS nsets w Y
    (EIb gt S fp maxBS nsets frac Y) b_ofs (goodb gt S frac Y) (xgoodb gt S frac) HT Hb Hprep Htot Hcorr Hextra H0 HS t2 e2 HI2 HE2 t (o_ev o) HU) as [HI3 HE3].
  split.
  - intros id ims' ks' net P ibs' Hid Hl Him' Hks' n M Hp.
    destruct (report_walk_ok oneA oneB S fp tb HC HY bev_prepare bev_total (bev_correct gt th) maxBS w Y
      (EIb gt S fp maxBS nsets frac Y) b_ofs (goodb gt S frac Y) HT Hb Hprep Htot Hcorr H0 HS t Idle o id ims' ks' net P ibs' HI3 HE3 Hid Hl Him' Hks' Hp)
      as (t' & o' & c & E4 & _ & _ & Hg & Ho).
    exists t', o'. split; [exact E4|]. rewrite count_pairs_tally2. unfold goodb in Hg. cbn [Nat.add] in Hg.
    erewrite tally2_ext; [|intros i j _ _; symmetry; apply bin_eq]. rewrite Hg in Ho. exact Ho.
  - intros id batches spec Hid Hns Hl HF.
    destruct (report_set_ok S fp bev_prepare bev_total (bev_correct gt th) maxBS nsets w Y
      (EIb gt S fp maxBS nsets frac Y) b_ofs (goodb gt S frac Y) (xgoodb gt S frac) HT Hb Hprep Htot Hcorr Hextra H0 HS o id batches spec HE3 Hid Hns Hl HF)
      as (o' & c & E4 & _ & Hg & Ho).
    exists o'. split; [exact E4|]. 
    assert (Hc : c = list_sum (map (fun '(m, P, Y) => count_pairs (fun i j => Bool.eqb (gt (P i j) frac) (gt (Y i j) frac)) m w) spec)).
    { clear -Hg. revert c Hg. induction spec as [|[[m P] Y] sp IH]; intros c Hg; cbn [xgoods] in Hg; [exact Hg|].
      destruct Hg as (c1 & c2 & -> & Hx & Hr). cbn [map]. rewrite (IH c2 Hr). unfold xgoodb in Hx. rewrite Hx, count_pairs_tally2.
      unfold list_sum at 2. cbn [fold_right]. f_equal. apply tally2_ext. intros i j _ _. apply bin_eq. }
    rewrite <- Hc. exact Ho.
Qed.

Lemma onehot_main mx my mi S tt reqF reqT fp tb t0 os bs t1 mem ims ks ibs maxBS nsets e Y :
  total_gt gt -> 0 < th_cpt th ->
  coherent oneA S -> s_bir (y0 S) = false ->
  init4train oneA oneB mx my mi S tt reqF reqT = Some (Success, fp, tb, t0) ->
  allowed_run oneA oneB S fp tb t0 Idle os -> run oneA S t0 os = Some (bs, t1) ->
  (forall i b, im_ok (ims i b)) -> (forall i b, mth_ok (ks i b) /\ roomy maxBS (ks i b)) ->
  Nat.min fp (Nat.max (cnt S 0) (cnt S 1)) <= maxBS ->
  (forall id, id < 2 -> truth (set_y S id) (Y id)) ->
  let w := yWidth S in
  exists t2 e2, hev_init oneA gt th mem ims ks ibs maxBS nsets S t1 e = Some (mem, t2, e2) /\
    (mem = true -> exists q : nat -> nat -> nat,
      (forall id i, id < 2 -> i < shown (cnt S id) (Nat.min fp (cnt S id)) -> is_argmax gt w (Y id i) (q id i)) /\
      forall t o, used oneA hev_prepare hev_total (hev_correct gt th) oneB S fp tb maxBS nsets t2 e2 t (o_ev o) ->
      (forall id ims ks net P ibs, id < 2 -> id < length (o_res o) ->
         (forall b, im_ok (ims b)) -> (forall b, mth_ok (ks b) /\ roomy maxBS (ks b)) ->
         let n := Nat.min fp (cnt S id) in let M := shown (cnt S id) n in
         predicts oneA net S id n w P ->
         exists t' o' p, report_walk hev_prepare hev_total (hev_correct gt th) oneA ims ks net ibs S t o id = Some (t', o') /\
           (forall i, i < M -> is_argmax gt w (P i) (p i)) /\
           only_entry id (M, count_if (fun i => p i =? q id i) M) (o_res o) (o_res o')) /\
      (forall id batches spec, 2 <= id -> 2 < nsets -> id < length (o_res o) ->
         Forall2 (fun b '(m, P, Y) => extra_batch S maxBS b m P Y) batches spec ->
         exists o' cs, report_set hev_prepare hev_total (hev_correct gt th) o id batches = Some o' /\
           Forall2 (fun '(m, P, Y) c => exists p q, (forall i, i < m -> is_argmax gt w (P i) (p i) /\ is_argmax gt w (Y i) (q i)) /\
              c = count_if (fun i => p i =? q i) m) spec cs /\
           only_entry id (list_sum (map (fun '(m, _, _) => m) spec), list_sum cs) (o_res o) (o_res o'))).
Proof.
  intros HG Hth HC HY E Ha Er Him Hk Hbs HT w. pose proof (bs_each S fp maxBS Hbs) as Hb.
  pose proof (init_inv oneA oneB mx my mi S tt reqF reqT fp tb t0 HC E) as HI.
  destruct (run_refines oneA oneB S fp tb os HC t0 Idle HI Ha) as (bs' & t1' & ph1 & E1 & _ & HI1). rewrite Er in E1. injection E1 as <- <-.
  destruct (init_h oneA oneB gt HG th Hth S fp tb HC HY maxBS nsets Y HT Hb mem ims ks ibs t1 ph1 e HI1 Him Hk) as (t2 & e2 & Ei & HI2 & Hcl).
  exists t2, e2. split; [exact Ei|]. intros Hok. specialize (Hcl Hok). set (L0 := h_y0 e2) in *. set (L1 := h_y1 e2) in *.
  exists (fun id i => nth i (L L0 L1 id) 0). split.
  { intros id i Hid Hi. destruct (Hcl id Hid) as [_ Hc]. destruct (Hc i Hi) as (j & Ej & Hj). rewrite (nth_error_nth _ _ _ Ej). exact Hj. }
  assert (HL : forall id, id < 2 -> shown (cnt S id) (Nat.min fp (cnt S id)) <= length (L L0 L1 id)).
  { intros id Hid. destruct (Hcl id Hid) as [-> _]. unfold shown. destruct (_ =? 1); lia. }
  intros t o HU.
  pose proof (corr_h oneA gt HG th Hth S HC HY maxBS fp Y L0 L1 HL) as Hcorr.
  pose proof (extra_h oneA gt HG th Hth S HC HY maxBS fp nsets Y L0 L1 HL) as Hextra.
  pose proof (total_h th Hth S fp nsets Y L0 L1 HL) as Htot.
  pose proof (good0_h gt th Hth S fp Y L0 L1 HL) as H0. pose proof (goodS_h gt th Hth S fp Y L0 L1 HL) as HS.
  pose proof (prep_h L0 L1) as Hprep.
  assert (HE2 : EIh L0 L1 e2) by (split; reflexivity).
  destruct (used_ok oneA oneB S fp tb HC HY hev_prepare hev_total (hev_correct gt th) maxBS nsets 1 Y
    (EIh L0 L1) h_ofs (goodh gt S L0 L1) (xgoodh gt S) HT Hb Hprep Htot Hcorr Hextra H0 HS t2 e2 HI2 HE2 t (o_ev o) HU) as [HI3 HE3].
  split.
  - intros id ims' ks' net P ibs' Hid Hl Him' Hks' n M Hp.
    destruct (report_walk_ok oneA oneB S fp tb HC HY hev_prepare hev_total (hev_correct gt th) maxBS 1 Y
      (EIh L0 L1) h_ofs (goodh gt S L0 L1) HT Hb Hprep Htot Hcorr H0 HS t Idle o id ims' ks' net P ibs' HI3 HE3 Hid Hl Him' Hks' Hp)
      as (t' & o' & c & E4 & _ & _ & Hg & Ho).
    destruct Hg as (p & Hp1 & Hc). exists t', o', p. split; [exact E4|]. split; [intros i Hi; apply Hp1; unfold M, n in Hi; lia|].
    rewrite Nat.mul_1_r in Ho. cbn [Nat.add] in Hc. rewrite Hc, <- count_if_tally in Ho. exact Ho.
  - intros id batches spec Hid Hns Hl HF.
    destruct (report_set_ok S fp hev_prepare hev_total (hev_correct gt th) maxBS nsets 1 Y
      (EIh L0 L1) h_ofs (goodh gt S L0 L1) (xgoodh gt S) HT Hb Hprep Htot Hcorr Hextra H0 HS o id batches spec HE3 Hid Hns Hl HF)
      as (o' & c & E4 & _ & Hg & Ho).
    assert (Hc : exists cs, c = list_sum cs /\ Forall2 (fun '(m, P, Y) c => exists p q, (forall i, i < m -> is_argmax gt w (P i) (p i) /\ is_argmax gt w (Y i) (q i)) /\
              c = count_if (fun i => p i =? q i) m) spec cs).
    { clear -Hg. revert c Hg. induction spec as [|[[m P] Y] sp IH]; intros c Hg; cbn [xgoods] in Hg; [exists []; split; [exact Hg|constructor]|].
      destruct Hg as (c1 & c2 & -> & (p & q & H1 & H2 & Hx) & Hr). destruct (IH c2 Hr) as (cs & -> & HF). exists (c1 :: cs). split; [reflexivity|].
      constructor; [|exact HF]. exists p, q. split; [intros i Hi; split; auto|]. rewrite Hx. symmetry. apply count_if_tally. }
    destruct Hc as (cs & -> & HF2). exists o', cs. split; [exact E4|]. split; [exact HF2|]. rewrite Nat.mul_1_r in Ho. exact Ho.
Qed.
End M.

(** ** C56 *)
(** Binary evaluator: initialisation is defined and fails only for lack of memory;
    afterwards, whatever else was reported and whatever the data object was used for,
    reporting a main set in the batches the data object makes gives exactly the number
    of matching elements among the samples shown, and reporting a supplementary set
    gives the number of matching elements of its batches. *)
Theorem C56_binary_partial : forall A B (oneA : A) (oneB : B) gt th mx my mi S tt reqF reqT fp tb t0 os bs t1 me ims ks ibs maxBS nsets e Y,
  coherent oneA S -> s_bir (y0 S) = false ->
  init4train oneA oneB mx my mi S tt reqF reqT = Some (Success, fp, tb, t0) ->
  allowed_run oneA oneB S fp tb t0 Idle os -> run oneA S t0 os = Some (bs, t1) ->
  plain (b_y0 e) -> plain (b_y1 e) -> plain (b_p0 e) -> plain (b_p1 e) ->
  (forall i b, im_ok (ims i b)) -> (forall i b, mth_ok (ks i b)) ->
  Nat.min fp (Nat.max (cnt S 0) (cnt S 1)) <= maxBS ->
  (forall id, id < 2 -> truth (set_y S id) (Y id)) ->
  let w := yWidth S in let frac := b_frac e in
  exists ok t2 e2, bev_init oneA gt th me ims ks ibs maxBS nsets S t1 e = Some (ok, t2, e2) /\
    ((forall i, me i <> None) -> ok = true) /\
    (ok = true -> forall t o, used oneA bev_prepare bev_total (bev_correct gt th) oneB S fp tb maxBS nsets t2 e2 t (o_ev o) ->
      (forall id ims ks net P ibs, id < 2 -> id < length (o_res o) ->
         (forall b, im_ok (ims b)) -> (forall b, mth_ok (ks b) /\ roomy maxBS (ks b)) ->
         let n := Nat.min fp (cnt S id) in let M := shown (cnt S id) n in
         predicts oneA net S id n w P ->
         exists t' o', report_walk bev_prepare bev_total (bev_correct gt th) oneA ims ks net ibs S t o id = Some (t', o') /\
           only_entry id (M * w, count_pairs (fun i j => Bool.eqb (gt (P i j) frac) (gt (Y id i j) frac)) M w) (o_res o) (o_res o')) /\
      (forall id batches spec, 2 <= id -> 2 < nsets -> id < length (o_res o) ->
         Forall2 (fun b '(m, P, Y) => extra_batch S maxBS b m P Y) batches spec ->
         exists o', report_set bev_prepare bev_total (bev_correct gt th) o id batches = Some o' /\
           only_entry id (list_sum (map (fun '(m, _, _) => m) spec) * w,
             list_sum (map (fun '(m, P, Y) => count_pairs (fun i j => Bool.eqb (gt (P i j) frac) (gt (Y i j) frac)) m w) spec))
             (o_res o) (o_res o'))).
Proof. exact @binary_main. Qed.
Print Assumptions C56_binary_partial.

(** One-hot evaluator: the number of samples whose predicted class is the true class,
    where a class is a column with a maximum; rows with several equal maxima may be
    attributed to any of them (C21), the truth [q] once for all. *)
Theorem C56_onehot_partial : forall A B (oneA : A) (oneB : B) gt th mx my mi S tt reqF reqT fp tb t0 os bs t1 mem ims ks ibs maxBS nsets e Y,
  total_gt gt -> 0 < th_cpt th ->
  coherent oneA S -> s_bir (y0 S) = false ->
  init4train oneA oneB mx my mi S tt reqF reqT = Some (Success, fp, tb, t0) ->
  allowed_run oneA oneB S fp tb t0 Idle os -> run oneA S t0 os = Some (bs, t1) ->
  (forall i b, im_ok (ims i b)) -> (forall i b, mth_ok (ks i b) /\ roomy maxBS (ks i b)) ->
  Nat.min fp (Nat.max (cnt S 0) (cnt S 1)) <= maxBS ->
  (forall id, id < 2 -> truth (set_y S id) (Y id)) ->
  let w := yWidth S in
  exists t2 e2, hev_init oneA gt th mem ims ks ibs maxBS nsets S t1 e = Some (mem, t2, e2) /\
    (mem = true -> exists q : nat -> nat -> nat,
      (forall id i, id < 2 -> i < shown (cnt S id) (Nat.min fp (cnt S id)) -> is_argmax gt w (Y id i) (q id i)) /\
      forall t o, used oneA hev_prepare hev_total (hev_correct gt th) oneB S fp tb maxBS nsets t2 e2 t (o_ev o) ->
      (forall id ims ks net P ibs, id < 2 -> id < length (o_res o) ->
         (forall b, im_ok (ims b)) -> (forall b, mth_ok (ks b) /\ roomy maxBS (ks b)) ->
         let n := Nat.min fp (cnt S id) in let M := shown (cnt S id) n in
         predicts oneA net S id n w P ->
         exists t' o' p, report_walk hev_prepare hev_total (hev_correct gt th) oneA ims ks net ibs S t o id = Some (t', o') /\
           (forall i, i < M -> is_argmax gt w (P i) (p i)) /\
           only_entry id (M, count_if (fun i => p i =? q id i) M) (o_res o) (o_res o')) /\
      (forall id batches spec, 2 <= id -> 2 < nsets -> id < length (o_res o) ->
         Forall2 (fun b '(m, P, Y) => extra_batch S maxBS b m P Y) batches spec ->
         exists o' cs, report_set hev_prepare hev_total (hev_correct gt th) o id batches = Some o' /\
           Forall2 (fun '(m, P, Y) c => exists p q, (forall i, i < m -> is_argmax gt w (P i) (p i) /\ is_argmax gt w (Y i) (q i)) /\
              c = count_if (fun i => p i =? q i) m) spec cs /\
           only_entry id (list_sum (map (fun '(m, _, _) => m) spec), list_sum cs) (o_res o) (o_res o'))).
Proof. exact @onehot_main. Qed.
Print Assumptions C56_onehot_partial.

(** ** A concrete case, and the refutation: three samples in batches of two *)
Definition ev_gt (a b : nat) := b <? a.
Definition ev_th := mkThr 100 2 3 2 1.
Definition ev_pool := [mkR 0 0 1; mkR 0 0 2].
Definition ev_k : mth nat := mkK ev_pool (@concat _) (@concat _) (repeat (0, 0) 6).
Definition ev_sets : sets nat nat :=
  mkSets (x0 ex_sets) (x1 ex_sets)
         (mkS 3 2 false false false false (Some [9; 1; 8;  2; 7; 3]))
         (mkS 2 2 false false false false (Some [1; 6;  9; 2])).
Definition ev_none : smx nat := mkS 0 0 false false false false None.
Definition ev_bev : bev := mkBev ev_none ev_none ev_none ev_none 5 0.
Definition ev_hev : hev := mkHev [] [] [] [] 0.
Definition ev_t0 : tds nat nat :=
  match init4train 1 1 ex_env ex_env true ev_sets ex_none 2 2 with Some (_, t) => t | None => ex_none end.
(** the network answers 9 2 for every sample *)
Definition ev_net (bi : nat) (x : smx nat) : option (smx nat) := Some (mkS (s_rows x) 2 false false false false (Some (repeat 9 (s_rows x) ++ repeat 2 (s_rows x)))).

Lemma ev_coherent : coherent 1 ev_sets.
Proof.
  destruct ex_coherent as [(D0 & D1 & _) _].
  assert (K : forall (x y y' : smx nat), dataset 1 x y -> well_alloc y' -> s_bias y' = false -> batch_size y' = batch_size y -> dataset 1 x y').
  { intros x y y' (H1 & _ & H2 & H3 & _ & H4 & H5) W Bi Bs. split; [exact H1|]. split; [exact W|]. split; [exact H2|]. split; [exact H3|]. split; [exact Bi|]. split; [exact H4|]. congruence. }
  split. { eapply K; [exact D0| |reflexivity|reflexivity]. eapply ex_data; reflexivity. }
  split. { eapply K; [exact D1| |reflexivity|reflexivity]. eapply ex_data; reflexivity. }
  do 4 (split; [reflexivity|]). cbn. unfold max_vec_len. split; lia.
Qed.
Lemma ev_k_ok : mth_ok ev_k /\ roomy 2 ev_k.
Proof. split; [|cbn; unfold roomy; cbn; lia]. split; [intros; apply concat_interleaving|]. split; [intros; apply concat_interleaving|reflexivity]. Qed.

(** every sample is answered with 9 2 *)
Definition ev_P (i j : nat) : nat := if j =? 0 then 9 else 2.
Lemma ev_predicts id n : predicts 1 ev_net ev_sets id n 2 ev_P.
Proof.
  intros bi x m Hm Hp Hx. exists (mkS (s_rows x) 2 false false false false (Some (repeat 9 (s_rows x) ++ repeat 2 (s_rows x)))). split; [reflexivity|].
  assert (Hr : s_rows x = m).
  { destruct Hx as (H1 & _ & H3 & _). rewrite seq_length in H1. unfold batch_size in H1. rewrite H3 in H1.
    replace (s_bir (set_x ev_sets id)) with false in H1 by (unfold set_x; destruct (id =? 0); reflexivity). exact H1. }
  rewrite Hr. split; [reflexivity|]. split; [reflexivity|]. split; [reflexivity|]. split.
  - split; [exact Hp|]. split; [cbn; lia|]. eexists. split; [reflexivity|]. unfold s_numel. cbn [s_rows s_cols]. rewrite app_length, !repeat_length. lia.
  - intros i j Hi Hj. unfold cell. cbn [s_data s_rows obind]. unfold bget. destruct j as [|[|]]; [| |lia].
    + rewrite nth_error_app1 by (rewrite repeat_length; lia). replace (i + m * 0) with i by lia. cbn. apply nth_error_repeat. exact Hi.
    + rewrite nth_error_app2; rewrite repeat_length; [|lia]. replace (i + m * 1 - m) with i by lia. cbn. apply nth_error_repeat. exact Hi.
Qed.

Definition ev_Y (id i j : nat) : nat := match cell (set_y ev_sets id) i j with Some v => v | None => 0 end.
Lemma ev_truth id : id < 2 -> truth (set_y ev_sets id) (ev_Y id).
Proof.
  intros Hid i j Hi Hj. unfold ev_Y. destruct id as [|[|]]; [| |lia]; cbn in Hi, Hj;
    do 3 (destruct i as [|i]; [do 2 (destruct j as [|j]; [first [reflexivity | exfalso; lia]|]); exfalso; lia|]); exfalso; lia.
Qed.

(** All hypotheses of the two theorems hold and the counts come out. *)
Example C56_example :
  coherent 1 ev_sets /\ s_bir (y0 ev_sets) = false /\ init4train 1 1 ex_env ex_env true ev_sets ex_none 2 2 = Some (Success, 2, 2, ev_t0) /\
  im_ok ex_im1 /\ mth_ok ev_k /\ roomy 2 ev_k /\ total_gt ev_gt /\
  (forall id, id < 2 -> truth (set_y ev_sets id) (ev_Y id)) /\ predicts 1 ev_net ev_sets 1 2 2 ev_P /\
  (do (ok, t, e) <- bev_init 1 ev_gt ev_th (fun _ => ex_env) (fun _ _ => ex_im1) (fun _ _ => ev_k) 2 2 2 ev_sets ev_t0 ev_bev;
   do (t, o) <- report_walk bev_prepare bev_total (bev_correct ev_gt ev_th) 1 (fun _ => ex_im1) (fun _ => ev_k) ev_net 2 ev_sets t (mkObs [(7, 7); (8, 8)] 0 e) 1;
   Some (ok, o_res o)) = Some (true, [(7, 7); (4, 2)]) /\
  (do (ok, t, e) <- hev_init 1 ev_gt ev_th true (fun _ _ => ex_im1) (fun _ _ => ev_k) 2 2 2 ev_sets ev_t0 ev_hev;
   do (t, o) <- report_walk hev_prepare hev_total (hev_correct ev_gt ev_th) 1 (fun _ => ex_im1) (fun _ => ev_k) ev_net 2 ev_sets t (mkObs [(7, 7); (8, 8)] 0 e) 1;
   Some (ok, o_res o)) = Some (true, [(7, 7); (2, 1)]) /\
  count_pairs (fun i j => Bool.eqb (ev_gt (ev_P i j) 5) (ev_gt (ev_Y 1 i j) 5)) 2 2 = 2.
Proof.
  split; [exact ev_coherent|]. split; [reflexivity|]. split; [reflexivity|]. split; [exact ex_im1_ok|]. split; [exact (proj1 ev_k_ok)|]. split; [exact (proj2 ev_k_ok)|].
  split. { split; unfold ev_gt; intros *; rewrite ?Nat.ltb_irrefl, ?Nat.ltb_lt, ?Nat.ltb_ge; lia. }
  split; [exact ev_truth|]. split; [apply ev_predicts|]. repeat split; vm_compute; reflexivity.
Qed.

(** The train set has three samples of two outputs; two of the three are predicted
    right in both columns (classes 0, 1, 0; the network says 0).  Both evaluators report
    two samples, one of them right. *)
Theorem C56_counts_refuted : exists (S : sets nat nat) t0 im k net P Y,
  coherent 1 S /\ init4train 1 1 ex_env ex_env true S ex_none 2 2 = Some (Success, 2, 2, t0) /\
  im_ok im /\ mth_ok k /\ roomy 2 k /\ truth (set_y S 0) Y /\ predicts 1 net S 0 2 2 P /\ cnt S 0 = 3 /\
  count_pairs (fun i j => Bool.eqb (ev_gt (P i j) 5) (ev_gt (Y i j) 5)) 3 2 = 4 /\
  (do (ok, t, e) <- bev_init 1 ev_gt ev_th (fun _ => ex_env) (fun _ _ => im) (fun _ _ => k) 2 2 2 S t0 ev_bev;
   do (t, o) <- report_walk bev_prepare bev_total (bev_correct ev_gt ev_th) 1 (fun _ => im) (fun _ => k) net 2 S t (mkObs [(0, 0); (0, 0)] 0 e) 0;
   Some (ok, o_res o)) = Some (true, [(4, 2); (0, 0)]) /\
  (forall i, i < 3 -> is_argmax ev_gt 2 (P i) 0) /\
  is_argmax ev_gt 2 (Y 0) 0 /\ is_argmax ev_gt 2 (Y 1) 1 /\ is_argmax ev_gt 2 (Y 2) 0 /\
  (do (ok, t, e) <- hev_init 1 ev_gt ev_th true (fun _ _ => im) (fun _ _ => k) 2 2 2 S t0 ev_hev;
   do (t, o) <- report_walk hev_prepare hev_total (hev_correct ev_gt ev_th) 1 (fun _ => im) (fun _ => k) net 2 S t (mkObs [(0, 0); (0, 0)] 0 e) 0;
   Some (ok, o_res o)) = Some (true, [(2, 1); (0, 0)]).
Proof.
  exists ev_sets, ev_t0, ex_im1, ev_k, ev_net, ev_P, (ev_Y 0). split; [exact ev_coherent|]. split; [reflexivity|]. split; [exact ex_im1_ok|].
  split; [exact (proj1 ev_k_ok)|]. split; [exact (proj2 ev_k_ok)|]. split; [apply ev_truth; lia|]. split; [apply ev_predicts|]. split; [reflexivity|].
  split; [vm_compute; reflexivity|]. split; [vm_compute; reflexivity|].
  assert (K : forall (f : nat -> nat) j, (j <? 2) && negb (ev_gt (f 0) (f j)) && negb (ev_gt (f 1) (f j)) = true -> is_argmax ev_gt 2 f j).
  { intros f j H. apply andb_true_iff in H. destruct H as [H H2]. apply andb_true_iff in H. destruct H as [H H1]. apply Nat.ltb_lt in H.
    apply negb_true_iff in H1, H2. split; [exact H|]. intros i Hi. destruct i as [|[|]]; [exact H1|exact H2|lia]. }
  split; [intros; apply K; reflexivity|]. split; [apply K; reflexivity|]. split; [apply K; reflexivity|]. split; [apply K; reflexivity|].
  vm_compute; reflexivity.
Qed.
Print Assumptions C56_counts_refuted.
