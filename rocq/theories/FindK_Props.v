(** Properties of the search for the k best values: C23, C24. *)
From Coq Require Import ZArith Permutation.
From Verif Require Import Base BaseLemmas Workers_Model Workers_Spec Kern_Spec FindK_Model FindK_Spec FindK_Proofs FindK_Proofs2 FindK_Proofs3 FindK_Proofs4.

Definition helper_for {V} (k : nat) (hlpr : list (@column V)) : Prop :=
  forall c col, nth_error hlpr c = Some col -> length (fst col) = k /\ length (snd col) = k.

(** ** C23 *)
(** Whatever the old contents of the helper and however the columns are distributed
    over threads: every column of the helper gets the k best distinct values of the
    source column, with the rows where they first occur. *)
Theorem C23_best_distinct : forall V (lt eqv : V -> V -> bool) bot k parts src hlpr,
  order_ok lt eqv -> 0 < k -> length hlpr = length src -> helper_for k hlpr -> tiles parts (length src) ->
  exists h', find_k lt bot false parts src hlpr false = Some h' /\ length h' = length src /\
    forall c s, nth_error src c = Some s -> exists col, nth_error h' c = Some col /\ best_distinct lt bot k s col.
Proof.
  intros V lt eqv bot k parts src hlpr OK Hk HL HH HT.
  destruct (find_k_columns lt bot false parts src hlpr false HL HT) as (h' & E1 & E2 & E3).
  { intros c s old _ Ho. destruct (HH c old Ho) as [H1 H2]. destruct (find_k_first lt bot false s old k Hk H1 H2) as [F _]. eauto. }
  exists h'. split; [exact E1|]. split; [exact E2|]. intros c s Hs.
  destruct (nth_error hlpr c) as [old|] eqn:Ho.
  - rewrite (E3 c s old Hs Ho). destruct (HH c old Ho) as [H1 H2]. destruct (find_k_first lt bot false s old k Hk H1 H2) as [F L]. rewrite F.
    eexists. split; [reflexivity|]. exact (arun_best_distinct lt eqv bot OK k s Hk L).
  - apply nth_error_None in Ho. assert (c < length src) by (apply nth_error_Some; congruence). lia.
Qed.
Print Assumptions C23_best_distinct.

(** ... or the k best values counted with repetitions, when the order is not a
    'distinct' one. *)
Theorem C23_best_with_repetitions : forall V (lt eqv : V -> V -> bool) bot k parts src hlpr,
  order_ok lt eqv -> 0 < k -> length hlpr = length src -> helper_for k hlpr -> tiles parts (length src) ->
  exists h', find_k lt bot true parts src hlpr false = Some h' /\ length h' = length src /\
    forall c s, nth_error src c = Some s -> exists col, nth_error h' c = Some col /\ best lt bot k s col.
Proof.
  intros V lt eqv bot k parts src hlpr OK Hk HL HH HT.
  destruct (find_k_columns lt bot true parts src hlpr false HL HT) as (h' & E1 & E2 & E3).
  { intros c s old _ Ho. destruct (HH c old Ho) as [H1 H2]. destruct (find_k_first lt bot true s old k Hk H1 H2) as [F _]. eauto. }
  exists h'. split; [exact E1|]. split; [exact E2|]. intros c s Hs.
  destruct (nth_error hlpr c) as [old|] eqn:Ho.
  - rewrite (E3 c s old Hs Ho). destruct (HH c old Ho) as [H1 H2]. destruct (find_k_first lt bot true s old k Hk H1 H2) as [F L]. rewrite F.
    eexists. split; [reflexivity|]. exact (arun_best lt eqv bot OK k s Hk L).
  - apply nth_error_None in Ho. assert (c < length src) by (apply nth_error_Some; congruence). lia.
Qed.
Print Assumptions C23_best_with_repetitions.

(** The helper matrix made for k columns is read back as one for k, and the values and
    indices fit into its column; s1 >= s2 are the sizes of their types. *)
Theorem C23_helper_layout : forall s1 s2 k, 0 < s2 -> s2 <= s1 ->
  hlpr_k s1 s2 (hlpr_numel s1 s2 k) = k /\ k * s1 + k * s2 <= hlpr_numel s1 s2 k * s1.
Proof. exact hlpr_layout. Qed.
Print Assumptions C23_helper_layout.

Definition Zorder : order_ok Z.ltb Z.eqb.
Proof.
  split; [intros a; apply Z.ltb_irrefl|]. split; [|split].
  - intros a b c H1 H2. apply Z.ltb_lt in H1, H2. apply Z.ltb_lt. exact (Z.lt_trans _ _ _ H1 H2).
  - intros a b H1 H2. apply Z.ltb_ge in H1, H2. apply Z.le_antisymm; assumption.
  - apply Z.eqb_eq.
Qed.
Definition ex_low : Z := (-9)%Z.
Definition ex_col : list Z := [4; 7; 4; -2; 7; 5]%Z.
Definition ex_short : list Z := [4; 4; 4]%Z.
Definition ex_h : list (@column Z) := [([0; 0; 0]%Z, [None; Some 5; None]); ([1; 1; 1]%Z, [Some 0; Some 0; Some 0])].
Definition ex_two : list prange := [mkR 1 1 0; mkR 0 1 1].
Example C23_example :
  helper_for 3 ex_h /\ tiles ex_two 2 /\
  find_k Z.ltb ex_low false ex_two [ex_col; ex_short] ex_h false =
    Some [([4; 5; 7]%Z, [Some 0; Some 5; Some 1]); ([-9; -9; 4]%Z, [None; None; Some 0])] /\
  find_k Z.ltb ex_low true ex_two [ex_col; ex_short] ex_h false =
    Some [([5; 7; 7]%Z, [Some 5; Some 4; Some 1]); ([4; 4; 4]%Z, [Some 2; Some 1; Some 0])] /\
  hlpr_numel 8 4 3 = 5 /\ hlpr_k 8 4 5 = 3.
Proof.
  split. { intros [|[|[|c]]] col H; inversion H; split; reflexivity. }
  split. { split; [apply perm_swap|]. intros p [<-|[<-|[]]]; cbn; lia. }
  repeat split; reflexivity.
Qed.

(** ** C24 *)
(** What is true: if the first batch holds k different values - and, for orders with
    repetitions, the whole column has no repeated values - the export of the aggregator is
    what one pass over the whole column finds (best first), and every entry names a
    batch and a row holding its value. *)
Theorem C24_aggregate_partial : forall V (lt eqv : V -> V -> bool) bot ns k b0 bs c,
  order_ok lt eqv -> 0 < k -> length (fst c) = k -> length (snd c) = k -> enough lt bot ns k b0 bs ->
  exists c' D one, aggregate_all lt eqv bot ns b0 bs c = Some (c', D) /\
    find_k_column lt bot ns (b0 ++ concat bs) c false = Some one /\
    export_values D = rev (fst one) /\ Forall (located (b0 :: bs)) D.
Proof. intros V lt eqv bot ns k b0 bs c OK. apply (aggregate_whole lt eqv bot OK). Qed.
Print Assumptions C24_aggregate_partial.

Example C24_example :
  enough Z.ltb ex_low false 2 [5; 4; 5]%Z [[7; 5]; [6; 9; 7]]%Z /\
  enough Z.ltb ex_low true 2 [5; 4]%Z [[7]; [6; 9]]%Z /\
  aggregate_all Z.ltb Z.eqb ex_low false [5; 4; 5]%Z [[7; 5]; [6; 9; 7]]%Z ([0; 0]%Z, [None; None]) =
    Some (([7; 9]%Z, [None; Some 1]), [mkD 1 7%Z (Some 0); mkD 2 9%Z (Some 1)]).
Proof.
  split; [|split; [|reflexivity]].
  - exists [5; 4]%Z. split; [repeat constructor; cbn; intuition discriminate|]. split; [reflexivity|].
    intros v [<-|[<-|[]]]; (split; [cbn; auto|reflexivity]).
  - split; [cbn; lia|]. split; [repeat constructor; cbn; intuition discriminate|].
    intros v Hv. cbn in Hv. repeat (destruct Hv as [<-|Hv]; [reflexivity|]). destruct Hv.
Qed.

(** False in general: with the first batch {5} (k = 3, distinct values) or {5, 5} (k = 2,
    with repetitions) followed by {7}, the exported values miss the best value 7. *)
Theorem C24_aggregate_refuted : forall ns, exists b0 bs c c' D one,
  length (fst c) = length (snd c) /\ 0 < length (fst c) /\
  aggregate_all Z.ltb Z.eqb ex_low ns b0 bs c = Some (c', D) /\
  find_k_column Z.ltb ex_low ns (b0 ++ concat bs) c false = Some one /\
  In 7%Z (concat bs) /\ hd_error (rev (fst one)) = Some 7%Z /\ ~ In 7%Z (export_values D).
Proof.
  intros [].
  - exists [5; 5]%Z, [[7]]%Z, ([0; 0]%Z, [None; None]). eexists _, _, _.
    split; [reflexivity|]. split; [cbn; lia|]. split; [reflexivity|]. split; [reflexivity|]. split; [cbn; auto|]. split; [reflexivity|].
    cbn. intuition discriminate.
  - exists [5]%Z, [[7]]%Z, ([0; 0; 0]%Z, [None; None; None]). eexists _, _, _.
    split; [reflexivity|]. split; [cbn; lia|]. split; [reflexivity|]. split; [reflexivity|]. split; [cbn; auto|]. split; [reflexivity|].
    cbn. intuition discriminate.
Qed.
Print Assumptions C24_aggregate_refuted.
