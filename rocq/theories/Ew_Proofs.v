From Coq Require Import Permutation.
From Verif Require Import Base BaseLemmas Workers_Model Workers_Spec
  Kern_Model Kern_Spec Kern_Proofs Ew_Model Ew_Spec.

Lemma iew_closed {A} (f : nat -> A -> option A) (d : list A) p :
  (forall i, r_ofs p <= i < r_ofs p + r_cnt p -> exists v v', bget d i = Some v /\ f i v = Some v') ->
  exists t, iew f d p = Some t /\
    (forall a v, In (a, v) t <-> r_ofs p <= a < r_ofs p + r_cnt p /\ (do x <- bget d a; f a x) = Some v).
Proof.
  intros H. unfold iew.
  pose (ws := fun j => match (do x <- bget d (r_ofs p + j); f (r_ofs p + j) x) with
                       | Some v => [(r_ofs p + j, v)] | None => [] end).
  rewrite (ptr_loop_closed' (r_cnt p) (r_ofs p) _ 1 _ _ (fun _ => tt) ws).
  - cbn [obind]. eexists. split; [reflexivity|]. intros a v. rewrite in_flat_map. split.
    + intros (j & Hj & Hin). apply in_seq in Hj. unfold ws in Hin.
      destruct (do x <- bget d (r_ofs p + j); f (r_ofs p + j) x) as [w|] eqn:E; [|destruct Hin].
      destruct Hin as [Hin|[]]. injection Hin as <- <-. split; [lia|exact E].
    + intros (Ha & Hv). exists (a - r_ofs p). split; [apply in_seq; lia|].
      unfold ws. replace (r_ofs p + (a - r_ofs p)) with a by lia. rewrite Hv. left. reflexivity.
  - reflexivity.
  - lia.
  - lia.
  - intros j Hj. rewrite Nat.mul_1_r. unfold ws.
    destruct (H (r_ofs p + j)) as (v & v' & Hv & Hv'); [lia|].
    rewrite Hv. cbn [obind]. rewrite Hv'. reflexivity.
Qed.

Lemma ew_correct {A} parts cnt (f : nat -> A -> option A) (d : list A) :
  tiles parts cnt -> cnt <= length d ->
  (forall i v, i < cnt -> bget d i = Some v -> f i v <> None) ->
  computes (ew parts f d) d (mapped_prefix cnt f d).
Proof.
  intros HT HL Hf. unfold ew.
  assert (Hg : forall i, i < cnt -> exists v v', bget d i = Some v /\ f i v = Some v').
  { intros i Hi. destruct (bget_lt d i) as [v Hv]; [lia|].
    destruct (f i v) as [v'|] eqn:E; [eauto|]. exfalso. exact (Hf i v Hi Hv E). }
  apply computes_intro with (cnt := cnt) (F := fun a => do x <- bget d a; f a x)
    (dom := fun a => a < cnt) (owner := fun a => a).
  - exact HT.
  - intros p Hp H1 H2. destruct (iew_closed f d p) as (t & Ht & Hin).
    { intros i Hi. apply Hg. lia. }
    exists t. split; [exact Ht|]. split.
    + intros a v Ha. apply Hin in Ha. destruct Ha as [Ha Hv]. split; [lia|]. split; [lia|exact Hv].
    + intros a Ha Ho. destruct (Hg a Ha) as (v & v' & Hv & Hv').
      exists v'. apply Hin. rewrite Hv. cbn [obind]. auto.
  - intros a Ha. split; lia.
  - intros d' HL' Hin Hout. split.
    + intros i v Hi Hv. destruct (Hin i Hi) as [H1 H2]. rewrite Hv in H1, H2. cbn [obind] in H1, H2. auto.
    + intros i Hi. apply Hout. lia.
Qed.
