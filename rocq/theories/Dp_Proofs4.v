(** Which files there are, and what goes wrong. *)
From Coq Require Import String List.
From Verif Require Import Base BaseLemmas Smx_Model Util_Model Util_Proofs Mf_Model Mf_Spec Dp_Model Dp_Spec Dp_Proofs Dp_Proofs2 Dp_Proofs3.
Import ListNotations.
Local Open Scope Z_scope.

Section N.
Context (ok : Z -> bool) (nm : Z -> string) (W : Z -> Z -> Z -> bool) (WE : Z -> Z -> bool).
Notation names l := (map fst l).

Lemma err_names E ds' l f : (forall a b, f <> FErr a b) -> ~ List.In f (names (err_files ok nm WE E ds' l)).
Proof using ok nm WE. clear W. intros H. unfold err_files. destruct (WE E ds'); cbn; [intros [X|[]]; apply (H _ _ (eq_sym X)) | tauto]. Qed.
Lemma report_names e r f : (forall a b, f <> FErr a b) -> ~ List.In f (names (report_files ok nm WE e r)).
Proof using ok nm WE. clear W. intros H. unfold report_files. rewrite map_app, in_app_iff. intros [X|X]; eapply err_names; eassumption. Qed.
Lemma report_names_err e r e' ds : List.In (FErr (e' + 1) ds) (names (report_files ok nm WE e r)) <-> e' = e /\ (ds = 0 \/ ds = 1) /\ WE e ds = true.
Proof using ok nm WE.
  clear W.
  assert (X : forall d (cs : list calls), List.In (FErr (e' + 1) ds) (names (err_files ok nm WE e d cs)) <-> e' = e /\ ds = d /\ WE e d = true).
  { intros d cs. unfold err_files. destruct (WE e d); cbn.
    - split; [intros [Y|[]]; injection Y; intros; repeat split; lia | intros (-> & -> & _); left; reflexivity].
    - split; [tauto | intros (_ & _ & Y); discriminate Y]. }
  unfold report_files. rewrite map_app, in_app_iff, !X. split.
  - intros [(-> & -> & Y) | (-> & -> & Y)]; auto.
  - intros (-> & [-> | ->] & Y); auto.
Qed.

Lemma batch_names e nb f l : forall b0, List.In f (names (batch_files ok nm W e nb b0 l)) <->
  exists b, b0 <= b < b0 + Z.of_nat (length l) /\ W e b nb = true /\ (f = FFwd (e + 1) b \/ f = FBwd (e + 1) b).
Proof.
  induction l as [|x l IH]; intros b0.
  - cbn. split; [tauto|]. intros (b & H & _). lia.
  - cbn [batch_files]. rewrite map_app, in_app_iff, IH. cbn [length]. split.
    + intros [H | (b & Hb & H)].
      * destruct (W e b0 nb) eqn:E; [| destruct H]. exists b0. split; [lia|]. split; [exact E|]. cbn in H. intuition.
      * exists b. split; [lia | exact H].
    + intros (b & Hb & HW & H). destruct (Z.eq_dec b b0) as [->|Hne].
      * left. rewrite HW. cbn. intuition.
      * right. exists b. split; [lia | auto].
Qed.

Lemma epochs_names e b l : forall e0,
  List.In (FFwd (e + 1) b) (names (epochs_files ok nm W WE e0 l)) <->
  exists x, nth_error l (Z.to_nat (e - e0)) = Some x /\ e0 <= e /\ 0 <= b < Z.of_nat (length (fst x)) /\ W e b (Z.of_nat (length (fst x))) = true.
Proof.
  induction l as [|x l IH]; intros e0.
  - cbn. split; [tauto|]. intros (x & H & _). destruct (Z.to_nat (e - e0)); discriminate H.
  - cbn [epochs_files]. unfold epoch_files. rewrite !map_app, !in_app_iff, IH, batch_names. split.
    + intros [[(b' & Hb & HW & H) | H] | (x' & H1 & H2 & H3)].
      * assert (e = e0 /\ b = b') as [-> ->] by (destruct H as [H|H]; [injection H; lia | discriminate H]).
        exists x. rewrite Z.sub_diag. split; [reflexivity|]. split; [lia|]. split; [lia | exact HW].
      * exfalso. destruct (snd x); [eapply report_names; [| exact H]; discriminate | destruct H].
      * exists x'. replace (Z.to_nat (e - e0)) with (S (Z.to_nat (e - (e0 + 1)))) by lia. split; [exact H1|]. split; [lia | exact H3].
    + intros (x' & H1 & H2 & H3 & H4). destruct (Z.eq_dec e e0) as [->|Hne].
      * left. left. rewrite Z.sub_diag in H1. injection H1 as <-. exists b. split; [lia|]. auto.
      * right. exists x'. replace (Z.to_nat (e - e0)) with (S (Z.to_nat (e - (e0 + 1)))) in H1 by lia. split; [exact H1|]. split; [lia|]. auto.
Qed.

Lemma epochs_err_names e ds l : forall e0,
  List.In (FErr (e + 1) ds) (names (epochs_files ok nm W WE e0 l)) <->
  exists x, nth_error l (Z.to_nat (e - e0)) = Some x /\ e0 <= e /\ snd x <> None /\ (ds = 0 \/ ds = 1) /\ WE e ds = true.
Proof.
  induction l as [|x l IH]; intros e0.
  - cbn. split; [tauto|]. intros (x & H & _). destruct (Z.to_nat (e - e0)); discriminate H.
  - cbn [epochs_files]. unfold epoch_files. rewrite !map_app, !in_app_iff, IH, batch_names. split.
    + intros [[(b' & Hb & HW & H) | H] | (x' & H1 & H2 & H3)].
      * destruct H as [H|H]; discriminate H.
      * destruct (snd x) as [r|] eqn:Er; [| destruct H]. apply report_names_err in H as (-> & H & HW).
        exists x. rewrite Z.sub_diag. split; [reflexivity|]. split; [lia|]. rewrite Er. split; [discriminate|]. auto.
      * exists x'. replace (Z.to_nat (e - e0)) with (S (Z.to_nat (e - (e0 + 1)))) by lia. split; [exact H1|]. split; [lia | exact H3].
    + intros (x' & H1 & H2 & H3 & H4 & H5). destruct (Z.eq_dec e e0) as [->|Hne].
      * left. right. rewrite Z.sub_diag in H1. injection H1 as <-. destruct (snd x) as [r|]; [| congruence]. apply report_names_err. auto.
      * right. exists x'. replace (Z.to_nat (e - e0)) with (S (Z.to_nat (e - (e0 + 1)))) in H1 by lia. split; [exact H1|]. split; [lia|]. auto.
Qed.
End N.

(** The files a training dumps *)
Theorem dumped k s layers tot ls r0 l :
  d_stk s = [] -> a_open (d_ar s) = false -> askable k (d_cond s) -> 0 < tot -> 0 < layers <= 65535 ->
  (forall i, 0 <= i < layers <-> List.In i (map (fun x => fst (fst x)) ls)) -> NoDup (map (fun x => fst (fst x)) ls) ->
  report_ok (Z.to_nat layers) r0 -> Forall (epoch_ok (Z.to_nat layers)) l -> Z.of_nat (length l) <= tot ->
  d_on s = true ->
  exists s' fs, run_cmds k (train_cmds layers tot ls r0 l) s = Some s' /\ d_files s' = d_files s ++ fs /\
    (forall e b, 0 <= e -> List.In (FFwd (e + 1) b) (map fst fs) <->
       exists x, nth_error l (Z.to_nat e) = Some x /\ 0 <= b < Z.of_nat (length (fst x)) /\
                 wanted k (d_cond s) tot e b (Z.of_nat (length (fst x)))) /\
    (forall e ds, 0 <= e -> List.In (FErr (e + 1) ds) (map fst fs) <->
       exists x, nth_error l (Z.to_nat e) = Some x /\ snd x <> None /\ (ds = 0 \/ ds = 1) /\ wanted_err k (d_cond s) tot e ds).
Proof.
  intros Hk Ho Ha Ht Hly Hall ND Hr Hl Hlen Hon.
  destruct (training k s layers tot ls r0 l Hk Ho Ha Ht Hly Hall ND Hr Hl Hlen) as (s' & ok & nm & W & WE & Hrun & Hf & _ & HW & HWE & _).
  exists s', (train_files ok nm W WE r0 l). split; [exact Hrun|]. split; [exact Hf|]. unfold train_files. split.
  - intros e b He. rewrite map_app, in_app_iff, epochs_names. rewrite Z.sub_0_r. split.
    + intros [H | (x & H1 & _ & H3 & H4)]; [exfalso; refine (report_names ok nm WE before_start r0 _ _ H); intros ? ? X0; discriminate X0|].
      exists x. split; [exact H1|]. split; [exact H3|]. apply HW in H4; [apply H4 | lia].
    + intros (x & H1 & H2 & H3). right. exists x. split; [exact H1|]. split; [lia|]. split; [exact H2|]. apply HW; [lia | auto].
  - intros e ds He. rewrite map_app, in_app_iff, epochs_err_names, report_names_err. rewrite Z.sub_0_r. split.
    + intros [(-> & _) | (x & H1 & _ & H3 & H4 & H5)]; [unfold before_start in He; lia|].
      exists x. split; [exact H1|]. split; [exact H3|]. split; [exact H4|]. apply HWE in H5. apply H5.
    + intros (x & H1 & H2 & H3 & H4). right. exists x. split; [exact H1|]. split; [lia|]. split; [exact H2|]. split; [exact H3|]. apply HWE. auto.
Qed.

(** ** Requests that are not met *)
Lemma mark_neg tot l : forall v, 0 < tot -> List.In (-1) l -> mark tot l v = None.
Proof.
  induction l as [|x l IH]; intros v Ht Hin; [destruct Hin|]. destruct Hin as [-> | H]; cbn [mark].
  - destruct (Z.ltb_spec (-1) tot); [reflexivity | lia].
  - destruct (if x <? tot then vc_set x true v else vc_set (tot - 1) true v); cbn [obind]; [apply IH; assumption | reflexivity].
Qed.

Theorem initial_refuted k s layers tot : k = CalcErrByEpochNum \/ k = CalcErrOnlyByEpochNum -> 0 < tot ->
  List.In before_start (c_epochs (d_cond s)) -> run_cmd k (InitNnet layers tot) s = None.
Proof.
  intros Hk Ht Hin.
  assert (X : epoch_init tot (d_cond s) = None).
  { unfold epoch_init. destruct (c_epochs (d_cond s)) as [|a t] eqn:E; [destruct Hin|].
    rewrite mark_neg by (assumption || exact Hin). reflexivity. }
  destruct Hk as [-> | ->]; cbn [run_cmd cond_init]; rewrite X; reflexivity.
Qed.

(** A network of an input layer and of another one; what they tell *)
Definition num (z : Z) : value := VScal Single z.
Definition fp : calls := ccons (Layer 0 (num 1) (num 2) cnil) (ccons (Layer 1 (num 2) (num 3) (ccons (Note "W" (num 7)) cnil)) cnil).
Definition bp : calls := ccons (Layer 1 (num 4) (num 5) (ccons (Note "dLdZ" (num 8)) cnil)) cnil.
Definition two : list (Z * string * Z) := [(0, "in"%string, 10); (1, "out"%string, 20)].
Definition rep : report := ([fp], [fp]).
Definition ep (n : nat) : epoch := (repeat (fp, bp) n, Some rep).
Definition asks (l : list Z) (n : Z) : cond := mkC l [] 0 0 false n 1.
Definition black0 : bwlist := bw_do (BListIdx false 0) (bw_ctor false).

Definition files_of (k : kind) (s : st) (p : list cmd) : option (list (fname * fields)) := option_map d_files (run_cmds k p s).

(** No epoch listed: the last one is dumped; the next training, of two epochs, dumps the first *)
Theorem again_refuted : exists s l,
  c_epochs (d_cond s) = [] /\
  option_map (map fst) (files_of EpochNum s (train_cmds 2 1 two rep [ep 1] ++ train_cmds 2 2 two rep [ep 1; ep 1])) = Some (l ++ [FFwd 1 0; FBwd 1 0]) /\
  l = [FFwd 1 0; FBwd 1 0].
Proof. exists (ctor (asks [] 0) (bw_ctor false)), [FFwd 1 0; FBwd 1 0]. repeat split. Qed.

(** The first epoch is listed, but not dumped *)
Theorem first_epoch_refuted : exists s, List.In 0 (c_epochs (d_cond s)) /\ d_on s = true /\
  option_map (map fst) (files_of EpochNumWFirstNLastBatch s (train_cmds 2 2 two rep [ep 3; ep 3])) = Some [FFwd 2 2; FBwd 2 2].
Proof. exists (ctor (asks [0; 1] 0) (bw_ctor false)). split; [left; reflexivity|]. split; reflexivity. Qed.

(** Switched off within a batch and on again: the archive stays open, and the next dump aborts *)
Theorem switch_refuted : exists s p, run_cmds EpochNum p s <> None /\
  run_cmds EpochNum (p ++ [Turn true; EpochBegin 1 1]) s <> None /\
  run_cmds EpochNum (p ++ [Turn true; EpochBegin 1 1; BatchBegin 0]) s = None /\
  p = InitNnet 2 2 :: init_cmds two ++ [EpochBegin 0 1; BatchBegin 0; Pass true fp; Turn false; PreBprop; Pass false bp; BatchEnd].
Proof. exists (ctor (asks [0; 1] 0) (bw_ctor false)). eexists. repeat apply conj; [| | | reflexivity]; vm_compute; congruence. Qed.

(** A network that is trained again without being initialized again: the layers have no names
    any more, and one that is excluded is dumped *)
Theorem forgotten_refuted : exists s l,
  s = ctor (asks [0] 0) black0 /\
  files_of EpochNum s (train_cmds 2 1 two rep [ep 1]) = Some l /\
  map fst l = [FFwd 1 0; FBwd 1 0] /\ (forall n f, List.In (n, f) l -> map fst f = ["out"%string]) /\
  files_of EpochNum s (train_cmds 2 1 two rep [ep 1] ++ train_cmds 2 1 [] rep [(repeat (ccons (Layer 0 (num 1) (num 2) cnil) cnil, bp) 1, None)]) =
    Some (l ++ [(FFwd 1 0, [(""%string, Str [("A"%string, Num Single 1 1 [2])])]); (FBwd 1 0, [(""%string, Str [("dLdA"%string, Num Single 1 1 [4]); ("dLdZ"%string, Num Single 1 1 [8])])])]).
Proof.
  eexists. eexists. split; [reflexivity|]. split; [vm_compute; reflexivity|]. split; [reflexivity|]. split; [| vm_compute; reflexivity].
  intros n f H. repeat (destruct H as [H|H]; [injection H; intros; subst; reflexivity|]). destruct H.
Qed.
