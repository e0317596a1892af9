(** C136-C137 *)
From Coq Require Import String List.
From Verif Require Import Base Smx_Model Util_Model Mf_Model Mf_Spec Dp_Model Dp_Spec Dp_Proofs3 Dp_Proofs4.
Import ListNotations.
Local Open Scope Z_scope.

(** C136: which files a training leaves *)
Theorem C136_dumped_partial k s layers tot ls r0 l :
  d_stk s = [] -> a_open (d_ar s) = false -> askable k (d_cond s) -> 0 < tot -> 0 < layers <= 65535 ->
  (forall i, 0 <= i < layers <-> List.In i (map (fun x => fst (fst x)) ls)) -> NoDup (map (fun x => fst (fst x)) ls) ->
  report_ok (Z.to_nat layers) r0 -> Forall (epoch_ok (Z.to_nat layers)) l -> Z.of_nat (length l) <= tot ->
  d_on s = true ->
  exists s' fs, run_cmds k (train_cmds layers tot ls r0 l) s = Some s' /\ d_files s' = d_files s ++ fs /\
    (forall e b, 0 <= e -> List.In (FFwd (e + 1) b) (map fst fs) <->
       exists x, nth_error l (Z.to_nat e) = Some x /\ 0 <= b < Z.of_nat (length (fst x)) /\
                 wanted k (d_cond s) tot e b (Z.of_nat (length (fst x)))) /\
    (forall e ds, 0 <= e -> List.In (FErr (e + 1) ds) (map fst fs) <->
       exists x, nth_error l (Z.to_nat e) = Some x /\ snd x <> None /\ (ds = 0 \/ ds = 1) /\ wanted_err k (d_cond s) tot e ds).
Proof. exact (dumped k s layers tot ls r0 l). Qed.
Print Assumptions C136_dumped_partial.
(** the error before the training cannot be asked for *)
Theorem C136_initial_refuted k s layers tot : k = CalcErrByEpochNum \/ k = CalcErrOnlyByEpochNum -> 0 < tot ->
  List.In before_start (c_epochs (d_cond s)) -> run_cmd k (InitNnet layers tot) s = None.
Proof. exact (initial_refuted k s layers tot). Qed.
Print Assumptions C136_initial_refuted.
(** "the last epoch" of the first training is kept for all the others *)
Theorem C136_again_refuted : exists s l,
  c_epochs (d_cond s) = [] /\
  option_map (map fst) (files_of EpochNum s (train_cmds 2 1 two rep [ep 1] ++ train_cmds 2 2 two rep [ep 1; ep 1])) = Some (l ++ [FFwd 1 0; FBwd 1 0]) /\
  l = [FFwd 1 0; FBwd 1 0].
Proof. exact again_refuted. Qed.
Print Assumptions C136_again_refuted.
(** the first epoch is asked for but not dumped *)
Theorem C136_first_epoch_refuted : exists s, List.In 0 (c_epochs (d_cond s)) /\ d_on s = true /\
  option_map (map fst) (files_of EpochNumWFirstNLastBatch s (train_cmds 2 2 two rep [ep 3; ep 3])) = Some [FFwd 2 2; FBwd 2 2].
Proof. exact first_epoch_refuted. Qed.
Print Assumptions C136_first_epoch_refuted.

(** C137: the contents of the files; all of them are closed *)
Theorem C137_contents_partial k s layers tot ls r0 l :
  d_stk s = [] -> a_open (d_ar s) = false -> askable k (d_cond s) -> 0 < tot -> 0 < layers <= 65535 ->
  (forall i, 0 <= i < layers <-> List.In i (map (fun x => fst (fst x)) ls)) -> NoDup (map (fun x => fst (fst x)) ls) ->
  report_ok (Z.to_nat layers) r0 -> Forall (epoch_ok (Z.to_nat layers)) l -> Z.of_nat (length l) <= tot ->
  exists s' ok nm W WE, run_cmds k (train_cmds layers tot ls r0 l) s = Some s' /\
    d_files s' = d_files s ++ train_files ok nm W WE r0 l /\
    (forall i name ty, List.In (i, name, ty) ls -> nm i = name /\
       (ok i = true <-> (List.In ty (bw_types (d_bw s)) \/ List.In i (bw_idxs (d_bw s)) <-> bw_white (d_bw s) = true))) /\
    (forall e b nb, 0 <= b -> W e b nb = true <-> d_on s = true /\ wanted k (d_cond s) tot e b nb) /\
    (forall e ds, WE e ds = true <-> d_on s = true /\ wanted_err k (d_cond s) tot e ds) /\
    a_open (d_ar s') = false /\ d_stk s' = [] /\ d_on s' = d_on s /\
    (c_epochs (d_cond s) <> [] -> c_epochs (d_cond s') = c_epochs (d_cond s)).
Proof. exact (training k s layers tot ls r0 l). Qed.
Print Assumptions C137_contents_partial.
(** switched off within a batch, the inspector never closes the file *)
Theorem C137_switch_refuted : exists s p, run_cmds EpochNum p s <> None /\
  run_cmds EpochNum (p ++ [Turn true; EpochBegin 1 1]) s <> None /\
  run_cmds EpochNum (p ++ [Turn true; EpochBegin 1 1; BatchBegin 0]) s = None /\
  p = InitNnet 2 2 :: init_cmds two ++ [EpochBegin 0 1; BatchBegin 0; Pass true fp; Turn false; PreBprop; Pass false bp; BatchEnd].
Proof. exact switch_refuted. Qed.
Print Assumptions C137_switch_refuted.
(** a network that is initialized already does not announce its layers again *)
Theorem C137_again_refuted : exists s l,
  s = ctor (asks [0] 0) black0 /\
  files_of EpochNum s (train_cmds 2 1 two rep [ep 1]) = Some l /\
  map fst l = [FFwd 1 0; FBwd 1 0] /\ (forall n f, List.In (n, f) l -> map fst f = ["out"%string]) /\
  files_of EpochNum s (train_cmds 2 1 two rep [ep 1] ++ train_cmds 2 1 [] rep [(repeat (ccons (Layer 0 (num 1) (num 2) cnil) cnil, bp) 1, None)]) =
    Some (l ++ [(FFwd 1 0, [(""%string, Str [("A"%string, Num Single 1 1 [2])])]); (FBwd 1 0, [(""%string, Str [("dLdA"%string, Num Single 1 1 [4]); ("dLdZ"%string, Num Single 1 1 [8])])])]).
Proof. exact forgotten_refuted. Qed.
Print Assumptions C137_again_refuted.

(** Two layers, the first one excluded; three epochs, of which the second is asked for, and one
    beyond the end *)
Definition s136 : st := ctor (asks [1; 100] 0) black0.
Example C136_ex : d_stk s136 = [] /\ a_open (d_ar s136) = false /\ askable CalcErrByEpochNum (d_cond s136) /\
  (forall i, 0 <= i < 2 <-> List.In i (map (fun x => fst (fst x)) two)) /\ NoDup (map (fun x => fst (fst x)) two) /\
  report_ok (Z.to_nat 2) rep /\ Forall (epoch_ok (Z.to_nat 2)) [ep 2; ep 2; ep 2] /\ d_on s136 = true /\
  option_map (map fst) (files_of CalcErrByEpochNum s136 (train_cmds 2 3 two rep [ep 2; ep 2; ep 2])) =
    Some [FFwd 2 0; FBwd 2 0; FErr 2 0; FFwd 3 0; FBwd 3 0; FErr 3 0].
Proof.
  split; [reflexivity|]. split; [reflexivity|].
  split; [split; [intros e [<-|[<-|[]]]; lia | reflexivity]|].
  split; [intro i; cbn; lia|].
  split; [repeat constructor; cbn; intuition lia|].
  assert (Hf : calls_ok 2 false fp) by (cbn; repeat split; lia).
  assert (Hb : calls_ok 2 false bp) by (cbn; repeat split; lia).
  assert (Hr : report_ok (Z.to_nat 2) rep) by (split; (apply Forall_cons; [exact Hf | apply Forall_nil])).
  assert (He : epoch_ok (Z.to_nat 2) (ep 2)) by (split; [do 2 (apply Forall_cons; [exact (conj Hf Hb)|]); apply Forall_nil | exact Hr]).
  split; [exact Hr|]. split; [do 3 (apply Forall_cons; [exact He|]); apply Forall_nil|]. split; [reflexivity|]. vm_compute. reflexivity.
Qed.
(** A layer that wraps itself, with another one inside of it *)
Definition wrapped : calls :=
  ccons (Layer 0 (num 1) (num 2) (ccons (Layer 0 (num 1) (num 3) (ccons (Note "x" (num 4)) (ccons (Layer 1 (num 5) (num 6) (ccons (Note "y" (num 7)) cnil)) (ccons (Note "z" (num 8)) cnil)))) cnil)) cnil.
Example C137_ex : let nm := fun i => if i =? 0 then "a"%string else "b"%string in
  calls_ok 2 false wrapped /\
  pass_file true (fun _ => true) nm wrapped [] =
   [("b", Str [("y", Num Single 1 1 [7]); ("A", Num Single 1 1 [6])]);
    ("a", Str [("x", Num Single 1 1 [4]); ("z", Num Single 1 1 [8]); ("A", Num Single 1 1 [2])])]%string /\
  pass_file true (fun i => i =? 1) nm wrapped [] = [("b", Str [("y", Num Single 1 1 [7]); ("A", Num Single 1 1 [6])])]%string /\
  pass_file false (fun i => i =? 0) nm wrapped [] = [("a", Str [("dLdA", Num Single 1 1 [1]); ("x", Num Single 1 1 [4]); ("z", Num Single 1 1 [8])])]%string.
Proof. split; [cbn; repeat split; lia|]. repeat split. Qed.
