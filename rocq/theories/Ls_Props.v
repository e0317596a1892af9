(** Properties C119, C120: settings of layers. *)
From Verif Require Import Base BaseLemmas Ls_Model Ls_Spec Ls_Proofs Ls_Proofs2.

Ltac legal_tac :=
  intros l1 p l2 o E Ht;
  repeat (destruct l1 as [|? l1];
    [cbn in E; injection E as <- <-; cbn in Ht; first [discriminate|injection Ht as <-; vm_compute; discriminate]
    |cbn in E; injection E as <- E]);
  destruct l1; discriminate.

(** ** C119: every layer has the setting last given to it, or the default *)
Theorem C119_settings : forall V (ps : list (op V)), legal ps ->
  exists w, run ps (w_init V) = Some w /\
    forall o c, final ps o = Some c ->
      get_default w o = Some (fst c) /\
      (forall idx, get w o idx = Some (setting c idx)) /\
      forall f, exists keys w', for_each w o f = Some (fst c :: map (setting c) keys, w') /\
        NoDup keys /\ forall k, In k keys <-> snd c k <> None.
Proof. exact @settings_kept. Qed.
Print Assumptions C119_settings.

Definition ex_ops : list (op nat) :=
  [ONew 1; ONew 2; OAdd 0 3 30; OAdd 0 4 40; OAdd 1 3 33; OAdd 0 3 31; OEach 0 S; ODefault 0 9; ODestroy 1].
Example C119_settings_ex :
  legal ex_ops /\
  match run ex_ops (w_init nat) with
  | Some w => map (get w 0) [2; 3; 4; 5] = [Some 9; Some 32; Some 41; Some 9] /\
              option_map fst (for_each w 0 S) = Some [9; 41; 32]
  | None => False end.
Proof.
  split; [|vm_compute; auto]. unfold ex_ops. legal_tac.
Qed.

(** ** C120: a copy has its own settings.
    Refuted: the copied map refers to the nodes of the original: replacing a setting of the
    original leaves the copy with a dangling reference, and so does its destruction; replacing a
    setting of the copy erases a node of the wrong list. *)
Definition ex_copy : option (nat * world nat) := do w <- run [ONew 1; OAdd 0 3 30] (w_init nat); copy w 0.
Theorem C120_copy_refuted : exists o' w',
  ex_copy = Some (o', w') /\ get w' o' 3 = Some 30 /\
  (exists w2, add w' 0 3 31 = Some w2 /\ get w2 o' 3 = None) /\
  (exists w2, destroy w' 0 = Some w2 /\ get w2 o' 3 = None) /\
  (exists w2 r, for_each w' 0 S = Some (r, w2) /\ get w2 o' 3 = Some 31) /\
  add w' o' 3 31 = None.
Proof.
  eexists _, _. split; [vm_compute; reflexivity|]. split; [reflexivity|].
  split; [eexists; split; reflexivity|]. split; [eexists; split; reflexivity|]. split; [eexists _, _; split; reflexivity|reflexivity].
Qed.
Print Assumptions C120_copy_refuted.

(** What is missing: everything done afterwards to either of them. *)
Theorem C120_copy_partial : forall V (ps : list (op V)) o c, legal ps -> final ps o = Some c ->
  exists w o' w', run ps (w_init V) = Some w /\ copy w o = Some (o', w') /\
    get_default w' o' = Some (fst c) /\ forall idx, get w' o' idx = Some (setting c idx).
Proof. exact @copy_reads. Qed.
Print Assumptions C120_copy_partial.

Example C120_copy_partial_ex :
  legal [ONew 1; OAdd 0 3 30] /\
  match ex_copy with Some (o', w') => map (get w' o') [2; 3] = [Some 1; Some 30] | None => False end.
Proof. split; [legal_tac|vm_compute; reflexivity]. Qed.
