(** C138-C139 *)
From Coq Require Import String List.
From Verif Require Import Base Smx_Model Mf_Model Ww_Model Ww_Spec Ww_Proofs Ww_Proofs2.
Import ListNotations.

(** C138: what read_weights() reads is what write_weights() has written.  Missing: a failure
    when the file is closed *)
Theorem C138_round_trip_partial rk fd fs fi one me (ok : nat -> bool) net dst :
  (forall i, me i <> None) -> NoDup (idxs net) -> initialiseds net -> archs net dst ->
  exists b s, write_weights rk ok true net = Some (b, Some s) /\ ((forall k, ok k = true) -> b = true /\ a_err s = Success) /\
  (b = true -> a_err s = Success ->
   exists dst', read_weights rk fd fs fi one me (Some (a_file s)) dst = Some (true, dst') /\ archs net dst' /\ same_weightss net dst').
Proof. exact (weights_round_trip rk fd fs fi one me ok net dst). Qed.
Print Assumptions C138_round_trip_partial.
(** A file that cannot be opened: both report the failure *)
Theorem C138_no_file rk fd fs fi one me ok net :
  write_weights rk ok false net = Some (false, None) /\ read_weights rk fd fs fi one me None net = Some (false, net).
Proof. split; reflexivity. Qed.
Print Assumptions C138_no_file.
(** The names of layers of different indices differ, whatever the custom names *)
Theorem C138_names c i c' i' : lname c i = lname c' i' -> i = i'.
Proof. intros H. apply dec_inj. eapply last_part; [apply dec_no_us|apply dec_no_us|exact H]. Qed.
Print Assumptions C138_names.
(** The file could not be closed, and what is in it is not known; the network was told to have
    been written *)
Theorem C138_close_refuted rk : exists ok net s, initialiseds net /\ NoDup (idxs net) /\
  write_weights rk ok true net = Some (true, Some s) /\ a_err s = ErrorClosingFile.
Proof.
  exists (fun k => negb (k =? 2)), (lcons (LNone "input" 0) lnil). eexists. split; [cbn; auto|]. split; [repeat constructor; intros []|].
  split; reflexivity.
Qed.
Print Assumptions C138_close_refuted.
(** an input layer, a pack of two layers, one of them tiled *)
Definition w138 : smx Z := mkS 2 2 false false false false (Some [1; 2; 3; 4]%Z).
Definition v138 : smx Z := mkS 1 3 false false false false (Some [5; 6; 7]%Z).
Definition net138 : lays :=
  lcons (LNone "input" 0) (lcons (LPack "lpv" 1 (lcons (LFC "lfc" 2 2 1 w138 true) (lcons (LTile "lpt" 3 4 (LFC "lfc" 4 2 1 w138 true)) lnil)))
  (lcons (LFC "outp" 5 1 2 v138 true) lnil)).
Definition dst138 : lays :=
  lcons (LNone "input" 0) (lcons (LPack "lpv" 1 (lcons (LFC "lfc" 2 2 1 init false) (lcons (LTile "lpt" 3 4 (LFC "lfc" 4 2 1 init false)) lnil)))
  (lcons (LFC "outp" 5 1 2 v138 true) lnil)).
Example C138_ex : NoDup (idxs net138) /\ initialiseds net138 /\ archs net138 dst138 /\
  exists s, write_weights Single (fun _ => true) true net138 = Some (true, Some s) /\
  lookup "outp_5" (a_file s) = Some (Str [("m_weights", Num Single 1 3 [5; 6; 7]%Z)])%string /\
  read_weights Single (fun _ z => z) (fun _ z => z) (fun _ z => z) (fun _ => 1%Z) (fun _ => Some (fun _ => 0%Z)) (Some (a_file s)) dst138 = Some (true, net138).
Proof.
  assert (W : weights_for 2 1 w138) by (repeat split; exists [1; 2; 3; 4]%Z; auto).
  assert (V : weights_for 1 2 v138) by (repeat split; exists [5; 6; 7]%Z; auto).
  split; [cbn; repeat constructor; cbn; lia|]. split.
  { cbn. repeat split; try apply W; try apply V; try lia. repeat constructor; cbn; lia. }
  split; [cbn; auto 20|]. eexists. split; [vm_compute; reflexivity|]. split; vm_compute; reflexivity.
Qed.

(** C139: reading any file.  Missing: all or nothing; tile counts *)
Theorem C139_read_partial rk fd fs fi one me f net : file_ok f ->
  exists b net', read_weights rk fd fs fi one me (Some f) net = Some (b, net') /\ archs net net' /\ kepts net net' /\ (b = true -> from_files rk net' f).
Proof. exact (read_any rk fd fs fi one me f net). Qed.
Print Assumptions C139_read_partial.
(** The second layer is not in the file: the reading fails, but the first layer has new weights *)
Theorem C139_half_refuted : exists f net net', file_ok f /\ initialiseds net /\ NoDup (idxs net) /\
  read_weights Single (fun _ z => z) (fun _ z => z) (fun _ z => z) (fun _ => 1%Z) (fun _ => Some (fun _ => 0%Z)) (Some f) net = Some (false, net') /\
  ~ same_weightss net net'.
Proof.
  set (w := fun z : Z => mkS 1 2 false false false false (Some [z; z]%Z) : smx Z).
  exists [("a_1", Str [("m_weights", Num Single 1 2 [7; 7]%Z)])]%string, (lcons (LFC "a" 1 1 1 (w 1%Z) true) (lcons (LFC "b" 2 1 1 (w 2%Z) true) lnil)).
  eexists. split; [|split; [|split; [|split; [vm_compute; reflexivity|]]]].
  - intros n v H. cbn in H. destruct (String.eqb n "a_1"); [|discriminate]. injection H as <-. constructor.
    intros n' v' H'. cbn in H'. destruct (String.eqb n' "m_weights"); [|discriminate]. injection H' as <-. constructor. reflexivity.
  - cbn. unfold weights_for. cbn. repeat split; try lia; [exists [1; 1]%Z|exists [2; 2]%Z]; auto.
  - repeat constructor; cbn; lia.
  - cbn. intros ((_ & H & _) & _). discriminate H.
Qed.
Print Assumptions C139_half_refuted.
(** The tile count is taken from the file, unchecked: the layer no longer fits into the network *)
Theorem C139_tiles_refuted rk fd fs fi one me : (forall i, me i <> None) -> forall k k' : Z,
  exists f, file_ok f /\ forall net', read_weights rk fd fs fi one me (Some f) (lcons (LTile "lpt" 1 k (LNone "li" 2)) lnil) = Some (true, net') <->
    net' = lcons (LTile "lpt" 1 k' (LNone "li" 2)) lnil.
Proof.
  intros Hme k k'. exists [("lpt_1", Str [("m_tiles_count", Num (Int true 32) 1 1 [k']); ("li_2", Str [])])]%string. split.
  - intros n v H. cbn in H. destruct (String.eqb n "lpt_1"); [|discriminate]. injection H as <-. constructor.
    intros n' v' H'. cbn in H'. destruct (String.eqb n' "m_tiles_count"); [injection H' as <-; constructor; reflexivity|].
    destruct (String.eqb n' "li_2"); [|discriminate]. injection H' as <-. constructor. discriminate.
  - intros net'. cbn. split; [intros E; injection E as <-; reflexivity|intros ->; reflexivity].
Qed.
Print Assumptions C139_tiles_refuted.
(** a file with weights of the wrong size: refused, nothing changes *)
Example C139_ex : let f := [("a_1", Str [("m_weights", Num Double 1 3 [1; 2; 3]%Z)])]%string in
  file_ok f /\
  read_weights Double (fun _ z => z) (fun _ z => z) (fun _ z => z) (fun _ => 1%Z) (fun _ => Some (fun _ => 0%Z)) (Some f)
    (lcons (LFC "a" 1 1 1 (mkS 1 2 false false false false (Some [9; 9]%Z)) true) lnil) =
  Some (false, lcons (LFC "a" 1 1 1 (mkS 1 2 false false false false (Some [9; 9]%Z)) true) lnil) /\
  exists w, read_weights Double (fun _ z => z) (fun _ z => z) (fun _ z => z) (fun _ => 1%Z) (fun _ => Some (fun _ => 0%Z)) (Some f)
    (lcons (LFC "a" 1 1 2 (mkS 1 3 false false false false (Some [9; 9; 9]%Z)) true) lnil) = Some (true, lcons (LFC "a" 1 1 2 w true) lnil) /\ s_data w = Some [1; 2; 3]%Z.
Proof.
  cbn zeta. split; [|split; [vm_compute; reflexivity|]].
  - intros n v H. cbn in H. destruct (String.eqb n "a_1"); [|discriminate]. injection H as <-. constructor.
    intros n' v' H'. cbn in H'. destruct (String.eqb n' "m_weights"); [|discriminate]. injection H' as <-. constructor. reflexivity.
  - eexists. split; [vm_compute; reflexivity|reflexivity].
Qed.
