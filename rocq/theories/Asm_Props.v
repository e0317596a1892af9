(** Theorems about assembling networks: layer indices, wiring, horizontal packs. *)
From Coq Require Import Permutation Reals.
From Verif Require Import Base Act_Model Net_Model Asm_Model Asm_Spec Asm_Proofs Asm_Proofs2 Asm_Proofs3 Lph_Spec Lph_Proofs.
Local Open Scope Z_scope.

(** An input, a fully connected layer, a horizontal pack of a vertical pack of two layers
    and a tiled layer, whose ranges overlap, and an output *)
Definition ex_pack : phls :=
  PsCons 0 3 (LyV 3 (LsCons (LyPlain 4 5) (LsCons (LyPlain 5 2) LsNil))) (PsCons 2 2 (LyT 6 2 (LyPlain 7 3)) PsNil).
Definition ex_ls : lays :=
  LsCons (LyPlain 0 10) (LsCons (LyPlain 1 4) (LsCons (LyH 2 0 ex_pack) (LsCons (LyPlain 8 1) LsNil))).

(** ** C54 *)
Theorem C54_indices ls objs s : assemble ls objs = Ok s -> Z.of_nat (length (lids ls)) <= 65535 ->
  a_cnt s = Z.of_nat (length (lids ls)) /\ NoDup (lids ls) /\
  (forall k id, nth_error (lids ls) k = Some id -> exists inc, nth_error (a_objs s) id = Some (Z.of_nat k, inc)) /\
  (forall id, ~ In id (lids ls) -> nth_error (a_objs s) id = nth_error objs id).
Proof. exact (assemble_indices ls objs s). Qed.
Print Assumptions C54_indices.
Example C54_indices_ex : Z.of_nat (length (lids ex_ls)) <= 65535 /\
  assemble ex_ls (repeat (65535, 0) 9) = Ok (mkA 9 [(0, 0); (1, 10); (2, 4); (3, 0); (4, 3); (5, 5); (6, 2); (7, 1); (8, 8)]).
Proof. split; [cbn; lia|reflexivity]. Qed.

(** Assembling succeeds exactly when no layer object occurs twice or belongs to a network
    already, and every horizontal pack covers what it is wired to. *)
Theorem C54_assembles ls objs : sane objs -> Z.of_nat (length (lids ls)) <= 65535 ->
  ((exists s, assemble ls objs = Ok s) <-> NoDup (lids ls) /\ all_fresh objs (lids ls) /\ lpluggable 0 ls).
Proof. exact (assemble_iff ls objs). Qed.
Print Assumptions C54_assembles.
Example C54_assembles_ex : sane (repeat (65535, 0) 9) /\ assemble (LsCons (LyPlain 0 1) (LsCons (LyPlain 0 1) LsNil)) [(65535, 0)] = Aborted.
Proof.
  split; [|reflexivity]. intros id o H _. apply nth_error_In in H. apply repeat_spec in H. subst o. reflexivity.
Qed.

(** Nothing undefined happens when the ranges of the packs stay inside of the neurons they
    are wired to. *)
Theorem C54_defined ls objs : exist_in objs (lids ls) -> lin_bounds 0 ls -> assemble ls objs <> Undef.
Proof. exact (assemble_def ls objs). Qed.
Print Assumptions C54_defined.
Example C54_defined_ex : exist_in (repeat (65535, 0) 9) (lids ex_ls) /\ lin_bounds 0 ex_ls.
Proof. split; [repeat constructor; cbn; lia|]. cbn. unfold inside. cbn. repeat split; repeat constructor; cbn; lia. Qed.

(** The limit: the indices are 16 bit numbers and wrap. *)
Theorem C54_wraps n : exists s, assemble (flat (seq 0 n)) (repeat (65535, 0) n) = Ok s /\
  a_cnt s = Z.of_nat n mod 65536 /\
  (forall k, (k < n)%nat -> exists w, nth_error (a_objs s) k = Some (Z.of_nat k mod 65536, w)).
Proof.
  destruct (flat_wraps n 0 0 0 (repeat (65535, 0) n) eq_refl) as (s & E & C & _ & X).
  - intros j Hj. rewrite (nth_error_nth' _ (65535, 0)) by (rewrite repeat_length; lia). f_equal. apply nth_repeat.
  - exists s. split; [exact E|]. split; [exact C|]. intros k Hk. apply X. lia.
Qed.
Print Assumptions C54_wraps.
Example C54_wraps_ex : assemble (flat (seq 0 2)) (repeat (65535, 0) 2) = Ok (mkA 2 [(0, 0); (1, 1)]).
Proof. reflexivity. Qed.

(** ** C84: visiting all layers *)
Theorem C84_for_each (St : Type) (f : nat -> St -> St) ls s :
  each_ups f ls s = fold_left (fun a id => f id a) (lpost ls) s /\
  each_downs f ls s = fold_left (fun a id => f id a) (rev (lpost ls)) s /\
  Permutation (lpost ls) (lids ls).
Proof.
  exact (conj (proj1 (proj2 (each_up_fold St f)) ls s) (conj (proj1 (proj2 (each_down_fold St f)) ls s) (proj1 (proj2 post_perm) ls))).
Qed.
Print Assumptions C84_for_each.
(** a pack, first in pre-order, is visited right after everything inside of it *)
Theorem C84_inner_first l (St : Type) s (f : nat -> St -> St) : exists id inside_ visited,
  ids l = id :: inside_ /\ Permutation visited inside_ /\ each_up f l s = f id (fold_left (fun a id => f id a) visited s).
Proof. exact (each_up_inner l St s f). Qed.
Print Assumptions C84_inner_first.
Example C84_ex : each_ups cons ex_ls [] = [8; 2; 6; 7; 3; 5; 4; 1; 0]%nat /\ each_downs cons ex_ls [] = [0; 1; 4; 5; 3; 7; 6; 2; 8]%nat.
Proof. split; reflexivity. Qed.

(** ** C85: the number of incoming neurons *)
Theorem C85_wired ls objs s : assemble ls objs = Ok s -> Z.of_nat (length (lids ls)) <= 65535 ->
  forall id inc, In (id, inc) (lwires 0 ls) -> exists i, nth_error (a_objs s) id = Some (i, inc).
Proof. exact (assemble_wired ls objs s). Qed.
Print Assumptions C85_wired.
Example C85_wired_ex : lwires 0 ex_ls = [(0%nat, 0); (1%nat, 10); (2%nat, 4); (4%nat, 3); (5%nat, 5); (6%nat, 2); (7%nat, 1); (8%nat, 8)].
Proof. reflexivity. Qed.

(** where "the number of neurons" is this *)
Theorem C85_neurons l : lneurons l = width l.
Proof. exact (proj1 lneurons_width l). Qed.
Print Assumptions C85_neurons.
Example C85_neurons_ex : width (LyH 2 1 ex_pack) = 9.
Proof. reflexivity. Qed.

(** ** C53 *)
(** The activations of every layer with activations have one row for each sample (for
    each tile of each sample below a tiled layer) and one column for each neuron *)
Theorem C53_shapes m l p : Permutation (map shape_of (place m l p)) (shapes m l).
Proof. exact (proj1 place_shapes l m p). Qed.
Print Assumptions C53_shapes.
Example C53_shapes_ex : shapes 10 (LyH 2 0 ex_pack) =
  [(2%nat, 10, 8); (4%nat, 10, 5); (5%nat, 10, 2); (6%nat, 10, 6); (7%nat, 20, 3)].
Proof. reflexivity. Qed.

(** Activations of the inner layers: the i-th one has the columns after those of the
    layers before it, in the storage of the pack, wherever that is *)
Theorem C53_activations m id ps p : 
  (forall i l t, nth_error (inner ps) i = Some l -> top l = Some t ->
     let (b, o) := where_ id p in
     In (t, (b, o + m * columns_before i (inner ps), m, lneurons l)) (place m (LyH id 0 ps) p)) /\
  (Forall (fun l => 0 <= lneurons l) (inner ps) -> forall c, 0 <= c < lneurons (LyH id 0 ps) ->
     exists! i, (i < length (inner ps))%nat /\ columns_before i (inner ps) <= c < columns_before (S i) (inner ps)).
Proof.
  split.
  - intros i l t Hi Ht. cbn [place]. destruct (where_ id p) as [b o]. right.
    exact (place_phls_in ps m b o 0 i l t Hi Ht).
  - intros Hf c Hc. apply columns_tile; [exact Hf|]. cbn [lneurons] in Hc. rewrite inner_sum, Z.add_0_r in Hc. exact Hc.
Qed.
Print Assumptions C53_activations.
Example C53_activations_ex : place 10 (LyH 2 0 ex_pack) None =
  [(2%nat, (2%nat, 0, 10, 8)); (4%nat, (4%nat, 0, 10, 5)); (5%nat, (2%nat, 0, 10, 2)); (7%nat, (7%nat, 0, 20, 3)); (6%nat, (2%nat, 20, 10, 6))].
Proof. reflexivity. Qed.

(** Construction: a pack wired to [inc] neurons, its ranges being inside of these, is
    accepted if and only if the ranges cover all of them (its inner layers being acceptable
    themselves, and none of the objects used before) *)
Theorem C53_construction id add ps inc s : 0 <= inc -> 0 < a_cnt s ->
  a_cnt s + Z.of_nat (length (ids (LyH id add ps))) <= 65535 ->
  NoDup (ids (LyH id add ps)) -> all_fresh (a_objs s) (ids (LyH id add ps)) ->
  Forall (inside inc) (ranges ps) -> ppluggable ps ->
  ((exists s', preinit (LyH id add ps) inc s = Ok s') <-> covered inc (ranges ps)).
Proof.
  intros Hi Hc Hb Hd Hf Hr Hp. split.
  - intros (s' & H). destruct (proj1 preinit_good _ _ _ _ H) as (_ & _ & _ & C & _); [lia|exact Hb|left; exact Hc|exact C].
  - intro C. apply (proj1 preinit_do); [exact Hd|exact Hf| |lia|exact Hb|left; exact Hc]. exact (conj Hi (conj Hr (conj C Hp))).
Qed.
Print Assumptions C53_construction.
Example C53_construction_ex :
  preinit (LyH 0 0 (PsCons 0 2 (LyPlain 1 1) (PsCons 2 2 (LyPlain 2 1) PsNil))) 4 (mkA 1 (repeat (65535, 0) 3)) = Ok (mkA 4 [(1, 4); (2, 2); (3, 2)]) /\
  preinit (LyH 0 0 (PsCons 0 2 (LyPlain 1 1) (PsCons 3 1 (LyPlain 2 1) PsNil))) 4 (mkA 1 (repeat (65535, 0) 3)) = Aborted /\
  preinit (LyH 0 0 (PsCons 0 2 (LyPlain 1 1) (PsCons 2 3 (LyPlain 2 1) PsNil))) 4 (mkA 1 (repeat (65535, 0) 3)) = Undef.
Proof. repeat split. Qed.

(** Back-propagation: every inner layer is given its own columns of dL/dA and its own
    range of the lower layer's activations, and what they answer is added up. *)
Theorem C53_gradients gw m inc B d e h b1 b2 l' d' e' sw : length B = (m * inc)%nat ->
  bprop gw m (biased m B) true d e (LPH inc h b1 b2) = Some (l', d', e', sw) ->
  sw = true /\ d' = d /\ shaped m inc e' = true /\
  exists cs, Forall2 (answers gw m B d) (members 0 h) cs /\
    forall r k, (r < m)%nat -> (k < inc)%nat ->
      nth (m * k + r) (content e') 0%R = fold_right Rplus 0%R (map (share m r k) (combine (members 0 h) cs)).
Proof. exact (LPH_gradient gw m inc B d e h b1 b2 l' d' e' sw). Qed.
Print Assumptions C53_gradients.
(** Two identity layers that share the neuron 1 *)
Example C53_gradients_ex : exists l' e',
  bprop (fun _ W g => (W, g)) 1 (biased 1 [7; 8; 9]%R) true (mkB 1 4 [1; 2; 3; 4]%R) (mkB 1 3 [5; 5; 5]%R)
    (LPH 3 (HCons 0 2 (LI 2 []) (HCons 1 2 (LI 2 []) HNil)) [0; 0]%R [0; 0]%R) = Some (l', mkB 1 4 [1; 2; 3; 4]%R, e', true) /\
  content e' = [0 + 1; 0 + 3 + 2; 0 + 4]%R.
Proof. eexists. eexists. split; reflexivity. Qed.
