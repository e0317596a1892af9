(** C127-C131 *)
From Coq Require Import String List.
From Verif Require Import Base Smx_Model Mf_Model Mf_Spec Mf_Proofs Mf_Proofs2 Mf_Proofs3.
Import ListNotations.

(** C127: what was saved is loaded, if names and biases agree *)
Theorem C127_round_trip_partial fd fs fi one me (ok : nat -> bool) rd f l dst :
  (forall k, ok k = true) -> (forall i, me i <> None) -> NoDup (names l) -> readable_items one l -> shape_items l dst ->
  exists s, save_items ok l (opened rd f) = Some s /\ a_err s = Success /\
  exists dst' s', load_items fd fs fi one me dst (opened true (a_file s)) = Some (dst', s') /\ a_err s' = Success /\ eq_items l dst'.
Proof. exact (round_trip fd fs fi one me ok rd f l dst). Qed.
Print Assumptions C127_round_trip_partial.
(** Without that: a matrix called train_x loses a column to the biases... *)
Theorem C127_round_trip_refuted fd fs fi one me : (forall i, me i <> None) ->
  exists l s l' s', items_ok l /\ save_items (fun _ => true) l (opened true []) = Some s /\ a_err s = Success /\
  load_items fd fs fi one me l (opened true (a_file s)) = Some (l', s') /\ a_err s' = Success /\ ~ eq_items l l'.
Proof. exact (round_trip_refuted fd fs fi one me). Qed.
Print Assumptions C127_round_trip_refuted.
(** ...and the biases of one called otherwise become a column of the data *)
Theorem C127_biases_refuted fd fs fi one me : (forall i, me i <> None) ->
  exists l s l' s', items_ok l /\ save_items (fun _ => true) l (opened true []) = Some s /\ a_err s = Success /\
  load_items fd fs fi one me l (opened true (a_file s)) = Some (l', s') /\ a_err s' = Success /\
  l' = icons (INvp "x"%string (VMat Double (mkS 1 2 false false false false (Some [5; one Double]%Z)))) inil /\
  l = icons (INvp "x"%string (VMat Double (mkS 1 2 true false false false (Some [5; one Double]%Z)))) inil.
Proof. exact (round_trip_refuted2 fd fs fi one me). Qed.
Print Assumptions C127_biases_refuted.
Definition ex127 : items :=
  icons (INamed "net" (icons (INvp "eta" (VScal Single 3%Z)) (icons (INvp "w" (VMat Double (mkS 2 1 false false false false (Some [4; 6]%Z)))) inil)))
  (icons (INvp "train_x" (VMat Double (mkS 1 3 true false false false (Some [7; 8; 1]%Z)))) inil).
Example C127_ex : NoDup (names ex127) /\ readable_items (fun _ => 1%Z) ex127 /\
  shape_items ex127 (icons (INamed "net" (icons (INvp "eta" (VScal Single 0%Z)) (icons (INvp "w" (VMat Double init)) inil))) (icons (INvp "train_x" (VMat Double init)) inil)).
Proof.
  split; [|split].
  - cbn. repeat constructor; cbn; intros H; repeat (destruct H as [H|H]; try discriminate); exact H.
  - cbn. split; [split|].
    + repeat constructor; cbn; intros H; repeat (destruct H as [H|H]; try discriminate); exact H.
    + split; [exact I|]. split; [|exact I]. exists [4; 6]%Z. cbn. repeat (split; [first [reflexivity|lia]|]). discriminate.
    + split; [|exact I]. exists [7; 8; 1]%Z. cbn. repeat (split; [first [reflexivity|lia]|]). intros _ r Hr. assert (r = 0%nat) by lia. subst. reflexivity.
  - cbn. auto 10.
Qed.

(** C128: no error means all is there; no failing call means no error *)
Theorem C128_saved ok rd f l : items_ok l ->
  exists s', save_items ok l (opened rd f) = Some s' /\
  (a_err s' = Success -> a_file s' = put_all l f /\ a_stk s' = [] /\ a_name s' = None) /\
  ((forall k, ok k = true) -> a_err s' = Success).
Proof. exact (save_complete ok rd f l). Qed.
Print Assumptions C128_saved.
Example C128_ex :
  option_map (fun s => (a_err s, a_file s)) (save_items (fun k => negb (k =? 4)) ex127 (opened false [])) = Some (CantAddNewFieldToStruct, [("net", Str [("eta", Num Single 1 1 [3%Z])])])%string
  /\ items_ok ex127.
Proof. split; [reflexivity|]. cbn. repeat split; discriminate. Qed.

(** C129: what close() reports *)
Theorem C129_close_refuted : exists ok i s s', save_item ok i (opened false []) = Some s /\ a_err s <> Success /\
  close ok s = (Success, s') /\ a_err s' = Success /\ a_file s' = [].
Proof. exact close_refuted. Qed.
Print Assumptions C129_close_refuted.
Theorem C129_close_partial ok s : let '(ec, s') := close ok s in
  (ec = Success <-> a_nest s = [] /\ a_name s = None /\ a_stk s = [] /\ (a_open s = true -> ok (a_calls s) = true)) /\
  a_err s' = ec /\ a_open s' = false /\ a_stk s' = [] /\ a_nest s' = [] /\ a_name s' = None /\ a_file s' = a_file s.
Proof. exact (close_partial ok s). Qed.
Print Assumptions C129_close_partial.
Example C129_ex : fst (close (fun _ => true) (snd (struct_begin (fun _ => true) "a" false false (opened true [])))) = WrongStateManualStructUnsaved.
Proof. reflexivity. Qed.

(** C130: structures written piece by piece *)
Theorem C130_update_refuted f : run_ops (fun _ => true)
  [OBegin "a" false false; OSave (INamed "b" (icons (INvp "z" (VScal Double 1%Z)) inil)); OBegin "b" true false; OEnd; OEnd]%string (opened true f) = None.
Proof. exact (nested_update_refuted f). Qed.
Print Assumptions C130_update_refuted.
Theorem C130_empty_refuted : exists s e, run_ops (fun _ => true) [OBegin "a" true false; OEnd]%string (opened true [("a", StrArr 0 0)]%string) = Some s /\
  a_err s = e /\ e <> Success /\ a_nest s <> [].
Proof. exact empty_update_refuted. Qed.
Print Assumptions C130_empty_refuted.
Theorem C130_pieces_partial ok : (forall k, ok k = true) -> forall f l, upd_top_bs 0 l -> no_empty_arr f ->
  exists s', run_ops ok (ops_bs l) (opened true f) = Some s' /\ a_err s' = Success /\ a_stk s' = [] /\ a_nest s' = [] /\ a_name s' = None /\
  a_file s' = snd (eff_bs l [] f) /\ fst (close ok s') = Success.
Proof. exact (blocks_file ok). Qed.
Print Assumptions C130_pieces_partial.
Definition ex130 : blocks :=
  bcons (BStruct "a" true false
    (bcons (BSave (INvp "x" (VScal Double 1%Z)))
    (bcons (BStruct "b" false true (bcons (BSave (INvp "y" (VScal Double 2%Z))) bnil))
    (bcons (BStruct "c" false false (bcons (BSave (INvp "z" (VScal Double 3%Z))) bnil)) bnil)))) bnil.
Example C130_ex : upd_top_bs 0 ex130 /\ no_empty_arr [("a", Str [("o", Other)])]%string /\
  snd (eff_bs ex130 [] [("a", Str [("o", Other)])]%string) =
  [("a", Str [("o", Other); ("x", Num Double 1 1 [1%Z]); ("c", Str [("z", Num Double 1 1 [3%Z])])]); ("b", Str [("y", Num Double 1 1 [2%Z])])]%string.
Proof.
  split; [cbn; intuition|]. split; [|reflexivity]. intros n r c. cbn. destruct (String.eqb n "a"); discriminate.
Qed.

(** C131: integers of other classes *)
Theorem C131_signed_refuted fd fs fi one me : (forall i, me i <> None) -> forall z, (- 2 ^ 31 <= z < 0)%Z ->
  exists s', load_items fd fs fi one me (icons (INvp "y" (VMat Double init)) inil) (opened true [("y", Num (Int true 32) 1 1 [z])])%string =
  Some (icons (INvp "y"%string (VMat Double (mkS 1 1 false false false false (Some [fi Double (2 ^ 32 + z)%Z])))) inil, s') /\ a_err s' = Success.
Proof. exact (load_ints_refuted fd fs fi one me). Qed.
Print Assumptions C131_signed_refuted.
Theorem C131_ints_partial fd fs fi one me k sg w r c d n t f :
  (forall i, me i <> None) -> x_name n = false -> (0 < r)%nat -> (0 < c)%nat -> length d = (r * c)%nat ->
  k <> Int sg w -> (w = 8 \/ w = 32 \/ w = 64)%Z -> (forall z, List.In z d -> 0 <= z < 2 ^ w)%Z ->
  lookup n f = Some (Num (Int sg w) r c d) ->
  exists t' s', load_items fd fs fi one me (icons (INvp n (VMat k t)) inil) (opened true f) = Some (icons (INvp n (VMat k t')) inil, s') /\
  a_err s' = Success /\ s_rows t' = r /\ s_cols t' = c /\ s_bias t' = false /\ s_data t' = Some (map (fi k) d).
Proof. exact (load_ints_partial fd fs fi one me k sg w r c d n t f). Qed.
Print Assumptions C131_ints_partial.
Example C131_ex : x_name "y"%string = false /\ (forall z, List.In z [200; 3]%Z -> 0 <= z < 2 ^ 8)%Z /\ lookup "y" [("y", Num (Int false 8) 2 1 [200; 3]%Z)]%string = Some (Num (Int false 8) 2 1 [200; 3]%Z).
Proof. split; [reflexivity|]. split; [|reflexivity]. intros z [<-|[<-|[]]]; lia. Qed.
