(** Theorems about the data-driven initialisation of the weights: C99, C100.
    [history 1 S t h]: the training data object with the data S has reached the state t by
    documented calls, or is not initialised.  [env_ok]: memory is available, worker
    threads work; [weights_fit]: a re-initialisation makes as many weights as there are. *)
From Coq Require Import Reals Lra Permutation.
From Verif Require Import Base BaseLemmas Act_Model Act_Spec Smx_Model Smx_Spec TData_Model TData_Spec TData_Props
  Net_Model Net_Spec Net_Proofs Nrm_Model Nrm_Spec Nrm_Proofs Fit_Model Fit_Spec Fit_Props Lsu_Model Lsu_Spec
  Lsu_Proofs Lsu_Proofs2 Lsu_Proofs3 Lsu_Proofs4 Lsu_Proofs5 Lsu_Proofs6.
Local Open Scope nat_scope.

Lemma nodup_names x : NoDup (map u_q (nunits x)) -> NoDup (nids x).
Proof. rewrite visited_names, visited_ids. intros H. apply nodup_app in H. destruct H as [H _]. exact (NoDup_map_inv _ _ H). Qed.

Lemma norm_main S E cfg t h x : coherent 1%R S -> s_bir (x0 S) = false -> env_ok E -> history 1%R S t h ->
  net_wf (sample_size (x0 S)) x -> NoDup (map u_q (nunits x)) -> weights_fit E x ->
  exists ok ff t' x', lsuv E cfg S t x = Some (ok, ff, t', x') /\
    (exists f g, x' = reweight f g x) /\ map u_q (nunits x') = map u_q (nunits x) /\
    (forall u, In u (nunits x) -> exists W', In (mkU (u_q u) (u_act u) (u_inc u) (u_n u) W') (nunits x') /\
       length W' = length (u_W u) /\ (~ lasked (cfg (u_q u)) -> W' = u_W u)) /\
    (cnt S 0 < 2 -> ok = false /\ ff = None /\ x' = x /\ t' = t) /\
    (2 <= cnt S 0 ->
      (forall b, is_initialized4inference S t' b = None) /\
      match ff with
      | None => ok = true /\ forall u, In u (nunits x') -> lasked (cfg (u_q u)) -> normalized S (cfg (u_q u)) x' u
      | Some q => ok = false /\ In q (map u_q (nunits x)) /\ lasked (cfg q) /\
          forall u, In u (nunits x') -> earlier x (u_q u) q -> lasked (cfg (u_q u)) -> normalized S (cfg (u_q u)) x' u
      end).
Proof.
  intros HC Hb HE Hh Hw HN Hf. pose proof (nodup_names x HN) as HN'.
  destruct (lsuv_ok S HC Hb E HE cfg t h x Hh (conj Hw HN') Hf) as (ok & ff & t' & x' & E1 & HR & HG' & HCh & HV & HS0 & HS).
  exists ok, ff, t', x'. split; [exact E1|]. split; [exact HR|]. split; [rewrite !visited_names; exact HV|]. split; [|split; [exact HS0|]].
  - intros u Hu. destruct (unit_layer x u HN' Hu) as (F & HF & Eu). destruct (HCh _ _ HF) as (W' & J1 & _ & (J2 & J3 & _)). exists W'.
    apply layer_unit in J1. rewrite Eu. cbn [unit_q u_q u_act u_inc u_n u_W]. split; [exact J1|]. auto.
  - intros H2. destruct (HS H2) as (K1 & K2 & K3 & _). split; [exact K2|]. 
    assert (HU : forall u, In u (nunits x') -> normd S cfg x' (u_q u) -> normalized S (cfg (u_q u)) x' u).
    { intros u Hu Hd. destruct (unit_layer x' u (proj2 HG') Hu) as (F & HF & Eu). rewrite Eu at 2. apply Hd. exact HF. }
    destruct ff as [q|]; cbn [status] in K3.
    + destruct K3 as (d1 & d2 & Ed & La & Hd). split; [destruct ok; [destruct K1 as [K1 _]; discriminate (K1 eq_refl)|reflexivity]|].
      rewrite visited_names. split; [rewrite Ed; apply in_or_app; right; left; reflexivity|]. split; [exact La|].
      intros u Hu (l1 & l2 & El & Hl) Ha. apply HU; [exact Hu|]. apply Hd; [|exact Ha]. rewrite visited_names, Ed in El.
      assert (NV : NoDup (d1 ++ q :: d2)) by (rewrite <- Ed, <- visited_names; exact HN).
      assert (E3 : d1 = l1); [|subst; exact Hl]. clear - El NV. revert l1 El. induction d1 as [|a d1 IH]; intros [|b l1] El; cbn [app] in *.
      * reflexivity.
      * injection El as <- E2. exfalso. inversion NV as [|? ? N1 N2]; subst. apply N1. apply in_or_app. right. left. reflexivity.
      * injection El as -> E2. exfalso. inversion NV as [|? ? N1 N2]; subst. apply N1. apply in_or_app. right. left. reflexivity.
      * injection El as -> E2. f_equal. apply IH; [inversion NV; assumption|exact E2].
    + split; [apply K1; reflexivity|]. intros u Hu Ha. apply HU; [exact Hu|]. apply K3; [|exact Ha]. rewrite <- HV, <- visited_names. apply in_map, Hu.
Qed.

Lemma reach_main S E cfg t h x : coherent 1%R S -> s_bir (x0 S) = false -> env_ok E -> history 1%R S t h ->
  net_wf (sample_size (x0 S)) x -> NoDup (map u_q (nunits x)) -> weights_fit E x -> 2 <= cnt S 0 ->
  (forall u, In u (nunits x) -> lasked (cfg (u_q u)) -> reachable S (cfg (u_q u))) ->
  exists t' x', lsuv E cfg S t x = Some (true, None, t', x') /\
    (forall u, In u (nunits x') -> lasked (cfg (u_q u)) -> normalized S (cfg (u_q u)) x' u) /\
    (forall u, In u (nunits x) -> exists W' a b, In (mkU (u_q u) (u_act u) (u_inc u) (u_n u) W') (nunits x') /\
       rescaled a b (u_n u) (u_inc u) (u_W u) W' /\
       forall c, (lasked (cfg (u_q u)) -> (0 < a c)%R) /\
         (~ lasked (cfg (u_q u)) \/ n_dos (l_n (cfg (u_q u))) = false -> a c = 1%R) /\
         (~ lasked (cfg (u_q u)) \/ n_doc (l_n (cfg (u_q u))) = false -> b c = 0%R) /\
         (n_cw (l_n (cfg (u_q u))) = false -> a c = a 0 /\ b c = b 0)).
Proof.
  intros HC Hb HE Hh Hw HN Hf H2 HR. pose proof (nodup_names x HN) as HN'.
  destruct (norm_main S E cfg t h x HC Hb HE Hh Hw HN Hf) as (ok0 & ff0 & t0 & x0' & E0 & _ & _ & _ & _ & M).
  destruct (lsuv_ok S HC Hb E HE cfg t h x Hh (conj Hw HN') Hf) as (ok & ff & t' & x' & E1 & _ & HG' & HCh & HV & HS0 & HS).
  rewrite E1 in E0. injection E0 as <- <- <- <-. destruct (HS H2) as (K1 & K2 & K3 & K4). destruct (M H2) as [_ M2].
  assert (Ok : ok = true).
  { apply K4. intros q Hq Ha. rewrite <- visited_names in Hq. apply in_map_iff in Hq. destruct Hq as (u & <- & Hu). apply HR; assumption. }
  subst ok. assert (ff = None) by (apply K1; reflexivity). subst ff. exists t', x'. split; [exact E1|]. split; [apply M2|].
  intros u Hu. destruct (unit_layer x u HN' Hu) as (F & HF & Eu). destruct (HCh _ _ HF) as (W' & J1 & _ & (J2 & J3 & J4)). exists W'.
  apply layer_unit in J1.
  destruct (Classical_Prop.classic (lasked (cfg (u_q u)))) as [La|La].
  - destruct (J4 (HR u Hu La) La) as (a & b & R1 & R2 & R3). exists a, b. rewrite Eu. cbn [unit_q u_q u_act u_inc u_n u_W]. split; [exact J1|]. split; [exact R1|]. intros c.
    destruct (R2 c) as (A1 & A2 & A3). destruct (HR u Hu La) as (_ & (P1 & _) & _). split; [intros _; exact (A3 P1)|]. split; [intros [Q|Q]; [contradiction|exact (A1 Q)]|].
    split; [intros [Q|Q]; [contradiction|exact (A2 Q)]|]. intros Q. destruct (R3 Q c 0). auto.
  - rewrite (J3 La) in *. exists (fun _ => 1%R), (fun _ => 0%R). rewrite Eu. cbn [unit_q u_q u_act u_inc u_n u_W]. split; [exact J1|]. split; [apply rescaled_id|]. intros c.
    split; [intros Q; contradiction|]. auto.
Qed.

(** ** C99 *)
(** The call returns; it changes nothing but the weights, and not those of layers it was
    not asked to treat; it succeeds iff it reports no layer, and then every layer it was
    asked to treat has, in the network as it is at the end, the mean and deviation asked
    for; if it reports a layer, the same holds for all layers before that layer.  It refuses
    a training set of less than two samples. *)
Theorem C99_normalized : forall S E cfg t h x, coherent 1%R S -> s_bir (x0 S) = false -> env_ok E -> history 1%R S t h ->
  net_wf (sample_size (x0 S)) x -> NoDup (map u_q (nunits x)) -> weights_fit E x ->
  exists ok ff t' x', lsuv E cfg S t x = Some (ok, ff, t', x') /\
    (exists f g, x' = reweight f g x) /\ map u_q (nunits x') = map u_q (nunits x) /\
    (forall u, In u (nunits x) -> exists W', In (mkU (u_q u) (u_act u) (u_inc u) (u_n u) W') (nunits x') /\
       length W' = length (u_W u) /\ (~ lasked (cfg (u_q u)) -> W' = u_W u)) /\
    (cnt S 0 < 2 -> ok = false /\ ff = None /\ x' = x /\ t' = t) /\
    (2 <= cnt S 0 ->
      (forall b, is_initialized4inference S t' b = None) /\
      match ff with
      | None => ok = true /\ forall u, In u (nunits x') -> lasked (cfg (u_q u)) -> normalized S (cfg (u_q u)) x' u
      | Some q => ok = false /\ In q (map u_q (nunits x)) /\ lasked (cfg q) /\
          forall u, In u (nunits x') -> earlier x (u_q u) q -> lasked (cfg (u_q u)) -> normalized S (cfg (u_q u)) x' u
      end).
Proof. exact norm_main. Qed.
Print Assumptions C99_normalized.

(** ** C100 *)
(** With positive scales and tolerances, statistics over the values before the activations,
    and a try more than there are things to reach, it succeeds; every neuron keeps its
    weights up to a positive factor, and its bias up to that factor and an offset; without
    scaling the factor is 1, without centring the offset is 0. *)
Theorem C100_succeeds : forall S E cfg t h x, coherent 1%R S -> s_bir (x0 S) = false -> env_ok E -> history 1%R S t h ->
  net_wf (sample_size (x0 S)) x -> NoDup (map u_q (nunits x)) -> weights_fit E x -> 2 <= cnt S 0 ->
  (forall u, In u (nunits x) -> lasked (cfg (u_q u)) -> reachable S (cfg (u_q u))) ->
  exists t' x', lsuv E cfg S t x = Some (true, None, t', x') /\
    (forall u, In u (nunits x') -> lasked (cfg (u_q u)) -> normalized S (cfg (u_q u)) x' u) /\
    (forall u, In u (nunits x) -> exists W' a b, In (mkU (u_q u) (u_act u) (u_inc u) (u_n u) W') (nunits x') /\
       rescaled a b (u_n u) (u_inc u) (u_W u) W' /\
       forall c, (lasked (cfg (u_q u)) -> (0 < a c)%R) /\
         (~ lasked (cfg (u_q u)) \/ n_dos (l_n (cfg (u_q u))) = false -> a c = 1%R) /\
         (~ lasked (cfg (u_q u)) \/ n_doc (l_n (cfg (u_q u))) = false -> b c = 0%R) /\
         (n_cw (l_n (cfg (u_q u))) = false -> a c = a 0 /\ b c = b 0)).
Proof. exact reach_main. Qed.
Print Assumptions C100_succeeds.

(** *** Example: the data and the network of C97's example; the hidden layer is to get mean
    0 and deviation 1 per neuron, the output layer as a whole, in one batch of all samples *)
Section Ex.
Context (a b c d e p q r t u : R).
Notation ex_sets := (fit_sets a b c d e p q r t u).
Notation exl_net := (fit_net a b).
Definition ex_set (cw : bool) : nset := mkNS 1 0 (1 / 100) (1 / 100) 3 true true true 0 0 cw true.
Definition ex_cfg (q : lname) : lset := mkLS (ex_set (match q with Some _ => true | None => false end)) 0 1 true.
Definition ex_lenv : lenv := mkLE (fun _ _ _ _ => fit_im) (fun _ => fit_mem) (fun _ => fit_mem) (fun _ => true) (fun q _ => repeat 1%R (match q with Some _ => 4 | None => 3 end)).

Example C99_C100_example : coherent 1%R ex_sets /\ s_bir (x0 ex_sets) = false /\ env_ok ex_lenv /\ history 1%R ex_sets fit_none None /\
  net_wf (sample_size (x0 ex_sets)) exl_net /\ NoDup (map u_q (nunits exl_net)) /\ weights_fit ex_lenv exl_net /\ 2 <= cnt ex_sets 0 /\
  (forall v, In v (nunits exl_net) -> lasked (ex_cfg (u_q v)) /\ reachable ex_sets (ex_cfg (u_q v))).
Proof.
  split; [apply fit_coherent|]. split; [reflexivity|]. split.
  { split; [|split; [|split]]; try (intros; cbn; discriminate); [|reflexivity]. intros q0 i j k. exact (proj1 (fit_e_ok nil)). }
  split; [constructor; intros; unfold is_initialized4inference; cbn [fit_none t_fp TData_Model.t_fp Nat.eqb]; rewrite orb_true_r; reflexivity|].
  split; [unfold net_wf; cbn; repeat split; lia|]. split; [cbn; repeat constructor; cbn; intuition discriminate|].
  split. { intros v rt Hv. cbn in Hv. destruct Hv as [<-|[<-|[]]]; reflexivity. }
  split; [cbn; lia|]. intros v Hv. assert (P : positive (ex_set true) /\ positive (ex_set false)) by (unfold positive; cbn; lra).
  cbn in Hv. destruct Hv as [<-|[<-|[]]]; (split; [split; [left; reflexivity|cbn; lia]|]); (split; [reflexivity|]); (split; [apply P|]); (split; [unfold enough_tries; cbn; lia|]); (split; [cbn; lia|]); cbv; lia.
Qed.
End Ex.
