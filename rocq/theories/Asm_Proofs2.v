(** Proofs about assembling networks: success, definedness, iteration *)
From Coq Require Import Permutation.
From Verif Require Import Base BaseLemmas Util_Proofs Asm_Model Asm_Spec Asm_Proofs.
Local Open Scope Z_scope.

Lemma base_do : forall id inc s, nth_error (a_objs s) id = Some (65535, 0) -> exists s', base_preinit id inc s = Ok s'.
Proof. intros id inc s H. unfold base_preinit, aget. rewrite H. cbn. eexists. reflexivity. Qed.
Lemma fwd_do : forall id s, nth_error (a_objs s) id = Some (65535, 0) -> exists s', fwd_preinit id s = Ok s'.
Proof. intros id s H. unfold fwd_preinit, aget. rewrite H. cbn. eexists. reflexivity. Qed.

Lemma fresh_split : forall objs a b, all_fresh objs (a ++ b) -> all_fresh objs a /\ all_fresh objs b.
Proof. intros objs a b H. apply Forall_app in H. exact H. Qed.
Lemma fresh_after : forall i w s s' b, good i w s s' -> all_fresh (a_objs s) b -> (forall x, In x i -> In x b -> False) -> all_fresh (a_objs s') b.
Proof.
  intros i w s s' b G F D. unfold all_fresh in *. rewrite Forall_forall in *. intros x Hx.
  rewrite (g_out _ _ _ _ G x); [exact (F x Hx)|]. intro Hi. exact (D x Hi Hx).
Qed.
Lemma nodup_split : forall (A : Type) (a b : list A), NoDup (a ++ b) -> NoDup a /\ NoDup b /\ (forall x, In x a -> In x b -> False).
Proof.
  intros A a b. induction a as [|x a IH]; intro H; cbn in H.
  - split; [constructor|split; [exact H|intros x []]].
  - inversion H as [|y l Hx Hr]; subst. destruct (IH Hr) as (A1 & A2 & A3). split; [|split; [exact A2|]].
    + constructor; [|exact A1]. intro Hi. apply Hx. apply in_app_iff. left. exact Hi.
    + intros y [E|Hy] Hb; [subst y; apply Hx; apply in_app_iff; right; exact Hb|exact (A3 y Hy Hb)].
Qed.


Lemma preinit_do :
  (forall l inc s, NoDup (ids l) -> all_fresh (a_objs s) (ids l) -> pluggable inc l -> 0 <= a_cnt s ->
     a_cnt s + Z.of_nat (length (ids l)) <= 65535 -> 0 < a_cnt s \/ inc = 0 -> exists s', preinit l inc s = Ok s') /\
  (forall ls inc s, NoDup (lids ls) -> all_fresh (a_objs s) (lids ls) -> lpluggable inc ls -> 0 <= a_cnt s ->
     a_cnt s + Z.of_nat (length (lids ls)) <= 65535 -> 0 < a_cnt s \/ inc = 0 -> exists s', preinit_up ls inc s = Ok s') /\
  (forall ps s chk, NoDup (pids ps) -> all_fresh (a_objs s) (pids ps) -> ppluggable ps ->
     Forall (inside (Z.of_nat (length chk))) (ranges ps) -> 0 < a_cnt s ->
     a_cnt s + Z.of_nat (length (pids ps)) <= 65535 -> exists s' chk', preinit_phls ps (s, chk) = Ok (s', chk')).
Proof.
  apply lay_ind3.
  - intros id n inc s Hd Hf Hp Hc Hb Hz. cbn [preinit]. apply base_do. inversion Hf; assumption.
  - intros id ls IH inc s Hd Hf Hp Hc Hb Hz. cbn [preinit ids pluggable length] in *. inversion Hf as [|x l F0 F1]; subst.
    destruct (fwd_do id s F0) as (s1 & E1). rewrite E1. cbn [obnd].
    assert (G1 : good [id] [] s s1) by (apply fwd_ok; [exact E1|exact Hc|lia]).
    pose proof (g_cnt _ _ _ _ G1) as C1. cbn [length] in C1. inversion Hd as [|x l D0 D1]; subst.
    apply (IH inc s1); [exact D1| |exact Hp|lia|lia|left; lia].
    apply (fresh_after [id] [] s s1 _ G1 F1). intros x [E|[]] Hx. subst x. exact (D0 Hx).
  - intros id add ps IH inc s Hd Hf Hp Hc Hb Hz. cbn [preinit ids pluggable length] in *. destruct Hp as (Hi & P1 & P2 & P3).
    inversion Hf as [|x l F0 F1]; subst. inversion Hd as [|x l D0 D1]; subst.
    destruct (base_do id inc s F0) as (s1 & E1). rewrite E1. cbn [obnd].
    destruct (Z.ltb_spec inc 0) as [Hi'|_]; [lia|].
    assert (G1 : good [id] [(id, inc)] s s1) by (apply base_ok; [exact E1|exact Hc|lia|exact Hz]).
    pose proof (g_cnt _ _ _ _ G1) as C1. cbn [length] in C1.
    assert (F1' : all_fresh (a_objs s1) (pids ps)).
    { apply (fresh_after [id] [(id, inc)] s s1 _ G1 F1). intros x [E|[]] Hx. subst x. exact (D0 Hx). }
    destruct (IH s1 (repeat false (Z.to_nat inc)) D1 F1' P3) as (s2 & chk & E2);
      [rewrite repeat_length, Z2Nat.id by exact Hi; exact P1|lia|lia|].
    rewrite E2. cbn [obnd fst snd].
    destruct (proj2 (proj2 preinit_good) ps s1 _ s2 chk E2) as (_ & _ & _ & L2 & K2); [lia|lia|]. rewrite repeat_length in *.
    assert (Ec : forallb (fun c => c) chk = true).
    { apply (covered_check inc (ranges ps) chk); [exact L2| |exact P2]. rewrite L2. intros k Hk. rewrite (K2 k Hk).
      assert (E : nth k (repeat false (Z.to_nat inc)) false = false).
      { apply (repeat_spec (Z.to_nat inc) false). apply nth_In. rewrite repeat_length. exact Hk. }
      rewrite E. split; [intros [A|A]; [discriminate A|exact A]|auto]. }
    rewrite Ec. eexists. reflexivity.
  - intros id k l IH inc s Hd Hf Hp Hc Hb Hz. cbn [preinit ids pluggable length] in *. destruct Hp as (Hk & P1).
    inversion Hf as [|x l' F0 F1]; subst. inversion Hd as [|x l' D0 D1]; subst.
    destruct (base_do id inc s F0) as (s1 & E1). rewrite E1. cbn [obnd].
    destruct (Z.eqb_spec k 0) as [Hk'|_]; [contradiction|].
    assert (G1 : good [id] [(id, inc)] s s1) by (apply base_ok; [exact E1|exact Hc|lia|exact Hz]).
    pose proof (g_cnt _ _ _ _ G1) as C1. cbn [length] in C1.
    apply (IH _ s1); [exact D1| |exact P1|lia|lia|left; lia].
    apply (fresh_after [id] [(id, inc)] s s1 _ G1 F1). intros x [E|[]] Hx. subst x. exact (D0 Hx).
  - intros inc s Hd Hf Hp Hc Hb Hz. eexists. reflexivity.
  - intros l IHl ls IHs inc s Hd Hf Hp Hc Hb Hz. cbn [preinit_up lids lpluggable] in *. destruct Hp as (P1 & P2).
    rewrite app_length in Hb. destruct (nodup_split _ _ _ Hd) as (D1 & D2 & D3). destruct (fresh_split _ _ _ Hf) as (F1 & F2).
    destruct (IHl inc s D1 F1 P1) as (s1 & E1); [exact Hc|lia|exact Hz|]. rewrite E1. cbn [obnd].
    destruct (proj1 preinit_good l inc s s1 E1) as (G1 & _); [exact Hc|lia|exact Hz|].
    pose proof (g_cnt _ _ _ _ G1) as C1.
    assert (Hne : (0 < length (ids l))%nat) by (destruct l; cbn [ids length]; lia).
    apply (IHs _ s1 D2); [|exact P2|lia|lia|left; lia]. exact (fresh_after _ _ _ _ _ G1 F2 D3).
  - intros s chk Hd Hf Hp Hi Hc Hb. eexists. eexists. reflexivity.
  - intros ofs cnt l IHl ps IHp s chk Hd Hf Hp Hi Hc Hb. cbn [preinit_phls pids ppluggable ranges] in *. destruct Hp as (P1 & P2).
    rewrite app_length in Hb. destruct (nodup_split _ _ _ Hd) as (D1 & D2 & D3). destruct (fresh_split _ _ _ Hf) as (F1 & F2).
    inversion Hi as [|x l' I1 I2]; subst. destruct (fill_def _ _ _ I1) as (chk1 & E0). cbn [snd fst]. rewrite E0. cbn [obnd].
    destruct (fill_ok _ _ _ _ E0) as (_ & L1 & _).
    destruct (IHl cnt s D1 F1 P1) as (s1 & E1); [lia|lia|left; exact Hc|]. rewrite E1. cbn [obnd].
    destruct (proj1 preinit_good l cnt s s1 E1) as (G1 & _); [lia|lia|left; exact Hc|].
    pose proof (g_cnt _ _ _ _ G1) as C1.
    apply (IHp s1 chk1 D2); [exact (fresh_after _ _ _ _ _ G1 F2 D3)|exact P2|rewrite L1; exact I2|lia|lia].
Qed.

(** ** No undefined behaviour *)
Lemma base_def : forall id inc s, (id < length (a_objs s))%nat ->
  base_preinit id inc s <> Undef /\ (forall s', base_preinit id inc s = Ok s' -> length (a_objs s') = length (a_objs s)).
Proof.
  intros id inc s H. unfold base_preinit, aget. destruct (nth_error (a_objs s) id) as [o|] eqn:E.
  - cbn [obnd newIndex]. destruct (negb (fst o =? invalid_layer_index) || negb (snd o =? 0)).
    + split; [discriminate|]. intros s' X. discriminate X.
    + split; [discriminate|]. intros s' X. injection X as X. subst s'. cbn [a_objs]. apply upd_length.
  - apply nth_error_None in E. lia.
Qed.
Lemma fwd_def : forall id s, (id < length (a_objs s))%nat ->
  fwd_preinit id s <> Undef /\ (forall s', fwd_preinit id s = Ok s' -> length (a_objs s') = length (a_objs s)).
Proof.
  intros id s H. unfold fwd_preinit, aget. destruct (nth_error (a_objs s) id) as [o|] eqn:E.
  - cbn [obnd newIndex]. destruct (negb (fst o =? invalid_layer_index)).
    + split; [discriminate|]. intros s' X. discriminate X.
    + split; [discriminate|]. intros s' X. injection X as X. subst s'. cbn [a_objs]. apply upd_length.
  - apply nth_error_None in E. lia.
Qed.

Definition dfd (n : nat) (x : outcome asm) : Prop := x <> Undef /\ (forall s', x = Ok s' -> length (a_objs s') = n).
Lemma preinit_def : forall n,
  (forall l inc s, length (a_objs s) = n -> Forall (fun id => (id < n)%nat) (ids l) -> in_bounds inc l -> dfd n (preinit l inc s)) /\
  (forall ls inc s, length (a_objs s) = n -> Forall (fun id => (id < n)%nat) (lids ls) -> lin_bounds inc ls -> dfd n (preinit_up ls inc s)) /\
  (forall ps s chk, length (a_objs s) = n -> Forall (fun id => (id < n)%nat) (pids ps) -> pin_bounds ps ->
     Forall (inside (Z.of_nat (length chk))) (ranges ps) ->
     preinit_phls ps (s, chk) <> Undef /\ (forall sc, preinit_phls ps (s, chk) = Ok sc -> length (a_objs (fst sc)) = n)).
Proof.
  intro n. apply lay_ind3.
  - intros id m inc s Hn Hi Hb. cbn [preinit]. inversion Hi; subst. apply base_def. assumption.
  - intros id ls IH inc s Hn Hi Hb. cbn [preinit]. inversion Hi as [|x l H1 H2]; subst.
    destruct (fwd_def id s H1) as (A & B). destruct (fwd_preinit id s) as [s1| |]; cbn [obnd].
    + apply IH; [apply B; reflexivity|exact H2|exact Hb].
    + split; [discriminate|]. intros s' X. discriminate X.
    + contradiction.
  - intros id add ps IH inc s Hn Hi Hb. cbn [preinit]. inversion Hi as [|x l H1 H2]; subst. destruct Hb as (B1 & B2).
    destruct (base_def id inc s H1) as (A & B). destruct (base_preinit id inc s) as [s1| |]; cbn [obnd].
    + destruct (Z.ltb_spec inc 0) as [Hi'|Hi']; [split; [discriminate|intros s' X; discriminate X]|].
      destruct (IH s1 (repeat false (Z.to_nat inc)) (B s1 eq_refl) H2 B2) as (U & L).
      { rewrite repeat_length, Z2Nat.id by exact Hi'. exact B1. }
      destruct (preinit_phls ps (s1, repeat false (Z.to_nat inc))) as [sc| |]; cbn [obnd].
      * destruct (forallb (fun c => c) (snd sc)); (split; [discriminate|]); intros s' X; [|discriminate X].
        injection X as X. subst s'. apply L. reflexivity.
      * split; [discriminate|]. intros s' X. discriminate X.
      * contradiction.
    + split; [discriminate|]. intros s' X. discriminate X.
    + contradiction.
  - intros id k l IH inc s Hn Hi Hb. cbn [preinit]. inversion Hi as [|x l' H1 H2]; subst. destruct Hb as (B1 & B2).
    destruct (base_def id inc s H1) as (A & B). destruct (base_preinit id inc s) as [s1| |]; cbn [obnd].
    + destruct (Z.eqb_spec k 0) as [Hk|Hk]; [contradiction|]. apply IH; [apply B; reflexivity|exact H2|exact B2].
    + split; [discriminate|]. intros s' X. discriminate X.
    + contradiction.
  - intros inc s Hn Hi Hb. split; [discriminate|]. intros s' X. cbn in X. injection X as X. subst s'. exact Hn.
  - intros l IHl ls IHs inc s Hn Hi Hb. cbn [preinit_up]. cbn [lids] in Hi. apply Forall_app in Hi. destruct Hi as (H1 & H2).
    destruct Hb as (B1 & B2). destruct (IHl inc s Hn H1 B1) as (A & B). destruct (preinit l inc s) as [s1| |]; cbn [obnd].
    + apply IHs; [apply B; reflexivity|exact H2|exact B2].
    + split; [discriminate|]. intros s' X. discriminate X.
    + contradiction.
  - intros s chk Hn Hi Hb Hr. split; [discriminate|]. intros sc X. cbn in X. injection X as X. subst sc. exact Hn.
  - intros ofs cnt l IHl ps IHp s chk Hn Hi Hb Hr. cbn [preinit_phls]. cbn [pids] in Hi. apply Forall_app in Hi. destruct Hi as (H1 & H2).
    destruct Hb as (B1 & B2). cbn [ranges] in Hr. inversion Hr as [|x l' R1 R2]; subst. cbn [snd fst].
    destruct (fill_def _ _ _ R1) as (chk1 & E0). rewrite E0. cbn [obnd]. destruct (fill_ok _ _ _ _ E0) as (_ & L1 & _).
    destruct (IHl cnt s eq_refl H1 B1) as (A & B). destruct (preinit l cnt s) as [s1| |]; cbn [obnd].
    + apply IHp; [apply B; reflexivity|exact H2|exact B2|rewrite L1; exact R2].
    + split; [discriminate|]. intros s' X. discriminate X.
    + contradiction.
Qed.

(** ** Iteration *)
Lemma each_up_fold : forall (St : Type) (f : nat -> St -> St),
  (forall l s, each_up f l s = fold_left (fun a id => f id a) (post l) s) /\
  (forall ls s, each_ups f ls s = fold_left (fun a id => f id a) (lpost ls) s) /\
  (forall ps s, each_upp f ps s = fold_left (fun a id => f id a) (ppost ps) s).
Proof.
  intros St f. apply lay_ind3.
  - reflexivity.
  - intros id ls IH s. cbn [each_up post]. rewrite fold_left_app, IH. reflexivity.
  - intros id add ps IH s. cbn [each_up post]. rewrite fold_left_app, IH. reflexivity.
  - intros id k l IH s. cbn [each_up post]. rewrite fold_left_app, IH. reflexivity.
  - reflexivity.
  - intros l IHl ls IHs s. cbn [each_ups lpost]. rewrite fold_left_app, IHs, IHl. reflexivity.
  - reflexivity.
  - intros ofs cnt l IHl ps IHp s. cbn [each_upp ppost]. rewrite fold_left_app, IHp, IHl. reflexivity.
Qed.
Lemma each_down_fold : forall (St : Type) (f : nat -> St -> St),
  (forall l s, each_down f l s = fold_left (fun a id => f id a) (rev (post l)) s) /\
  (forall ls s, each_downs f ls s = fold_left (fun a id => f id a) (rev (lpost ls)) s) /\
  (forall ps s, each_downp f ps s = fold_left (fun a id => f id a) (rev (ppost ps)) s).
Proof.
  intros St f. apply lay_ind3.
  - reflexivity.
  - intros id ls IH s. cbn [each_down post]. rewrite rev_app_distr, fold_left_app, IH. reflexivity.
  - intros id add ps IH s. cbn [each_down post]. rewrite rev_app_distr, fold_left_app, IH. reflexivity.
  - intros id k l IH s. cbn [each_down post]. rewrite rev_app_distr, fold_left_app, IH. reflexivity.
  - reflexivity.
  - intros l IHl ls IHs s. cbn [each_downs lpost]. rewrite rev_app_distr, fold_left_app, IHs, IHl. reflexivity.
  - reflexivity.
  - intros ofs cnt l IHl ps IHp s. cbn [each_downp ppost]. rewrite rev_app_distr, fold_left_app, IHp, IHl. reflexivity.
Qed.
Lemma post_perm :
  (forall l, Permutation (post l) (ids l)) /\ (forall ls, Permutation (lpost ls) (lids ls)) /\
  (forall ps, Permutation (ppost ps) (pids ps)).
Proof.
  apply lay_ind3.
  - intros id n. apply Permutation_refl.
  - intros id ls IH. cbn [post ids]. rewrite Permutation_app_comm. cbn. constructor. exact IH.
  - intros id add ps IH. cbn [post ids]. rewrite Permutation_app_comm. cbn. constructor. exact IH.
  - intros id k l IH. cbn [post ids]. rewrite Permutation_app_comm. cbn. constructor. exact IH.
  - apply Permutation_refl.
  - intros l IHl ls IHs. cbn [lpost lids]. apply Permutation_app; assumption.
  - apply Permutation_refl.
  - intros ofs cnt l IHl ps IHp. cbn [ppost pids]. apply Permutation_app; assumption.
Qed.

(** ** The constructor *)
Lemma assemble_good : forall ls objs s, assemble ls objs = Ok s -> Z.of_nat (length (lids ls)) <= 65535 ->
  good (lids ls) (lwires 0 ls) (mkA 0 objs) s /\ lpluggable 0 ls.
Proof.
  intros ls objs s H Hb. apply (proj1 (proj2 preinit_good) ls 0 (mkA 0 objs) s H); cbn [a_cnt]; [lia|lia|right; reflexivity].
Qed.
Lemma assemble_indices : forall ls objs s, assemble ls objs = Ok s -> Z.of_nat (length (lids ls)) <= 65535 ->
  a_cnt s = Z.of_nat (length (lids ls)) /\ NoDup (lids ls) /\
  (forall k id, nth_error (lids ls) k = Some id -> exists inc, nth_error (a_objs s) id = Some (Z.of_nat k, inc)) /\
  (forall id, ~ In id (lids ls) -> nth_error (a_objs s) id = nth_error objs id).
Proof.
  intros ls objs s H Hb. destruct (assemble_good ls objs s H Hb) as ([C L X O D W] & _). cbn [a_cnt a_objs] in *.
  split; [lia|]. split; [exact D|]. split; [|exact O].
  intros k id Hk. destruct (X k id Hk) as (o & w & _ & _ & E). exists w. rewrite E. do 2 f_equal.
Qed.
Lemma assemble_wired : forall ls objs s, assemble ls objs = Ok s -> Z.of_nat (length (lids ls)) <= 65535 ->
  forall id inc, In (id, inc) (lwires 0 ls) -> exists i, nth_error (a_objs s) id = Some (i, inc).
Proof.
  intros ls objs s H Hb id inc Hin. destruct (assemble_good ls objs s H Hb) as (G & _). apply (g_wir _ _ _ _ G id inc Hin).
Qed.
Lemma assemble_iff : forall ls objs, sane objs -> Z.of_nat (length (lids ls)) <= 65535 ->
  ((exists s, assemble ls objs = Ok s) <-> NoDup (lids ls) /\ all_fresh objs (lids ls) /\ lpluggable 0 ls).
Proof.
  intros ls objs Hs Hb. split.
  - intros (s & H). destruct (assemble_good ls objs s H Hb) as ([C L X O D W] & P). cbn [a_cnt a_objs] in *.
    split; [exact D|]. split; [|exact P]. apply Forall_forall. intros id Hid. apply In_nth_error in Hid. destruct Hid as (k & Hk).
    destruct (X k id Hk) as ((o1 & o2) & w & E1 & E2 & _). cbn [fst] in E2. subst o1. rewrite E1. do 2 f_equal.
    exact (Hs id _ E1 eq_refl).
  - intros (D & F & P). apply (proj1 (proj2 preinit_do) ls 0 (mkA 0 objs) D F P); cbn [a_cnt]; [lia|lia|right; reflexivity].
Qed.
Lemma assemble_def : forall ls objs, exist_in objs (lids ls) -> lin_bounds 0 ls -> assemble ls objs <> Undef.
Proof.
  intros ls objs He Hb. apply (proj1 (proj2 (preinit_def (length objs))) ls 0 (mkA 0 objs) eq_refl He Hb).
Qed.

Lemma each_up_inner : forall l (St : Type) s (f : nat -> St -> St), exists id inside_ visited,
  ids l = id :: inside_ /\ Permutation visited inside_ /\ each_up f l s = f id (fold_left (fun a id => f id a) visited s).
Proof.
  intros l St s f. destruct l as [id n|id ls|id add ps|id k l]; cbn [ids each_up].
  - exists id, [], []. split; [reflexivity|]. split; [constructor|reflexivity].
  - exists id, (lids ls), (lpost ls). split; [reflexivity|]. split; [apply post_perm|]. rewrite (proj1 (proj2 (each_up_fold St f))). reflexivity.
  - exists id, (pids ps), (ppost ps). split; [reflexivity|]. split; [apply post_perm|]. rewrite (proj2 (proj2 (each_up_fold St f))). reflexivity.
  - exists id, (ids l), (post l). split; [reflexivity|]. split; [apply post_perm|]. rewrite (proj1 (each_up_fold St f)). reflexivity.
Qed.
