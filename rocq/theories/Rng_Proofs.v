(** Proofs about the random vectors. *)
From Coq Require Import Permutation Reals Lra.
From Verif Require Import Base BaseLemmas Workers_Model Workers_Spec Workers_Proofs Kern_Model Kern_Spec
  Kern_Proofs Rng_Model Rng_Spec.
Local Open Scope nat_scope.

Section Engine.
Context {E D : Type} (d0 : D) (draw : E * D -> R * (E * D)).
Notation after := (after draw). Notation number := (number d0 draw).

Lemma igen_ok : forall f ptr rngs r s, bget rngs (r_tid r) = Some s ->
  igen d0 draw f ptr rngs r =
    Some (fst (after (r_cnt r) (s, d0)),
          flat_map (fun k => [(ptr + r_ofs r + k, f (number s k))]) (seq 0 (r_cnt r))).
Proof.
  intros f ptr rngs r s Hs. unfold igen. rewrite Hs. cbn [obind].
  rewrite (ptr_loop_closed' (r_cnt r) _ _ 1 _ (s, d0) (fun k => after k (s, d0))
    (fun k => [(ptr + r_ofs r + k, f (number s k))])); [reflexivity|reflexivity|lia|lia|].
  intros i Hi. rewrite Nat.mul_1_r. unfold Rng_Spec.number.
  replace (i + 1) with (S i) by lia. cbn [Rng_Spec.after].
  destruct (draw (after i (s, d0))) as [x sd']; reflexivity.
Qed.

Lemma in_igen : forall (s : E) (f : R -> R) (base n a : nat) (v : R),
  In (a, v) (flat_map (fun k => [(base + k, f (number s k))]) (seq 0 n)) <->
  exists k, k < n /\ a = base + k /\ v = f (number s k).
Proof.
  intros s f base n a v. rewrite in_flat_map. split.
  - intros [k [Hk [H|[]]]]. apply in_seq in Hk. injection H as <- <-. exists k. split; [lia|auto].
  - intros [k [Hk [-> ->]]]. exists k. split; [apply in_seq; lia|left; reflexivity].
Qed.

(** The range an element belongs to. *)
Definition has (i : nat) (p : prange) : bool := (r_ofs p <=? i) && (i <? r_ofs p + r_cnt p).
Definition own (parts : list prange) (i : nat) : prange :=
  match find (has i) parts with Some p => p | None => mkR 0 0 0 end.
Definition use_of (parts : list prange) (i : nat) : nat * nat :=
  (r_tid (own parts i), i - r_ofs (own parts i)).

Section Parts.
Context (parts : list prange) (n : nat) (rngs : list E).
Context (HT : tiles parts n) (HN : NoDup (map r_tid parts)).
Context (HL : forall p, In p parts -> r_tid p < length rngs).

Lemma own_spec : forall i, i < n -> In (own parts i) parts /\ In i (idxs (own parts i)).
Proof.
  intros i Hi. unfold own. destruct (find (has i) parts) as [p|] eqn:F.
  - apply find_some in F as [F1 F2]. split; [exact F1|]. apply in_idxs. unfold has in F2. lia.
  - exfalso. destruct (tiles_cover _ _ _ HT Hi) as [p [P1 P2]].
    pose proof (find_none _ _ F p P1) as Q. apply in_idxs in P2. unfold has in Q. lia.
Qed.

Lemma own_unique : forall p i, In p parts -> In i (idxs p) -> own parts i = p.
Proof.
  intros p i Hp Hi. pose proof (tiles_in _ _ _ _ HT Hp Hi) as Hn.
  destruct (own_spec i Hn) as [O1 O2].
  apply In_nth_error in O1 as [a A]. apply In_nth_error in Hp as [b B].
  destruct (Nat.eq_dec a b) as [->|N]; [congruence|].
  exfalso. refine (NoDup_flat_map_disjoint idxs parts a b _ _ i _ A B N O2 Hi).
  eapply Permutation_NoDup; [symmetry; apply (proj1 HT)|apply seq_NoDup].
Qed.

Lemma tid_inj : forall p q, In p parts -> In q parts -> r_tid p = r_tid q -> p = q.
Proof.
  intros p q Hp Hq He. clear HT HL. induction parts as [|x l IH]; [destruct Hp|].
  cbn in HN. inversion HN as [|? ? N1 N2]; subst.
  destruct Hp as [->|Hp], Hq as [->|Hq]; [reflexivity| | |apply IH; assumption].
  - exfalso; apply N1. rewrite He. apply in_map; exact Hq.
  - exfalso; apply N1. rewrite <- He. apply in_map; exact Hp.
Qed.

Lemma use_fresh : fresh_numbers (use_of parts) n rngs.
Proof.
  split; [|split].
  - intros i Hi. apply HL. apply own_spec; exact Hi.
  - intros i j Hi Hj H. unfold use_of in H. injection H as H1 H2.
    destruct (own_spec i Hi) as [A1 A2]. destruct (own_spec j Hj) as [B1 B2].
    pose proof (tid_inj _ _ A1 B1 H1) as Q. apply in_idxs in A2, B2. rewrite Q in *. lia.
  - intros i k Hi Hk. cbn [use_of fst snd] in *. unfold use_of in Hk; cbn in Hk.
    destruct (own_spec i Hi) as [A1 A2]. pose proof A2 as A3. apply in_idxs in A3.
    assert (K : In (r_ofs (own parts i) + k) (idxs (own parts i))) by (apply in_idxs; lia).
    exists (r_ofs (own parts i) + k). split; [exact (tiles_in _ _ _ _ HT A1 K)|].
    unfold use_of. cbn [fst]. rewrite (own_unique _ _ A1 K). f_equal. lia.
Qed.

Lemma tid_state : forall p, In p parts -> exists s, bget rngs (r_tid p) = Some s.
Proof.
  intros p Hp. pose proof (HL p Hp) as H. apply nth_error_Some in H.
  unfold bget. destruct (nth_error rngs (r_tid p)) as [s|]; [exists s; reflexivity|contradiction].
Qed.

Lemma igen_computes : forall f ptr d, ptr + n <= length d ->
  computes (par (igen_writes d0 draw f ptr rngs) parts) d
    (filled d0 draw f ptr n rngs (use_of parts) d).
Proof.
  intros f ptr d Hd.
  set (F := fun a => let i := a - ptr in
    option_map (fun s => f (number s (snd (use_of parts i)))) (bget rngs (fst (use_of parts i)))).
  apply (computes_intro _ parts n d F (fun a => ptr <= a < ptr + n) (fun a => a - ptr)); [exact HT| | |].
  - intros p Hp Hc Hb. destruct (tid_state p Hp) as [s Hs].
    exists (flat_map (fun k => [(ptr + r_ofs p + k, f (number s k))]) (seq 0 (r_cnt p))).
    split; [unfold igen_writes; rewrite (igen_ok f ptr rngs p s Hs); reflexivity|].
    split.
    + intros a v Hav. apply in_igen in Hav as [k [K1 [-> ->]]].
      split; [lia|]. split; [lia|]. unfold F. cbv zeta.
      replace (ptr + r_ofs p + k - ptr) with (r_ofs p + k) by lia.
      assert (K : In (r_ofs p + k) (idxs p)) by (apply in_idxs; lia).
      unfold use_of; cbn [fst snd]. rewrite (own_unique p _ Hp K), Hs. cbn [option_map].
      do 3 f_equal. lia.
    + intros a Ha Ho. exists (f (number s (a - ptr - r_ofs p))). apply in_igen.
      exists (a - ptr - r_ofs p). split; [lia|]. split; [lia|reflexivity].
  - intros a Ha. lia.
  - intros d' Hl Hin Hout. split.
    + intros i Hi. destruct (Hin (ptr + i) ltac:(lia)) as [H1 H2].
      unfold F in H1, H2. cbv zeta in H1, H2.
      replace (ptr + i - ptr) with i in H1, H2 by lia. unfold bget in *.
      destruct (nth_error rngs (fst (use_of parts i))) as [s|]; [|cbn in H2; congruence].
      exists s; split; [reflexivity|exact H1].
    + intros a Ha. apply Hout. exact Ha.
Qed.

Lemma taken_part : forall p, In p parts -> taken (use_of parts) n (r_tid p) = r_cnt p.
Proof.
  intros p Hp. unfold taken. rewrite <- (seq_length (r_cnt p) (r_ofs p)).
  apply Permutation_length. apply NoDup_Permutation.
  - apply NoDup_filter, seq_NoDup.
  - apply seq_NoDup.
  - intros i. rewrite filter_In, !in_seq. fold (In i (idxs p)).
    split.
    + intros [Hi Q]. apply Nat.eqb_eq in Q. cbn in Q.
      destruct (own_spec i ltac:(lia)) as [A1 A2].
      pose proof (tid_inj _ _ A1 Hp Q) as T. rewrite T in A2. apply in_idxs in A2. lia.
    + intros Hi. assert (K : In i (idxs p)) by (apply in_idxs; lia).
      pose proof (tiles_in _ _ _ _ HT Hp K). split; [lia|].
      cbn. rewrite (own_unique p i Hp K). apply Nat.eqb_refl.
Qed.

Lemma taken_none : forall t, ~ In t (map r_tid parts) -> taken (use_of parts) n t = 0.
Proof.
  intros t Ht. unfold taken.
  destruct (filter (fun i => fst (use_of parts i) =? t) (seq 0 n)) as [|i l] eqn:F; [reflexivity|].
  exfalso. assert (In i (filter (fun i => fst (use_of parts i) =? t) (seq 0 n))) as H
    by (rewrite F; left; reflexivity).
  apply filter_In in H as [H1 H2]. apply in_seq in H1. apply Nat.eqb_eq in H2.
  apply Ht. rewrite <- H2. apply (in_map r_tid). apply own_spec. lia.
Qed.
End Parts.

Lemma upd_get {A} : forall (l : list A) i v j, i < length l ->
  nth_error (upd l i v) j = if j =? i then Some v else nth_error l j.
Proof.
  induction l as [|x l IH]; intros i v j H; cbn in H; [lia|].
  destruct i, j; cbn; try reflexivity. apply IH; lia.
Qed.

Lemma bset_upd_some {A} : forall (l : list A) i v, i < length l -> bset l i v = Some (upd l i v).
Proof.
  induction l as [|x l IH]; intros i v H; cbn in H; [lia|].
  destruct i; cbn; [reflexivity|]. rewrite IH by lia. reflexivity.
Qed.

Lemma igen_state_ok : forall f ptr rngs parts acc,
  NoDup (map r_tid parts) -> (forall p, In p parts -> r_tid p < length rngs) ->
  length acc = length rngs ->
  exists acc', igen_state d0 draw f ptr rngs parts acc = Some acc' /\ length acc' = length rngs /\
    (forall p s, In p parts -> nth_error rngs (r_tid p) = Some s ->
       nth_error acc' (r_tid p) = Some (fst (after (r_cnt p) (s, d0)))) /\
    (forall t, ~ In t (map r_tid parts) -> nth_error acc' t = nth_error acc t).
Proof.
  intros f ptr rngs; induction parts as [|p parts IH]; intros acc HN HL Hacc.
  - exists acc. split; [reflexivity|]. split; [exact Hacc|]. split; [intros p s []|reflexivity].
  - cbn in HN. inversion HN as [|? ? N1 N2]; subst.
    assert (Hp : r_tid p < length rngs) by (apply HL; left; reflexivity).
    destruct (bget rngs (r_tid p)) as [s|] eqn:Es; [|unfold bget in Es; apply nth_error_None in Es; lia].
    cbn [igen_state]. rewrite (igen_ok f ptr rngs p s Es). cbn [obind].
    rewrite bset_upd_some by lia. cbn [obind].
    destruct (IH (upd acc (r_tid p) (fst (after (r_cnt p) (s, d0))))) as [acc' [A1 [A2 [A3 A4]]]];
      [exact N2|intros q Hq; apply HL; right; exact Hq|rewrite upd_length; exact Hacc|].
    exists acc'. split; [exact A1|]. split; [exact A2|]. split.
    + intros q s' [->|Hq] Hs'; [|apply A3; assumption].
      rewrite A4 by exact N1. rewrite upd_get by lia. rewrite Nat.eqb_refl.
      unfold bget in Es. congruence.
    + intros t Ht. cbn in Ht. rewrite A4 by tauto. rewrite upd_get by lia.
      destruct (Nat.eqb_spec t (r_tid p)) as [->|]; [tauto|reflexivity].
Qed.

Lemma igen_advanced : forall f ptr rngs parts n,
  tiles parts n -> NoDup (map r_tid parts) -> (forall p, In p parts -> r_tid p < length rngs) ->
  exists rngs', igen_state d0 draw f ptr rngs parts rngs = Some rngs' /\
    advanced d0 draw (use_of parts) n rngs rngs'.
Proof.
  intros f ptr rngs parts n HT HN HL.
  destruct (igen_state_ok f ptr rngs parts rngs HN HL eq_refl) as [r' [A1 [A2 [A3 A4]]]].
  exists r'. split; [exact A1|]. split; [exact A2|]. intros t s Hs.
  destruct (in_dec Nat.eq_dec t (map r_tid parts)) as [I|I].
  - apply in_map_iff in I as [p [<- Hp]]. erewrite taken_part; [|eassumption|eassumption|eassumption|exact Hp].
    apply A3; assumption.
  - erewrite taken_none; [|eassumption|eassumption|exact I]. rewrite A4 by exact I. exact Hs.
Qed.
End Engine.

(** ** The ranges of run() have distinct thread numbers *)
Lemma filter_map_nodup {A B} (g : A -> B) (h : A -> bool) : forall l,
  NoDup (map g l) -> NoDup (map g (filter h l)).
Proof.
  induction l as [|x l IH]; intros H; cbn; [constructor|]. cbn in H.
  inversion H as [|? ? N1 N2]; subst. destruct (h x); [|apply IH; exact N2].
  cbn. constructor; [|apply IH; exact N2].
  intros Q. apply N1. apply in_map_iff in Q as [y [Y1 Y2]]. apply filter_In in Y2 as [Y2 _].
  rewrite <- Y1. apply in_map; exact Y2.
Qed.

Lemma run_tids : forall rs req n, pool rs ->
  NoDup (map r_tid (run_ranges rs req n)) /\
  (forall p, In p (run_ranges rs req n) -> r_tid p < length rs + 1).
Proof.
  intros rs req n HP. unfold run_ranges. destruct (Nat.leb_spec n 1) as [H|H].
  - cbn. split; [constructor; [intros []|constructor]|]. intros p [<-|[]]. cbn. lia.
  - destruct (partition n req rs) as [[w rs'] ofs] eqn:Ep.
    destruct (partition_facts _ _ _ _ _ _ H Ep) as [_ [L1 [L2 _]]].
    unfold pool in HP. rewrite map_app. cbn [map main_range r_tid].
    assert (K : NoDup (map r_tid rs')) by (rewrite L2, HP; apply seq_NoDup).
    assert (I : forall p, In p rs' -> 1 <= r_tid p < 1 + length rs).
    { intros p Hp. apply (in_map r_tid) in Hp. rewrite L2, HP in Hp. apply in_seq in Hp. exact Hp. }
    split.
    + apply (Permutation_NoDup (Permutation_cons_append _ 0)). constructor.
      * intros Q. apply in_map_iff in Q as [p [P1 P2]]. apply filter_In in P2 as [P2 _].
        apply I in P2. lia.
      * apply filter_map_nodup; exact K.
    + intros p Hp. apply in_app_iff in Hp as [Hp|[<-|[]]].
      * apply filter_In in Hp as [Hp _]. apply I in Hp. lia.
      * cbn; lia.
Qed.

Lemma mt_parts_ok : forall rs bnd n, pool rs -> 0 < n ->
  tiles (mt_parts rs bnd n) n /\ NoDup (map r_tid (mt_parts rs bnd n)) /\
  (forall p, In p (mt_parts rs bnd n) -> r_tid p < length rs + 1).
Proof.
  intros rs bnd n HP Hn. unfold mt_parts. destruct (n <? bnd).
  - split; [apply whole_tiles; exact Hn|]. cbn. split; [constructor; [intros []|constructor]|].
    intros p [<-|[]]. cbn; lia.
  - split; [apply run_ranges_tiles; exact Hn|]. apply run_tids; exact HP.
Qed.

Lemma mt_parts_0 : forall rs bnd, mt_parts rs bnd 0 = [mkR 0 0 0].
Proof. intros rs bnd. unfold mt_parts. destruct (0 <? bnd); reflexivity. Qed.

Lemma interleaving_empty {X} : forall ws : list X, interleaving [[]] ws -> ws = [].
Proof.
  intros ws H. inversion H as [|ts i x t ws' Hi _]; subst; [reflexivity|].
  destruct i as [|[|i]]; discriminate Hi.
Qed.

Section Main.
Context {E D : Type} (d0 : D) (draw : E * D -> R * (E * D)).

Lemma mt_ok : forall f ptr n rs bnd (rngs : list E), pool rs -> length rngs = length rs + 1 ->
  exists use, fresh_numbers use n rngs /\
    (forall d, ptr + n <= length d ->
       computes (mt_call d0 draw f ptr n rs bnd rngs) d (filled d0 draw f ptr n rngs use d)) /\
    (exists rngs', mt_state d0 draw f ptr n rs bnd rngs = Some rngs' /\
       advanced d0 draw use n rngs rngs').
Proof.
  intros f ptr n rs bnd rngs HP HL. exists (use_of (mt_parts rs bnd n)).
  destruct n as [|n].
  - split; [split; [|split]; intros; lia|]. split.
    + intros d Hd. unfold mt_call. rewrite mt_parts_0. cbn [par].
      destruct (bget rngs 0) as [s|] eqn:Es; [|unfold bget in Es; apply nth_error_None in Es; lia].
      unfold igen_writes. rewrite (igen_ok d0 draw f ptr rngs (mkR 0 0 0) s Es). cbn [obind r_cnt seq flat_map].
      exists [[]]. split; [reflexivity|]. split.
      * intros i j ti tj a v v' N Hi Hj Ha.
        destruct i as [|[|i]]; try discriminate Hi. injection Hi as <-. destruct Ha.
      * intros ws Hw. apply interleaving_empty in Hw as ->. exists d.
        split; [reflexivity|]. split; [reflexivity|]. split; [intros i Hi; lia|reflexivity].
    + unfold mt_state. rewrite mt_parts_0.
      destruct (igen_state_ok d0 draw f ptr rngs [mkR 0 0 0] rngs) as [r' [A1 [A2 [A3 A4]]]];
        [cbn; constructor; [intros []|constructor]|intros p [<-|[]]; cbn; lia|reflexivity|].
      exists r'. split; [exact A1|]. split; [exact A2|]. intros t s Hs.
      unfold taken; cbn. destruct (Nat.eq_dec t 0) as [->|Nt].
      * apply (A3 (mkR 0 0 0)); [left; reflexivity|exact Hs].
      * rewrite A4; [exact Hs|]. cbn. lia.
  - destruct (mt_parts_ok rs bnd (S n) HP ltac:(lia)) as [T [N L]]. rewrite <- HL in L.
    split; [exact (use_fresh _ _ _ T N L)|]. split.
    + intros d Hd. exact (igen_computes d0 draw _ _ _ T L f ptr d Hd).
    + exact (igen_advanced d0 draw f ptr rngs _ _ T N L).
Qed.

Lemma computes_weaken {A} : forall call (d : list A) (P Q : list A -> Prop),
  (forall d', length d' = length d -> P d' -> Q d') -> computes call d P -> computes call d Q.
Proof.
  intros call d P Q H [trs [H1 [H2 H3]]]. exists trs. split; [exact H1|]. split; [exact H2|].
  intros ws Hw. destruct (H3 ws Hw) as [d' [A1 [A2 A3]]]. exists d'. auto.
Qed.

Lemma filled_all_in : forall f ptr n (rngs : list E) use d d' (P : R -> Prop),
  (forall s k, P (f (number d0 draw s k))) ->
  filled d0 draw f ptr n rngs use d d' -> all_in P ptr n d d'.
Proof.
  intros f ptr n rngs use d d' P HP [H1 H2]. split; [|exact H2].
  intros i Hi. destruct (H1 i Hi) as [s [_ S2]]. eexists; split; [exact S2|apply HP].
Qed.

Lemma mt_range : forall f ptr n rs bnd (rngs : list E) (P : R -> Prop) d,
  pool rs -> length rngs = length rs + 1 -> ptr + n <= length d ->
  (forall s k, P (f (number d0 draw s k))) ->
  computes (mt_call d0 draw f ptr n rs bnd rngs) d (all_in P ptr n d).
Proof.
  intros f ptr n rs bnd rngs P d HP HL Hd HP'.
  destruct (mt_ok f ptr n rs bnd rngs HP HL) as [use [_ [H _]]].
  eapply computes_weaken; [|exact (H d Hd)].
  intros d' _ Hf. eapply filled_all_in; eassumption.
Qed.

Lemma st_ok : forall f ptr n (s : E),
  forall d, ptr + n <= length d ->
    computes (st_call d0 draw f ptr n s) d
      (filled d0 draw f ptr n [s] (fun i => (0, i)) d).
Proof.
  intros f ptr n s d Hd. unfold st_call.
  destruct n as [|n].
  - cbn [whole par]. unfold igen_writes. rewrite (igen_ok d0 draw f ptr [s] (mkR 0 0 0) s eq_refl).
    cbn [obind r_cnt seq flat_map].
    exists [[]]. split; [reflexivity|]. split.
    + intros i j ti tj a v v' N Hi Hj Ha.
      destruct i as [|[|i]]; try discriminate Hi. injection Hi as <-. destruct Ha.
    + intros ws Hw. apply interleaving_empty in Hw as ->. exists d.
      split; [reflexivity|]. split; [reflexivity|]. split; [intros i Hi; lia|reflexivity].
  - assert (L : forall p, In p (whole (S n)) -> r_tid p < length [s]) by (intros p [<-|[]]; cbn; lia).
    eapply computes_weaken;
      [|exact (igen_computes d0 draw (whole (S n)) (S n) [s] (whole_tiles (S n) ltac:(lia)) L f ptr d Hd)].
    intros d' _ [H1 H2]. split; [|exact H2]. intros i Hi.
    destruct (H1 i Hi) as [s' [S1 S2]].
    assert (U : use_of (whole (S n)) i = (0, i)).
    { unfold use_of, own, whole. cbn [find]. unfold has. cbn [r_ofs r_cnt].
      replace ((0 <=? i) && (i <? 0 + S n)) with true by lia. cbn [r_tid r_ofs]. f_equal. lia. }
    rewrite U in S1, S2. exists s'. split; assumption.
Qed.

Lemma st_range : forall f ptr n (s : E) (P : R -> Prop) d, ptr + n <= length d ->
  (forall s k, P (f (number d0 draw s k))) ->
  computes (st_call d0 draw f ptr n s) d (all_in P ptr n d).
Proof.
  intros f ptr n s P d Hd HP. eapply computes_weaken; [|exact (st_ok f ptr n s d Hd)].
  intros d' _ Hf. eapply filled_all_in; eassumption.
Qed.
End Main.

(** ** Elements in range *)
Local Open Scope R_scope.
Lemma el_sym_in : forall a u, 0 <= a -> 0 <= u <= 1 -> - a <= el_sym a u <= a.
Proof. intros a u Ha Hu. unfold el_sym, el_span. nra. Qed.
Lemma el_between_in : forall neg pos u, neg <= pos -> 0 <= u <= 1 -> neg <= el_between neg pos u <= pos.
Proof. intros neg pos u Ha Hu. unfold el_between, el_span. nra. Qed.
Lemma el_gtz_in : forall a u, 0 <= a -> 0 <= u <= 1 -> 0 <= el_gtz a u <= a.
Proof. intros a u Ha Hu. unfold el_gtz. nra. Qed.
Lemma el_bern_in : forall p pos neg u, el_bern p pos neg u = pos \/ el_bern p pos neg u = neg.
Proof. intros p pos neg u. unfold el_bern. destruct (Rlt_dec u p); auto. Qed.
Lemma el_sym1_in : forall a u, 0 <= a -> 0 <= u <= 1 -> - a <= el_sym1 a u <= a.
Proof. intros a u Ha Hu. unfold el_sym1. nra. Qed.

(** ** gen_i *)
Local Open Scope Z_scope.
Lemma gen_i_af_ok : forall irx n, (forall lo hi, lo <= hi -> lo <= irx lo hi <= hi) ->
  1 <= n <= 2 ^ 31 -> 0 <= gen_i_af irx n < n.
Proof.
  intros irx n H Hn. unfold gen_i_af.
  assert (Q : int32 (n - 1) = n - 1).
  { unfold int32. rewrite Z.mod_small; lia. }
  rewrite Q. specialize (H 0 (n - 1) ltac:(lia)). lia.
Qed.

Lemma gen_i_cstd_ok : forall rnd n, 0 <= rnd -> 1 <= n -> 0 <= gen_i_cstd rnd n < n.
Proof. intros rnd n Hr Hn. unfold gen_i_cstd. apply Z.rem_bound_pos; lia. Qed.

(** ** Seeding *)
Local Open Scope nat_scope.
Section Seed.
Context {E : Type} (initA : Z -> nat -> E).

Lemma seed_parts_ok : forall s parts rngs, (forall p, In p parts -> r_tid p < length rngs) ->
  exists r', seed_parts initA s parts rngs = Some r' /\ length r' = length rngs /\
    forall t, nth_error r' t = if in_dec Nat.eq_dec t (map r_tid parts)
                               then Some (initA s t) else nth_error rngs t.
Proof.
  intros s; induction parts as [|p parts IH]; intros rngs HL.
  - exists rngs. split; [reflexivity|]. split; [reflexivity|]. reflexivity.
  - pose proof (HL p (or_introl eq_refl)) as Hp.
    cbn [seed_parts]. rewrite bset_upd_some by exact Hp. cbn [obind].
    destruct (IH (upd rngs (r_tid p) (initA s (r_tid p)))) as [r' [A1 [A2 A3]]].
    { intros q Hq. rewrite upd_length. apply HL; right; exact Hq. }
    exists r'. split; [exact A1|]. rewrite upd_length in A2. split; [exact A2|].
    intros t. rewrite A3, upd_get by exact Hp. cbn [map].
    destruct (in_dec Nat.eq_dec t (map r_tid parts)) as [I|I];
      destruct (in_dec Nat.eq_dec t (r_tid p :: map r_tid parts)) as [J|J];
      cbn in J; try tauto; destruct (Nat.eqb_spec t (r_tid p)) as [->|N]; try reflexivity;
      exfalso; tauto || (destruct J as [J|J]; [congruence|contradiction]).
Qed.

Lemma run_all_tids : forall rs, pool rs ->
  forall t, t < length rs + 1 -> In t (map r_tid (run_ranges rs 0 (length rs + 1))).
Proof.
  intros rs HP t Ht. unfold run_ranges. destruct (Nat.leb_spec (length rs + 1) 1) as [H|H].
  - cbn. left. lia.
  - destruct (partition (length rs + 1) 0 rs) as [[w rs'] ofs] eqn:Ep.
    destruct (partition_facts _ _ _ _ _ _ H Ep) as [W [L1 [L2 [_ [_ [_ HC]]]]]].
    rewrite map_app. cbn [map main_range r_tid]. apply in_app_iff.
    destruct (Nat.eq_dec t 0) as [->|N]; [right; left; reflexivity|left].
    assert (WW : w = length rs).
    { rewrite W. unfold working_cnt. change (use_n_threads (length rs) 0) with (length rs). cbv zeta.
      destruct (Nat.ltb_spec (length rs) (length rs + 1)); lia. }
    unfold pool in HP.
    assert (I : In t (map r_tid rs')) by (rewrite L2, HP; apply in_seq; lia).
    apply in_map_iff in I as [p [P1 P2]]. apply in_map_iff. exists p. split; [exact P1|].
    apply filter_In. split; [exact P2|].
    apply In_nth_error in P2 as [k K]. pose proof (HC k p K) as C.
    assert (k < length rs) as Kl by (rewrite <- L1; apply nth_error_Some; congruence).
    replace (w <=? k) with false in C by (symmetry; apply Nat.leb_gt; lia).
    assert (1 <= r_cnt p) as C1.
    { rewrite C, WW. rewrite (Nat.div_same (length rs + 1)) by lia. lia. }
    destruct (Nat.eqb_spec (r_cnt p) 0); [lia|reflexivity].
Qed.

Lemma seed_mt_ok : forall s rs rngs, pool rs -> length rngs = length rs + 1 ->
  seed_mt initA s rs rngs = Some (map (initA s) (seq 0 (length rs + 1))).
Proof.
  intros s rs rngs HP HL. unfold seed_mt.
  destruct (seed_parts_ok s (run_ranges rs 0 (length rs + 1)) rngs) as [r' [A1 [A2 A3]]].
  { intros p Hp. rewrite HL. apply (proj2 (run_tids rs 0 (length rs + 1) HP)). exact Hp. }
  rewrite A1. f_equal.
  assert (forall (l l' : list E), length l = length l' ->
    (forall i, i < length l -> nth_error l i = nth_error l' i) -> l = l') as EXT.
  { induction l as [|x l IH]; intros l' Hl Hi; destruct l' as [|y l']; try discriminate Hl; [reflexivity|].
    pose proof (Hi 0 ltac:(cbn; lia)) as H0. cbn in H0. injection H0 as ->. f_equal. apply IH.
    - cbn in Hl; lia.
    - intros i Hii. exact (Hi (S i) ltac:(cbn; lia)). }
  apply EXT.
  - rewrite A2, HL, map_length, seq_length. reflexivity.
  - intros i Hi. rewrite A2, HL in Hi. rewrite A3.
    destruct (in_dec Nat.eq_dec i (map r_tid (run_ranges rs 0 (length rs + 1)))) as [I|I].
    + rewrite nth_error_map. rewrite (nth_error_nth' _ 0) by (rewrite seq_length; exact Hi).
      rewrite seq_nth by exact Hi. reflexivity.
    + exfalso. apply I. apply run_all_tids; assumption.
Qed.
End Seed.
