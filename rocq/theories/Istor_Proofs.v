From Verif Require Import Base BaseLemmas Istor_Model Istor_Spec.

(** offsets follow from the sizes *)
Fixpoint blocks_of (sizes : list nat) : blocks :=
  match sizes with [] => [] | n :: rest => (list_sum rest, n) :: blocks_of rest end.

Lemma blocks_of_disjoint sizes : ForallOrdPairs disjoint (blocks_of sizes).
Proof.
  assert (K : forall sizes b, In b (blocks_of sizes) -> fst b + snd b <= list_sum sizes).
  { induction sizes0 as [|n rest IH]; intros b Hb; [destruct Hb|]. cbn [blocks_of] in Hb. cbn [list_sum fold_right].
    change (fold_right Nat.add 0 rest) with (list_sum rest). destruct Hb as [<-|Hb]; [cbn [fst snd]; lia|].
    specialize (IH b Hb). lia. }
  induction sizes as [|n rest IH]; cbn [blocks_of]; constructor; [|exact IH].
  apply Forall_forall. intros b Hb. right. cbn [fst snd]. exact (K rest b Hb).
Qed.

Lemma blocks_of_inside N sizes : list_sum sizes <= N -> Forall (inside N) (blocks_of sizes).
Proof.
  induction sizes as [|n rest IH]; intros H; cbn [blocks_of]; constructor; cbn [list_sum fold_right] in H;
    change (fold_right Nat.add 0 rest) with (list_sum rest) in H.
  - unfold inside. cbn [fst snd]. lia.
  - apply IH. lia.
Qed.

(** state of an initialised storage holding blocks of the given sizes *)
Definition good (N : nat) (s : istor) (sizes : list nat) : Prop :=
  i_min s = N /\ N <= i_size s /\ i_cur s = list_sum sizes /\ list_sum sizes <= N /\ Forall (fun n => 0 < n) sizes.

Lemma exec_lifo N os : forall s sizes, good N s sizes -> lifo N os sizes ->
  exists s' sizes', exec os s (blocks_of sizes) = Ret (s', blocks_of sizes') /\ good N s' sizes' /\
    i_size s' = i_size s.
Proof.
  induction os as [|o os IH]; intros s sizes HG HL.
  - exists s, sizes. split; [reflexivity|]. split; [exact HG|reflexivity].
  - pose proof HG as (G1 & G2 & G3 & G4 & G5). destruct o as [n|p n]; cbn [lifo exec] in *.
    + destruct HL as (Hn & Hle & HL). unfold istor_alloc. rewrite G1, G3.
      destruct (Nat.ltb_spec N (n + list_sum sizes)); [lia|]. destruct (Nat.leb_spec (i_size s) (list_sum sizes)); [lia|].
      destruct (IH (mkI (i_size s) N (list_sum sizes + n)) (n :: sizes)) as (s' & sz & E & HG' & ES); [|exact HL|].
      { split; [reflexivity|]. split; [exact G2|]. cbn [i_cur list_sum fold_right]. change (fold_right Nat.add 0 sizes) with (list_sum sizes).
        split; [lia|]. split; [lia|]. constructor; assumption. }
      exists s', sz. split; [exact E|]. split; [exact HG'|exact ES].
    + destruct sizes as [|m rest]; [destruct HL|]. destruct HL as (-> & -> & HL). unfold istor_free. rewrite G3.
      cbn [list_sum fold_right] in *. change (fold_right Nat.add 0 rest) with (list_sum rest) in *.
      inversion G5; subst.
      destruct (Nat.ltb_spec (m + list_sum rest) m); [lia|]. replace (m + list_sum rest - m) with (list_sum rest) by lia.
      destruct (Nat.leb_spec (i_size s) (list_sum rest)); [lia|]. rewrite Nat.eqb_refl.
      destruct (IH (mkI (i_size s) (i_min s) (list_sum rest)) rest) as (s' & sz & E & HG' & ES); [|exact HL|].
      { split; [exact eq_refl|]. cbn [i_size i_cur]. split; [exact G2|]. split; [reflexivity|]. split; [lia|assumption]. }
      exists s', sz. split; [exact E|]. split; [exact HG'|exact ES].
Qed.

(** ** Violations are caught *)
Lemma alloc_outcome N s sizes n : good N s sizes -> 0 < n ->
  istor_alloc s n = if n + list_sum sizes <=? N then Ret (list_sum sizes, mkI (i_size s) (i_min s) (list_sum sizes + n)) else Abort.
Proof.
  intros (G1 & G2 & G3 & G4 & G5) Hn. unfold istor_alloc. rewrite G1, G3.
  destruct (Nat.ltb_spec N (n + list_sum sizes)), (Nat.leb_spec (n + list_sum sizes) N); try lia; [reflexivity|].
  destruct (Nat.leb_spec (i_size s) (list_sum sizes)); [lia|]. reflexivity.
Qed.

(** freeing any block that is alive: accepted iff it is the last one *)
Lemma free_outcome N s sizes p n : good N s sizes -> In (p, n) (blocks_of sizes) ->
  (nth_error (blocks_of sizes) 0 = Some (p, n) -> istor_free s p n = Ret (mkI (i_size s) (i_min s) (list_sum (tl sizes)))) /\
  (nth_error (blocks_of sizes) 0 <> Some (p, n) -> istor_free s p n = Abort).
Proof.
  intros (G1 & G2 & G3 & G4 & G5) Hin. unfold istor_free. rewrite G3. destruct sizes as [|m rest]; [destruct Hin|].
  cbn [blocks_of nth_error tl] in *. cbn [list_sum fold_right] in *. change (fold_right Nat.add 0 rest) with (list_sum rest) in *.
  inversion G5; subst. split.
  - intros E. inversion E; subst. destruct (Nat.ltb_spec (n + list_sum rest) n); [lia|].
    replace (n + list_sum rest - n) with (list_sum rest) by lia.
    destruct (Nat.leb_spec (i_size s) (list_sum rest)); [lia|]. rewrite Nat.eqb_refl. reflexivity.
  - intros Hne. destruct Hin as [E|Hin]; [congruence|].
    assert (K : forall sizes b, In b (blocks_of sizes) -> Forall (fun n => 0 < n) sizes -> fst b + snd b <= list_sum sizes /\ 0 < snd b).
    { clear. induction sizes as [|k rest IH]; intros b Hb HF; [destruct Hb|]. cbn [blocks_of] in Hb. cbn [list_sum fold_right].
      change (fold_right Nat.add 0 rest) with (list_sum rest). inversion HF; subst. destruct Hb as [<-|Hb]; [cbn [fst snd]; lia|].
      destruct (IH b Hb H2). lia. }
    destruct (K rest (p, n) Hin H2) as [K1 K2]. cbn [fst snd] in *.
    destruct (Nat.ltb_spec (m + list_sum rest) n); [lia|].
    destruct (Nat.leb_spec (i_size s) (m + list_sum rest - n)); [lia|].
    destruct (Nat.eqb_spec p (m + list_sum rest - n)); [lia|]. reflexivity.
Qed.

(** ** Announcements *)
Fixpoint rsize (r : req) : nat := match r with Plain _ => 1 | Nested l _ => S (fold_right (fun r m => rsize r + m) 0 l) end.

Lemma announce1_spec r : forall s, announce1 r s = mkI (i_size s) (Nat.max (i_min s) (need1 r)) (i_cur s).
Proof.
  assert (K : forall k r, rsize r <= k -> forall s, announce1 r s = mkI (i_size s) (Nat.max (i_min s) (need1 r)) (i_cur s)).
  { induction k as [|k IH]; intros r0 Hk s; [destruct r0; cbn [rsize] in Hk; lia|].
    destruct r0 as [n|inner arg]; [reflexivity|]. cbn [announce1 need1 preinit_push].
    assert (G : forall l s, (forall r, In r l -> rsize r <= k) ->
      fold_left (fun s r => announce1 r s) l s = mkI (i_size s) (Nat.max (i_min s) (fold_right (fun r m => Nat.max (need1 r) m) 0 l)) (i_cur s)).
    { induction l as [|r1 l IHl]; intros s1 Hl; cbn [fold_left fold_right].
      - rewrite Nat.max_0_r. destruct s1; reflexivity.
      - rewrite IH by (apply Hl; left; reflexivity). rewrite IHl by (intros; apply Hl; right; assumption).
        cbn [i_size i_min i_cur]. f_equal. lia. }
    rewrite G; [reflexivity|]. intros r1 Hr1. cbn [rsize] in Hk.
    assert (rsize r1 <= fold_right (fun r m => rsize r + m) 0 inner).
    { clear -Hr1. induction inner as [|r0 l IHl]; [destruct Hr1|]. cbn [fold_right]. destruct Hr1 as [->|H]; [lia|]. specialize (IHl H). lia. }
    lia. }
  intros s. exact (K (rsize r) r (le_n _) s).
Qed.

Lemma announce_spec rs : forall s, announce rs s = mkI (i_size s) (Nat.max (i_min s) (need rs)) (i_cur s).
Proof.
  unfold announce, need. induction rs as [|r rs IH]; intros s; cbn [fold_left fold_right].
  - rewrite Nat.max_0_r. destruct s; reflexivity.
  - rewrite IH, announce1_spec. cbn [i_size i_min i_cur]. f_equal. lia.
Qed.

(** everything announced, on an object in whatever state with no blocks alive *)
Lemma announced_good rs s : i_cur s = 0 -> exists N, good N (init (announce rs s)) [] /\ need rs <= N.
Proof.
  intros Hc. rewrite announce_spec. exists (Nat.max (i_min s) (need rs)). split; [|lia].
  unfold init, good. cbn [i_min i_size i_cur list_sum fold_right].
  destruct (Nat.ltb_spec (i_size s) (Nat.max (i_min s) (need rs))); repeat split; try lia; constructor.
Qed.

Lemma lifo_mono N M os : N <= M -> forall sizes, lifo N os sizes -> lifo M os sizes.
Proof.
  intros H. induction os as [|[n|p n] os IH]; intros sizes HL; cbn [lifo] in *; [exact I| |].
  - destruct HL as (? & ? & ?). split; [assumption|]. split; [lia|]. apply IH. assumption.
  - destruct sizes; [exact HL|]. destruct HL as (? & ? & ?). auto.
Qed.

(** ** Rounding *)
Lemma round_ge szT n : 0 < szT -> n <= round_to_cache_line szT n.
Proof.
  intros Hs. unfold round_to_cache_line. apply Nat.div_le_lower_bound; [lia|].
  set (L := (n * szT + (64 - 1)) / 64). assert (n * szT <= L * 64).
  { unfold L. pose proof (Nat.div_mod (n * szT + (64 - 1)) 64). pose proof (Nat.mod_upper_bound (n * szT + (64 - 1)) 64). lia. }
  lia.
Qed.
Lemma round_lines szT n : 0 < szT -> n * szT + 63 < 64 * S (round_to_cache_line szT n * szT / 64) /\
  (Nat.divide szT 64 -> Nat.divide 64 (round_to_cache_line szT n * szT)).
Proof.
  intros Hs. unfold round_to_cache_line. set (L := (n * szT + (64 - 1)) / 64).
  assert (HL : n * szT + 63 < 64 * S L).
  { unfold L. pose proof (Nat.div_mod (n * szT + (64 - 1)) 64). pose proof (Nat.mod_upper_bound (n * szT + (64 - 1)) 64). lia. }
  set (r := (L * 64 + (szT - 1)) / szT).
  assert (Hr : L * 64 <= r * szT).
  { unfold r. pose proof (Nat.div_mod (L * 64 + (szT - 1)) szT). pose proof (Nat.mod_upper_bound (L * 64 + (szT - 1)) szT).
    rewrite (Nat.mul_comm _ szT). lia. }
  split.
  - assert (L <= r * szT / 64) by (apply Nat.div_le_lower_bound; lia). lia.
  - intros [k Hk]. unfold r. replace (L * 64 + (szT - 1)) with ((L * k) * szT + (szT - 1)) by (rewrite Hk; ring).
    rewrite Nat.div_add_l by lia. rewrite (Nat.div_small (szT - 1)) by lia. rewrite Nat.add_0_r.
    exists L. rewrite Hk. ring.
Qed.
