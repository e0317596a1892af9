(** Properties of the temporary memory: C22, C65. *)
From Verif Require Import Base BaseLemmas Istor_Model Istor_Spec Istor_Proofs.

(** ** C22 *)
(** Whatever the requirements announced (nested announcements included), operations in
    stack order that stay within the announced need never abort nor leave the storage;
    the blocks alive are disjoint and inside of the storage, and the amount in use is
    exactly their total size (so 0 when all are freed). *)
Theorem C22_stack_discipline : forall rs s0 os,
  i_cur s0 = 0 -> lifo (need rs) os [] ->
  exists s bl, exec os (init (announce rs s0)) [] = Ret (s, bl) /\
    ForallOrdPairs disjoint bl /\ Forall (inside (i_size s)) bl /\
    i_cur s = total bl /\
    (bl = [] -> s = init (announce rs s0)).
Proof.
  intros rs s0 os Hc HL. destruct (announced_good rs s0 Hc) as (N & HG & Hle).
  destruct (exec_lifo N os (init (announce rs s0)) [] HG) as (s & sizes & E & HG' & ES).
  { exact (lifo_mono (need rs) N os Hle [] HL). }
  exists s, (blocks_of sizes). split; [exact E|]. split; [apply blocks_of_disjoint|].
  destruct HG as (H1 & H2 & H3 & _), HG' as (G1 & G2 & G3 & G4 & G5).
  split; [apply blocks_of_inside; lia|].
  assert (T : total (blocks_of sizes) = list_sum sizes).
  { clear. induction sizes as [|n rest IH]; [reflexivity|]. cbn [blocks_of total list_sum fold_right]. rewrite IH. reflexivity. }
  split; [lia|]. intros Hb. rewrite Hb in T. cbn [total] in T. destruct s as [sa sb sc], (init (announce rs s0)) as [ta tb tc]. simpl in *. f_equal; lia.
Qed.
Print Assumptions C22_stack_discipline.

Definition ex_reqs : list req := [Plain 3; Nested [Plain 2; Nested [Plain 1] 4] 5; Plain 7].
Definition ex_ops : list op := [Alloc 5; Alloc 4; Alloc 1; Free 9 1; Free 5 4; Alloc 2; Free 5 2; Free 0 5].
Example C22_example :
  need ex_reqs = 10 /\ lifo (need ex_reqs) ex_ops [] /\
  exec (firstn 3 ex_ops) (init (announce ex_reqs istor0)) [] = Ret (mkI 10 10 10, [(9, 1); (5, 4); (0, 5)]) /\
  exec ex_ops (init (announce ex_reqs istor0)) [] = Ret (mkI 10 10 0, []).
Proof. split; [reflexivity|]. split; [cbn; repeat split; lia|]. split; reflexivity. Qed.

(** After any such history: an allocation aborts iff it exceeds what is left, and
    freeing a live block aborts iff it is not the last one. *)
Theorem C22_violations_abort : forall rs s0 os s bl,
  i_cur s0 = 0 -> lifo (need rs) os [] -> exec os (init (announce rs s0)) [] = Ret (s, bl) ->
  (forall n, 0 < n -> (istor_alloc s n = Abort <-> i_min s < total bl + n) /\ istor_alloc s n <> OutOfRange) /\
  (forall p n, In (p, n) bl -> (istor_free s p n = Abort <-> hd_error bl <> Some (p, n)) /\ istor_free s p n <> OutOfRange).
Proof.
  intros rs s0 os s bl Hc HL E. destruct (announced_good rs s0 Hc) as (N & HG & Hle).
  destruct (exec_lifo N os (init (announce rs s0)) [] HG) as (s' & sizes & E' & HG' & ES).
  { exact (lifo_mono (need rs) N os Hle [] HL). }
  cbn [blocks_of] in E'. rewrite E in E'. inversion E'; subst s' bl. clear E'.
  assert (T : total (blocks_of sizes) = list_sum sizes).
  { clear. induction sizes as [|n rest IH]; [reflexivity|]. cbn [blocks_of total list_sum fold_right]. rewrite IH. reflexivity. }
  split.
  - intros n Hn. rewrite T, (alloc_outcome N s sizes n HG' Hn). destruct HG' as (G1 & _). rewrite G1.
    destruct (Nat.leb_spec (n + list_sum sizes) N); split; try discriminate; split; try discriminate; try lia; reflexivity.
  - intros p n Hin. destruct (free_outcome N s sizes p n HG' Hin) as [F1 F2].
    assert (D : {hd_error (blocks_of sizes) = Some (p, n)} + {hd_error (blocks_of sizes) <> Some (p, n)}) by (repeat decide equality).
    change (hd_error (blocks_of sizes)) with (nth_error (blocks_of sizes) 0) in *.
    destruct D as [D|D]; [rewrite (F1 D)|rewrite (F2 D)]; (split; [split; [try discriminate|]|]); try discriminate; try congruence; auto.
Qed.
Print Assumptions C22_violations_abort.

Example C22_abort_example :
  exec (firstn 3 ex_ops) (init (announce ex_reqs istor0)) [] = Ret (mkI 10 10 10, [(9, 1); (5, 4); (0, 5)]) /\
  istor_alloc (mkI 10 10 10) 1 = Abort /\ istor_free (mkI 10 10 10) 5 4 = Abort /\ istor_free (mkI 10 10 10) 9 1 = Ret (mkI 10 10 9).
Proof. repeat split. Qed.

(** ** C65: rounding to cache lines *)
(** two arrays of n elements of szT bytes, the second one starting r elements after the
    first one, which starts at address base *)
Definition separate_lines (base szT n r : nat) : Prop :=
  (base + n * szT - 1) / 64 < (base + r * szT) / 64.

Theorem C65_cache_lines_partial : forall base szT n, 0 < szT -> 0 < n -> Nat.divide 64 base ->
  n <= round_to_cache_line szT n /\ separate_lines base szT n (round_to_cache_line szT n).
Proof.
  intros base szT n Hs Hn [q ->]. split; [apply round_ge; exact Hs|]. unfold separate_lines.
  assert (0 < n * szT) by (apply Nat.mul_pos_pos; assumption).
  replace (q * 64 + n * szT - 1) with (q * 64 + (n * szT - 1)) by lia. rewrite !Nat.div_add_l by lia.
  destruct (round_lines szT n Hs) as [HL _].
  assert ((n * szT - 1) / 64 < round_to_cache_line szT n * szT / 64); [|lia].
  apply Nat.div_lt_upper_bound; lia.
Qed.
Print Assumptions C65_cache_lines_partial.

Example C65_example : round_to_cache_line 8 9 = 16 /\ separate_lines 128 8 9 16 /\ round_to_cache_line 12 3 = 6.
Proof. split; [reflexivity|]. split; [unfold separate_lines; apply Nat.ltb_lt; reflexivity|reflexivity]. Qed.

(** std::vector gives 16-byte alignment only *)
Theorem C65_cache_lines_refuted : exists base szT n,
  Nat.divide 16 base /\ 0 < n /\ ~ separate_lines base szT n (round_to_cache_line szT n).
Proof.
  exists 48, 8, 8. split; [exists 3; reflexivity|]. split; [lia|]. unfold separate_lines. apply Nat.nlt_ge, Nat.leb_le. reflexivity.
Qed.
Print Assumptions C65_cache_lines_refuted.
