(** C142-C143 *)
From Coq Require Import Reals Lra Lia ZArith List.
From Verif Require Import Base Tt_Model Tt_Spec Tt_Proofs.
Import ListNotations.
Local Open Scope R_scope.

(** C142: the printed duration.  Full statement: for every unit, duration and number of repeats the
    text says the duration divided by the repeats.  It does exactly if the number is below the limit
    of its unit ([room]); for nanoseconds there is none. *)
Theorem C142_readable_partial u d n : (0 < n)%Z ->
  exists x, duration_readable u d n = Some x /\ (says x (IZR d / IZR n / per_second u) <-> room u (IZR d / IZR n)) /\
  ((d <= 1000000000000 * n - 1)%Z -> fst x < 1000) /\ ((0 <= d)%Z -> 0 <= fst x).
Proof. exact (readable_iff u d n). Qed.
Print Assumptions C142_readable_partial.
Theorem C142_nanoseconds d n : (0 < n)%Z ->
  exists x, duration_readable NS d n = Some x /\ says x (IZR d / IZR n / 1000000000).
Proof. exact (readable_ns d n). Qed.
Print Assumptions C142_nanoseconds.
(** An hour in seconds is printed as "3.600 s", and twenty minutes in milliseconds as "1.200 s" *)
Theorem C142_readable_refuted :
  (exists x, duration_readable SEC 3600 1 = Some x /\ says x (36 / 10) /\ ~ says x 3600) /\
  (exists x, duration_readable MS 1200000 1 = Some x /\ says x (12 / 10) /\ ~ says x 1200).
Proof. exact readable_wrong. Qed.
Print Assumptions C142_readable_refuted.
Example C142_ex : (0 < 4)%Z /\ duration_readable NS 10000000 4 = Some (10000000 / 4 / 1000000, MS) /\
  room MS (IZR 500000 / 1) /\ ~ room MS (IZR 1000000 / 1).
Proof.
  split; [lia|]. split; [|unfold room; split; lra]. unfold duration_readable. cbn [Z.eqb].
  destruct (Rlt_dec (10000000 / 4) 1000); [lra|]. destruct (Rlt_dec (10000000 / 4) 1000000); [lra|]. destruct (Rlt_dec (10000000 / 4) 1000000000); [reflexivity|lra].
Qed.

(** C143: the stopwatch *)
Theorem C143_stopwatch mx os : (forall d, In (TStore d) os -> (d <= mx)%Z) ->
  (since_reset os [] = [] -> t_string (t_run mx os) = None) /\
  (forall a l, since_reset os [] = a :: l -> exists x y z best, t_string (t_run mx os) = Some (x, y, z) /\
     says x (IZR a / 1000000000) /\ smallest (a :: l) best /\ says y (IZR best / 1000000000) /\
     says z (IZR (sumZ (a :: l)) / IZR (Z.of_nat (S (length l))) / 1000000000)).
Proof. exact (tictoc_ok mx os). Qed.
Print Assumptions C143_stopwatch.
Example C143_ex : (forall d, In (TStore d) [TStore 9; TReset; TStore 7; TStore 3; TStore 5] -> (d <= 9223372036854775807)%Z) /\
  since_reset [TStore 9; TReset; TStore 7; TStore 3; TStore 5] [] = [7; 3; 5]%Z /\ smallest [7; 3; 5]%Z 3 /\
  since_reset [TStore 9; TReset] [] = [].
Proof.
  split; [|split; [reflexivity|split; [|reflexivity]]].
  - intros d H. cbn in H. repeat (destruct H as [H|H]; [try discriminate H; injection H as <-; lia|]). destruct H.
  - split; [cbn; auto|]. intros x H. cbn in H. destruct H as [<-|[<-|[<-|[]]]]; lia.
Qed.
