(** Durations: nntl/utils/chrono.h 46-128 (duration_readable), nntl/utils/tictoc.h (tictoc).

    Simplifications: a duration is a number of ticks, an integer without bounds; the quotient of
    duration_readable() is a real number; of the printed text the number before rounding to three
    places and the unit are modelled. *)
From Coq Require Import Reals ZArith List.
From Verif Require Import Base.
Import ListNotations.
Local Open Scope R_scope.

(** The duration types with a name in chrono.h 70-91; a tick of any other prints "??" *)
Inductive tunit := NS | US | MS | SEC.
(** period_3oom_bigger, 54-62: of milliseconds and seconds it is seconds *)
Definition bigger (u : tunit) : tunit := match u with NS => US | US => MS | MS => SEC | SEC => SEC end.
(** 96-119.  No repeats: 0 divided by 0, or an infinity *)
Definition duration_readable (u : tunit) (d : Z) (repeats : Z) : option (R * tunit) :=
  if (repeats =? 0)%Z then None else
  let t := IZR d / IZR repeats in
  if Rlt_dec t 1000 then Some (t, u)
  else if Rlt_dec t 1000000 then Some (t / 1000, bigger u)
  else if Rlt_dec t 1000000000 then Some (t / 1000000, bigger (bigger u))
  else Some (t / 1000000000, bigger (bigger (bigger u))).

(** tictoc.h 50-52: m_dFirstRun, m_dBestRun, m_dAllRun, m_repeats; [mx]: the largest value of
    duration_t::rep *)
Record tictoc := mkTT { t_first : Z; t_best : Z; t_all : Z; t_n : Z }.
(** 58-63 *)
Definition t_reset (mx : Z) : tictoc := mkTT 0 mx 0 0.
(** 81-86 *)
Definition t_store (dur : Z) (t : tictoc) : tictoc :=
  mkTT (if (t_n t =? 0)%Z then dur else t_first t) (Z.min dur (t_best t)) (t_all t + dur) (t_n t + 1).
(** 88-94: first, best and mean run; [None]: "never run!" *)
Definition t_string (t : tictoc) : option ((R * tunit) * (R * tunit) * (R * tunit)) :=
  if (0 <? t_n t)%Z then
    do a <- duration_readable NS (t_first t) 1;
    do b <- duration_readable NS (t_best t) 1;
    do c <- duration_readable NS (t_all t) (t_n t);
    Some (a, b, c)
  else None.
Inductive top := TStore (dur : Z) | TReset.
Definition t_op (mx : Z) (o : top) (t : tictoc) : tictoc := match o with TStore d => t_store d t | TReset => t_reset mx end.
Definition t_run (mx : Z) (os : list top) : tictoc := fold_left (fun t o => t_op mx o t) os (t_reset mx).
