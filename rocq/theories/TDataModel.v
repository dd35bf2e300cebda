(** Model of time stamps as doubles (ecl_time timestamp_base.cpp, timestamp_base.hpp) and of TimeData (time_data.cpp).
    [rd] is the rounding of double arithmetic: [AngleModel.rnd] for IEEE binary64, or the identity for exact arithmetic. *)
From Coq Require Import List ZArith.
From Verif Require Import RBase TimeModel AngleModel.
Import ListNotations.
Open Scope R_scope.

(** static_cast<long> of a double: undefined outside the range. *)
Definition cast_long (x : R) : fres Z :=
  let z := rtrunc x in
  if (andb (-9223372036854775808 <=? z) (z <=? 9223372036854775807))%Z then FOk z else FUB.
(** TimeStampBase(double), timestamp_base.cpp:27-31, and stamp(double), timestamp_base.cpp:46-50 (time_t is long). *)
Definition ts_of_double (rd : R -> R) (x : R) : fres ts :=
  s <-- cast_long x ;;
  n <-- cast_long (rd (rd (x - rd (IZR s)) * 1000000000)) ;;
  FOk (TS s n).
Definition stamp_double (rd : R -> R) (this : ts) (x : R) : fres ts :=
  s <-- cast_long x ;;
  n <-- cast_long (rd (rd (x - rd (IZR s)) * 1000000000)) ;;
  FOk (TS s n).
(** operator double(), timestamp_base.hpp:134. *)
Definition double_of_ts (rd : R -> R) (t : ts) : R := rd (rd (IZR (sec t)) + rd (rd (IZR (nsec t)) * rd (1 / 1000000000))).

(** * TimeData, time_data.hpp:49-53, src/lib/time_data.cpp:26-52 *)

(** The collection; push_back and clear. Loops count with unsigned int: fewer than 2^32 elements. *)
Definition td_push (l : list ts) (d : ts) : list ts := l ++ [d].
Definition td_clear (l : list ts) : list ts := [].
(** Dividing by the size of an empty collection gives 0/0, not a number; the conversion to long is undefined. *)
Definition td_of_quotient (rd : R -> R) (sum : R) (n : nat) (f : R -> R) : fres ts :=
  match n with O => FUB | _ => ts_of_double rd (f (rd (sum / IZR (Z.of_nat n)))) end.
Definition td_average (rd : R -> R) (l : list ts) : fres ts :=
  let sum := fold_left (fun a d => rd (a + double_of_ts rd d)) l 0 in
  td_of_quotient rd sum (length l) (fun x => x).
Definition td_squares (rd : R -> R) (avg : ts) (l : list ts) : R :=
  fold_left (fun a d => rd (a + rd (rd (double_of_ts rd d - double_of_ts rd avg) * rd (double_of_ts rd d - double_of_ts rd avg)))) l 0.
Definition td_std_dev (rd : R -> R) (l : list ts) : fres ts :=
  avg <-- td_average rd l ;; td_of_quotient rd (td_squares rd avg l) (length l) (fun x => rd (sqrt x)).
Definition td_variance (rd : R -> R) (l : list ts) : fres ts :=
  avg <-- td_average rd l ;; td_of_quotient rd (td_squares rd avg l) (length l) (fun x => x).
