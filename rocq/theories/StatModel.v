(** Model of ecl_statistics: cumulative_statistics.hpp and the two dimensional covariance ellipses of
    covariance_ellipsoid.cpp. Floats and doubles are exact reals, except in the last part. *)
From Flocq Require Import Core.
From Verif Require Import RBase.
Open Scope R_scope.

(** * Cumulative statistics *)

(** CumulativeStatistics, cumulative_statistics.hpp:91-94. None is a member that was never initialised. *)
Record stats : Type := mk_stats {
  number : R; old_mean : option R; old_var : option R; new_mean : option R; new_var : option R }.

(** Reading a member that was never initialised is undefined. *)
Definition rd (m : option R) : fres R := match m with Some x => FOk x | None => FUB end.

(** Constructor, cumulative_statistics.hpp:43: only the counter is initialised. *)
Definition stats_new : stats := mk_stats 0 None None None None.
(** clear(), cumulative_statistics.hpp:45. *)
Definition stats_clear (s : stats) : stats := mk_stats 0 (old_mean s) (old_var s) (new_mean s) (new_var s).
(** push_back(x), cumulative_statistics.hpp:55-71. *)
Definition stats_push (s : stats) (x : R) : fres stats :=
  let n := number s + 1 in
  if Req_EM_T n 1 then FOk (mk_stats n (Some x) (Some 0) (Some x) (new_var s))
  else
    om <-- rd (old_mean s) ;;
    q <-- fdiv (x - om) n ;;
    let nm := om + q in
    ov <-- rd (old_var s) ;;
    let nv := ov + (x - om) * (x - nm) in
    FOk (mk_stats n (Some nm) (Some nv) (Some nm) (Some nv)).
(** size(), mean() and variance(), cumulative_statistics.hpp:77-89. *)
Definition stats_size (s : stats) : R := number s.
Definition stats_mean (s : stats) : fres R := if Rlt_dec 0 (number s) then rd (new_mean s) else FOk 0.
Definition stats_variance (s : stats) : fres R :=
  if Rlt_dec 1 (number s) then v <-- rd (new_var s) ;; fdiv v (number s - 1) else FOk 0.

(** The calls a user can make. *)
Inductive stats_call : Type := Push (x : R) | Clear.
Fixpoint stats_run (s : stats) (calls : list stats_call) : fres stats :=
  match calls with
  | [] => FOk s
  | Push x :: tl => s' <-- stats_push s x ;; stats_run s' tl
  | Clear :: tl => stats_run (stats_clear s) tl
  end.

(** The counter as a float: number_of_data++ rounded to nearest even with 24 bits (float) or 53 (double),
    cumulative_statistics.hpp:57, 92. *)
Definition float_rnd (x : R) : R := round radix2 (FLT_exp (-149) 24) ZnearestE x.
Definition double_rnd (x : R) : R := round radix2 (FLT_exp (-1074) 53) ZnearestE x.
Fixpoint float_count (rnd : R -> R) (pushes : nat) : R :=
  match pushes with O => 0 | S k => rnd (float_count rnd k + 1) end.

(** * Covariance ellipses *)

(** CovarianceEllipsoid<double,2> and <float,2>, covariance_ellipsoid.hpp:98-181, 319-400: the two lengths and
    the two columns of the matrix of axes. *)
Record ellipse : Type := mk_ellipse { len0 : R; len1 : R; ax0 : R * R; ax1 : R * R }.

(** normalize() of Eigen: divides by the norm if the squared norm is positive. *)
Definition normalize (v : R * R) : fres (R * R) :=
  let '(x, y) := v in
  let z := x * x + y * y in
  if Rlt_dec 0 z then
    s <-- fsqrt z ;; x' <-- fdiv x s ;; y' <-- fdiv y s ;; FOk (x', y')
  else FOk v.

(** The unnormalised axes, covariance_ellipsoid.cpp:163-182 (float version 41-66 alike). *)
Definition raw_axes (a b c d l0 l1 : R) : (R * R) * (R * R) :=
  if Req_EM_T c 0 then
    if Req_EM_T b 0 then
      if Rlt_dec d a then ((1, 0), (0, 1)) else ((0, 1), (1, 0))
    else ((b, l0 * l0 - a), (b, l1 * l1 - a))
  else ((l0 * l0 - d, c), (l1 * l1 - d, c)).
(** compute(M) with M = [a b; c d], covariance_ellipsoid.cpp:142-188. *)
Definition ellipse_compute (a b c d : R) : fres ellipse :=
  tmp <-- fsqrt ((a + d) * (a + d) / 4 - a * d + b * c) ;;
  l0 <-- fsqrt ((a + d) / 2 + tmp) ;;
  l1 <-- fsqrt ((a + d) / 2 - tmp) ;;
  let '(v0, v1) := raw_axes a b c d l0 l1 in
  n0 <-- normalize v0 ;;
  n1 <-- normalize v1 ;;
  FOk (mk_ellipse l0 l1 n0 n1).
(** rotation(), covariance_ellipsoid.cpp:190-192. *)
Definition ellipse_rotation (e : ellipse) : R := atan2 (snd (ax0 e)) (fst (ax0 e)).
(** tan, which has no value at odd multiples of pi/2 (no double is one of them). *)
Definition ftan (x : R) : fres R := fdiv (sin x) (cos x).
(** intercepts(), covariance_ellipsoid.cpp:194-225. *)
Definition ellipse_intercepts (e : ellipse) : fres (R * R) :=
  let angle := ellipse_rotation e in
  q <-- fdiv (len0 e) (len1 e) ;;
  ta <-- ftan angle ;;
  let t := atan2 (- q * ta) 1 in
  let i0 := Rabs (len0 e * cos t * cos angle - len1 e * sin t * sin angle) in
  let t' := atan2 q ta in
  let i1 := Rabs (len0 e * cos t' * sin angle + len1 e * sin t' * sin angle) in
  FOk (i0, i1).

(** * Covariance ellipses in doubles, bit by bit (the standard library's specification of IEEE 754) *)
From Coq Require Import SpecFloat.
Definition f64 (m : positive) (e : Z) : spec_float := binary_normalize 53 1024 (Zpos m) e false.
Definition ad := SFadd 53 1024.
Definition sb := SFsub 53 1024.
Definition ml := SFmul 53 1024.
Definition dv := SFdiv 53 1024.
Definition sq := SFsqrt 53 1024.
(** Eigen's normalize() as called at covariance_ellipsoid.cpp:186-187: a vector whose rounded squared norm is zero stays as it is. *)
Definition normalize_bits (v : spec_float * spec_float) : spec_float * spec_float :=
  let '(x, y) := v in
  let z := ad (ml x x) (ml y y) in
  if SFltb (S754_zero false) z then let n := sq z in (dv x n, dv y n) else v.
(** c != 0 on doubles. *)
Definition nonzero (x : spec_float) : bool := negb (SFeqb x (S754_zero false)).
(** The axes that compute(M) finds, covariance_ellipsoid.cpp:149-187; every operation is rounded. *)
Definition axes_bits (a b c d : spec_float) : (spec_float * spec_float) * (spec_float * spec_float) :=
  let two := f64 2 0 in
  let four := f64 4 0 in
  let zero := S754_zero false in
  let one := f64 1 0 in
  let tmp := sq (ad (sb (dv (ml (ad a d) (ad a d)) four) (ml a d)) (ml b c)) in
  let l0 := sq (ad (dv (ad a d) two) tmp) in
  let l1 := sq (sb (dv (ad a d) two) tmp) in
  if nonzero c then (normalize_bits (sb (ml l0 l0) d, c), normalize_bits (sb (ml l1 l1) d, c))
  else if nonzero b then (normalize_bits (b, sb (ml l0 l0) a), normalize_bits (b, sb (ml l1 l1) a))
  else if SFltb d a then (normalize_bits (one, zero), normalize_bits (zero, one))
  else (normalize_bits (zero, one), normalize_bits (one, zero)).
