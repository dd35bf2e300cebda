(** Model of ecl_geometry angles: src/lib/angle.cpp and include/ecl/geometry/angle.hpp. *)
From Coq Require Import SpecFloat.
From Flocq Require Import Core.
From Verif Require Import RBase.
Open Scope R_scope.

(** * Exact arithmetic *)

(** wrap_angle(double), angle.cpp:52-74 (both overloads compute the same value; the first stores it back). The
    double constant pi is idealised as the real number. *)
Definition wrap (a : R) : R :=
  if Rle_dec a PI then
    if Rle_dec (- PI) a then a
    else if Rlt_dec a 0 then fmod (a - PI) (2 * PI) + PI else fmod (a + PI) (2 * PI) - PI
  else if Rlt_dec a 0 then fmod (a - PI) (2 * PI) + PI else fmod (a + PI) (2 * PI) - PI.

(** Angle<T>, angle.hpp:137-326: the object is its value. Constructor angle.hpp:152. *)
Definition mk_angle (a : R) : R := wrap a.
(** Constructor from a rotation matrix, angle.hpp:157-159; the matrix is given by its first column. *)
Definition from_matrix (m00 m10 : R) : R := atan2 m10 m00.
(** operator=(T), angle.hpp:341-346. *)
Definition assign (value a : R) : R := wrap a.
(** operator+ and operator- with a number or an angle, angle.hpp:352-382. *)
Definition plus (value a : R) : R := mk_angle (wrap (value + a)).
Definition minus (value a : R) : R := mk_angle (wrap (value - a)).
(** operator+= and operator-=, angle.hpp:362-394. *)
Definition plus_assign (value a : R) : R := wrap (value + a).
Definition minus_assign (value a : R) : R := wrap (value - a).
(** operator* and operator*= with a number, angle.hpp:396-405. *)
Definition times_scalar (value s : R) : R := mk_angle (wrap (s * value)).
Definition times_assign (value s : R) : R := wrap (value * s).
(** radians_to_degrees, degrees_to_radians, degrees(), Degrees(), Radians(): angle.hpp:40-59, 336-339, 411-419. *)
Definition radians_to_degrees (r : R) : R := r * (180 / PI).
Definition degrees_to_radians (d : R) : R := d * (PI / 180).
Definition from_degrees (d : R) : R := mk_angle (degrees_to_radians d).
(** rotationMatrix(), angle.hpp:289-293, as (m00, m01, m10, m11). *)
Definition rotation_matrix (v : R) : R * R * R * R := (cos v, - sin v, sin v, cos v).

(** * Doubles, rounded to nearest even with 53 bits (overflow is not modelled) *)

Definition rnd (x : R) : R := round radix2 (FLT_exp (-1074) 53) ZnearestE x.
Definition is_double (x : R) : Prop := generic_format radix2 (FLT_exp (-1074) 53) x.

(** ecl::pi (M_PI), ecl_math/include/ecl/math/constants.hpp:28. *)
Definition pi_d : R := 7074237752028440 * / 2 ^ 51.

(** wrap_angle(double), angle.cpp:52-74, with every operation rounded; fmod is exact. *)
Definition wrap_d (a : R) : R :=
  if Rle_dec a pi_d then
    if Rle_dec (- pi_d) a then a
    else if Rlt_dec a 0 then rnd (fmod (rnd (a - pi_d)) (rnd (2 * pi_d)) + pi_d)
         else rnd (fmod (rnd (a + pi_d)) (rnd (2 * pi_d)) - pi_d)
  else if Rlt_dec a 0 then rnd (fmod (rnd (a - pi_d)) (rnd (2 * pi_d)) + pi_d)
  else rnd (fmod (rnd (a + pi_d)) (rnd (2 * pi_d)) - pi_d).

(** * Floats, rounded to nearest even with 24 bits (overflow is not modelled) *)
Definition rnf (x : R) : R := round radix2 (FLT_exp (-149) 24) ZnearestE x.
Definition is_float (x : R) : Prop := generic_format radix2 (FLT_exp (-149) 24) x.
(** wrap_angle(float), angle.cpp:29-50, with every operation rounded: the sums in double, then to float for fmodf and for the result;
    fmodf is exact. *)
Definition wrap_s (a : R) : R :=
  if Rle_dec a pi_d then
    if Rle_dec (- pi_d) a then a
    else if Rlt_dec a 0 then rnf (rnd (fmod (rnf (rnd (a - pi_d))) (rnf (rnd (2 * pi_d))) + pi_d))
         else rnf (rnd (fmod (rnf (rnd (a + pi_d))) (rnf (rnd (2 * pi_d))) - pi_d))
  else if Rlt_dec a 0 then rnf (rnd (fmod (rnf (rnd (a - pi_d))) (rnf (rnd (2 * pi_d))) + pi_d))
  else rnf (rnd (fmod (rnf (rnd (a + pi_d))) (rnf (rnd (2 * pi_d))) - pi_d)).

(** * Floats, computed bit by bit with the standard library's specification of IEEE 754 *)

Definition pi64 : spec_float := S754_finite false 7074237752028440 (-51).
Definition two64f : spec_float := S754_finite false 4503599627370496 (-51).
Definition conv (prec emax : Z) (x : spec_float) : spec_float :=
  match x with
  | S754_finite s m e => binary_normalize prec emax (cond_Zopp s (Zpos m)) e s
  | _ => x
  end.
Definition to_double : spec_float -> spec_float := conv 53 1024.
Definition to_float : spec_float -> spec_float := conv 24 128.
Definition dadd := SFadd 53 1024.
Definition dsub := SFsub 53 1024.
Definition dmul := SFmul 53 1024.
(** fmodf for finite arguments: the exact remainder with the sign of the dividend. *)
Definition fmodf (x y : spec_float) : spec_float :=
  match x, y with
  | S754_finite s m e, S754_finite _ m' e' =>
      let e0 := Z.min e e' in
      binary_normalize 24 128 (cond_Zopp s (Z.modulo (Zpos m * 2 ^ (e - e0)) (Zpos m' * 2 ^ (e' - e0)))) e0 s
  | S754_zero s, S754_finite _ _ _ => x
  | _, _ => S754_nan
  end.
(** wrap_angle(float), angle.cpp:29-50: the float is promoted to double for the comparisons, the sums are
    computed in double and converted to float for fmodf and for the result. *)
Definition wrap_f (a : spec_float) : spec_float :=
  let d := to_double a in
  if SFleb d pi64 && SFleb (SFopp pi64) d then a
  else if SFltb d (S754_zero false) then
    to_float (dadd (to_double (fmodf (to_float (dsub d pi64)) (to_float (dmul two64f pi64)))) pi64)
  else
    to_float (dsub (to_double (fmodf (to_float (dadd d pi64)) (to_float (dmul two64f pi64)))) pi64).
