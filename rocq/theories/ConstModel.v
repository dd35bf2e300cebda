(** Mathematical constants: ecl_math/include/ecl/math/constants.hpp. *)
From Flocq Require Import Core.
From Verif Require Import RBase.
Open Scope R_scope.

(** Doubles and floats: rounding to nearest even with 53 and 24 bits. *)
Definition to_d (x : R) : R := round radix2 (FLT_exp (-1074) 53) ZnearestE x.
Definition to_s (x : R) : R := round radix2 (FLT_exp (-149) 24) ZnearestE x.

(** M_PI of <cmath>, the literal 3.14159265358979323846; constants.hpp:29. *)
Definition c_pi : R := to_d (314159265358979323846 * / 100000000000000000000).
(** constants.hpp:30-32. *)
Definition c_two_pi : R := to_d (2 * c_pi).
Definition c_pi_2 : R := to_d (c_pi / 2).
Definition c_pi_4 : R := to_d (c_pi / 4).
(** The same as floats, constants.hpp:33-36. *)
Definition c_two_pi_f : R := to_s c_two_pi.
Definition c_pi_f : R := to_s c_pi.
Definition c_pi_2_f : R := to_s c_pi_2.
Definition c_pi_4_f : R := to_s c_pi_4.
