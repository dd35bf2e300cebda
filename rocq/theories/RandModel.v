(** Model of RandomNumberGenerator<T>, /repo/ecl_time/include/ecl/time/random_number_generator.hpp, for T = float and double.
    The C library's rand/srand are a parameter: any state and any way to draw from it.  The arithmetic up to the weight of the
    polar method is rounded as IEEE binary32/binary64 (no overflow can occur there); the final logarithm, root and products are
    exact, except that the logarithm of zero gives a number that is not finite.  How seed() mixes clock, time and process id
    (108-129) is not modelled: it is srand with some number. *)
From Flocq Require Import Core.
From Coq Require Import Reals ZArith List.
Import ListNotations.
Open Scope R_scope.

(** The argument T. *)
Inductive kind := Single | Double.
Definition precision (k : kind) : Z := match k with Single => 24 | Double => 53 end.
Definition least (k : kind) : Z := match k with Single => -149 | Double => -1074 end.
Definition rnd (k : kind) (x : R) : R := round radix2 (FLT_exp (least k) (precision k)) ZnearestE x.

(** The C library: stdlib.h, RAND_MAX of glibc. *)
Definition RAND_MAX : Z := 2147483647.
Record lib := mkLib { gstate : Type; start : Z -> gstate; draw : gstate -> Z * gstate }.

(** uniform(), 56-59: static_cast<T>(rand()) / static_cast<T>(RAND_MAX). *)
Definition unit_of (k : kind) (r : Z) : R := rnd k (rnd k (IZR r) / rnd k (IZR RAND_MAX)).
(** uniform(range), 51-54: the literals are doubles, so the arithmetic is; the result is converted to T. *)
Definition ranged_of (k : kind) (range : R) (r : Z) : R :=
  rnd k (rnd Double (rnd Double (rnd Double (unit_of k r - 1 / 2) * 2) * range)).

(** gaussian, 75-77. *)
Definition coord_of (k : kind) (r : Z) : R := rnd k (rnd Double (rnd Double (2 * unit_of k r) - 1)).
Definition weight (k : kind) (x1 x2 : R) : R := rnd k (rnd k (x1 * x1) + rnd k (x2 * x2)).

(** The state all generators of one T share: rand's, and the two static locals of gaussian (64-65).
    A number is None when it is not finite. *)
Record glob (l : lib) := mkGlob { gen : gstate l; y2 : option R; use_last : bool }.
Arguments mkGlob {l}. Arguments gen {l}. Arguments y2 {l}. Arguments use_last {l}.

(** The loop 74-78; None: more than [fuel] rounds. *)
Fixpoint tries (k : kind) (l : lib) (fuel : nat) (g : gstate l) : option (R * R * R * gstate l) :=
  match fuel with
  | O => None
  | S fuel' =>
    let '(r1, g1) := draw l g in
    let '(r2, g2) := draw l g1 in
    let x1 := coord_of k r1 in
    let x2 := coord_of k r2 in
    let w := weight k x1 x2 in
    if Rle_dec 1 w then tries k l fuel' g2 else Some (x1, x2, w, g2)
  end.
(** 80-82. *)
Definition scaled (w x : R) : option R := if Req_EM_T w 0 then None else Some (x * sqrt (-2 * ln w / w)).
(** gaussian(std, mu), 61-87. *)
Definition affine (std mu : R) (y : option R) : option R := match y with Some v => Some (mu + v * std) | None => None end.
Definition gaussian (k : kind) (l : lib) (fuel : nat) (std mu : R) (g : glob l) : option (option R * glob l) :=
  if use_last g then Some (affine std mu (y2 g), mkGlob (gen g) (y2 g) false)
  else match tries k l fuel (gen g) with
       | None => None
       | Some (x1, x2, w, g') => Some (affine std mu (scaled w x1), mkGlob g' (scaled w x2) true)
       end.

(** A program using any number of generators of one T: the objects have no members, so who makes a call does not matter.
    41-49 (constructors), seed(). *)
Inductive call := Construct (seed : Z) | Uniform | UniformIn (range : R) | Gaussian (std mu : R).
Definition perform (k : kind) (l : lib) (fuel : nat) (c : call) (g : glob l) : option (list (option R) * glob l) :=
  match c with
  | Construct seed => Some ([], mkGlob (start l seed) (y2 g) (use_last g))
  | Uniform => let '(r, g') := draw l (gen g) in Some ([Some (unit_of k r)], mkGlob g' (y2 g) (use_last g))
  | UniformIn range => let '(r, g') := draw l (gen g) in Some ([Some (ranged_of k range r)], mkGlob g' (y2 g) (use_last g))
  | Gaussian std mu => match gaussian k l fuel std mu g with Some (v, g') => Some ([v], g') | None => None end
  end.
Fixpoint performs (k : kind) (l : lib) (fuel : nat) (cs : list call) (g : glob l) : option (list (option R) * glob l) :=
  match cs with
  | [] => Some ([], g)
  | c :: cs' =>
    match perform k l fuel c g with
    | None => None
    | Some (o, g1) => match performs k l fuel cs' g1 with Some (o', g2) => Some (o ++ o', g2) | None => None end
    end
  end.
(** Before the first call: the statics are zero; rand starts as if srand(1). *)
Definition glob0 (l : lib) : glob l := mkGlob (start l 1) (Some 0) false.
