(** Model of ecl_geometry polynomials: pascals_triangle.hpp/.cpp, polynomial.hpp/.cpp,
    polynomial_blueprints.cpp, and of ecl_math simple.hpp and fuzzy.hpp. *)
From Verif Require Import RBase.

(** * Pascal's triangle *)

(** One row of the constructor's inner loop, pascals_triangle.hpp:211-218. [acc] is the part of the array written
    so far, so the counter is its length; the unwritten rest of the array is not represented. [todo] is the number of
    entries left in the row, [i] the row's length. *)
Fixpoint pascal_row (n i : Z) (todo : nat) (j : Z) (acc : list Z) : res (list Z) :=
  match todo with
  | O => Ok acc
  | S todo' =>
      let counter := Zlen acc in
      v <- (if (i =? n + 1)%Z || (j =? 0)%Z then Ok 1%Z
            else match zget acc (counter - 1)%Z, zget acc (counter - (i + 1))%Z with
                 | Some a, Some b => int_op (a + b)%Z
                 | _, _ => UB
                 end) ;;
      pascal_row n i todo' (j + 1)%Z (acc ++ [v])
  end.
(** The outer loop, pascals_triangle.hpp:210: i counts down from N+1 to 1. *)
Fixpoint pascal_rows (n : Z) (i : nat) (acc : list Z) : res (list Z) :=
  match i with
  | O => Ok acc
  | S i' => acc' <- pascal_row n (Z.of_nat i) i 0%Z acc ;; pascal_rows n i' acc'
  end.
(** PascalsTriangle<N>::PascalsTriangle(), pascals_triangle.hpp:207-220. *)
Definition pascal_generic (n : nat) : res (list Z) := pascal_rows (Z.of_nat n) (S n) [].
(** The specialisations for 3 and 5, pascals_triangle.cpp:24-29 and 51-58. *)
Definition pascal_3 : list Z := [1;1;1;1; 1;2;3; 1;3; 1]%Z.
Definition pascal_5 : list Z := [1;1;1;1;1;1; 1;2;3;4;5; 1;3;6;10; 1;4;10; 1;5; 1]%Z.
Definition pascal (n : nat) : res (list Z) :=
  match n with 3%nat => Ok pascal_3 | 5%nat => Ok pascal_5 | _ => pascal_generic n end.

(** begin(index) and end(index) as offsets into the array, pascals_triangle.hpp:229-252 and
    pascals_triangle.cpp:31-45, 60-74 (rows up to N: N+1-i does not wrap). *)
Fixpoint pascal_begin (n index : nat) : Z :=
  match index with
  | O => 0
  | S k => (pascal_begin n k + (Z.of_nat n + 1 - Z.of_nat k))%Z
  end.
Definition pascal_end (n index : nat) : Z := ((pascal_begin n (S index) - 1) + 1)%Z.

(** * Polynomials: the coefficients of Polynomial<N>, lowest power first, N + 1 of them *)

(** Polynomial<N>::operator(), polynomial.hpp:415-425. *)
Fixpoint eval_loop (cs : list R) (x tmp value : R) : R :=
  match cs with
  | [] => value
  | c :: cs' => eval_loop cs' x (tmp * x) (value + c * tmp)
  end.
Definition eval (p : list R) (x : R) : R :=
  match p with [] => 0 | c :: cs => eval_loop cs x x c end.

(** derivative(), polynomial.hpp:189-196 and 319-321 (Polynomial<0>). *)
Fixpoint deriv_loop (i : Z) (cs : list R) : list R :=
  match cs with [] => [] | c :: cs' => IZR (i + 1) * c :: deriv_loop (i + 1) cs' end.
Definition deriv (p : list R) : list R :=
  match p with
  | [] => []
  | [_] => [0]
  | _ :: cs => deriv_loop 0 cs
  end.
(** derivative(x) and dderivative(x), polynomial.hpp:426-444 and 329-341. *)
Definition deriv_at (p : list R) (x : R) : R :=
  if (1 <? Zlen p)%Z then eval (deriv p) x else 0.
Definition dderiv_at (p : list R) (x : R) : R :=
  if (2 <? Zlen p)%Z then eval (deriv (deriv p)) x else 0.

(** shift_horizontal(shift), polynomial.hpp:395-411. Inner loop, lines 403-409: [idx] runs from begin(i)+1 to
    end(i), [todo] entries are left. *)
Fixpoint shift_row (t : list Z) (idx : Z) (todo : nat) (shift tmp : R) (i j : Z) (coeff : list R) : fres (list R) :=
  match todo with
  | O => FOk coeff
  | S todo' =>
      match zget t idx, zget coeff i, zget coeff j with
      | Some b, Some ci, Some cj =>
          shift_row t (idx + 1)%Z todo' shift (tmp * (-1 * shift)) i (j + 1)%Z
            (zset coeff i (ci + IZR b * tmp * cj))
      | _, _, _ => FUB
      end
  end.
(** Outer loop, line 402: [i] from 0 to N - 1. *)
Fixpoint shift_rows (t : list Z) (n i todo : nat) (shift : R) (coeff : list R) : fres (list R) :=
  match todo with
  | O => FOk coeff
  | S todo' =>
      coeff' <-- shift_row t (pascal_begin n i + 1) (Z.to_nat (pascal_end n i - (pascal_begin n i + 1)))
                   shift (-1 * shift) (Z.of_nat i) (Z.of_nat i + 1) coeff ;;
      shift_rows t n (S i) todo' shift coeff'
  end.
Definition shift_horizontal (p : list R) (shift : R) : fres (list R) :=
  match p with
  | [] | [_] => FOk p          (* Polynomial<0>, polynomial.hpp:307 *)
  | _ => let n := (length p - 1)%nat in
         t <-- lift (pascal n) ;; shift_rows t n 0 n shift p
  end.

(** * Blueprints *)

(** LinearInterpolation::apply, polynomial_blueprints.cpp:45-54. *)
Definition linear_interpolation (x_i y_i x_f y_f : R) : fres (list R) :=
  a_1 <-- fdiv (y_f - y_i) (x_f - x_i) ;;
  FOk [y_i - a_1 * x_i; a_1].
(** LinearPointSlopeForm::apply, polynomial_blueprints.cpp:62-71. *)
Definition point_slope (x_f y_f slope : R) : list R := [y_f - slope * x_f; slope].
(** The shift at the end of the cubic and quintic blueprints, polynomial_blueprints.cpp:108-110. *)
Definition shift_nonzero (p : list R) (x_i : R) : fres (list R) :=
  if Req_EM_T x_i 0 then FOk p else shift_horizontal p x_i.
(** CubicDerivativeInterpolation::apply, polynomial_blueprints.cpp:85-111. *)
Definition cubic_derivative (x_i y_i v_i x_f y_f v_f : R) : fres (list R) :=
  let dx := x_f - x_i in
  let dy := y_f - y_i in
  q1 <-- fdiv 3 (dx * dx) ;;
  q2 <-- fdiv 2 dx ;;
  q3 <-- fdiv 1 dx ;;
  q4 <-- fdiv (-2) (dx * dx * dx) ;;
  q5 <-- fdiv (v_f + v_i) (dx * dx) ;;
  shift_nonzero [y_i; v_i; q1 * dy - q2 * v_i - q3 * v_f; q4 * dy + q5] x_i.
(** CubicSecondDerivativeInterpolation::apply, polynomial_blueprints.cpp:123-135. *)
Definition cubic_second_derivative (x_i y_i a_i x_f y_f a_f : R) : fres (list R) :=
  let dx := x_f - x_i in
  let a_0 := y_i in
  let a_2 := a_i / 2 in
  a_3 <-- fdiv (a_f - a_i) (6 * dx) ;;
  a_1 <-- fdiv (y_f - a_0 - a_2 * dx * dx - a_3 * dx * dx * dx) dx ;;
  shift_nonzero [a_0; a_1; a_2; a_3] x_i.
(** QuinticInterpolation::apply, polynomial_blueprints.cpp:147-186. *)
Definition quintic (x_i y_i v_i a_i x_f y_f v_f a_f : R) : fres (list R) :=
  let dx := x_f - x_i in
  let d2x := dx * dx in
  let d3x := d2x * dx in
  let d4x := d3x * dx in
  let d5x := d4x * dx in
  let a_0 := y_i in
  let a_1 := v_i in
  let a_2 := a_i / 2 in
  a_3 <-- fdiv (20 * (y_f - y_i) - (8 * v_f + 12 * v_i) * dx - (3 * a_i - a_f) * dx * dx) (2 * d3x) ;;
  a_4 <-- fdiv (30 * (y_i - y_f) + (14 * v_f + 16 * v_i) * dx + (-2 * a_f + 3 * a_i) * dx * dx) (2 * d4x) ;;
  a_5 <-- fdiv (12 * (y_f - y_i) - (6 * v_f + 6 * v_i) * dx - (a_i - a_f) * dx * dx) (2 * d5x) ;;
  shift_nonzero [a_0; a_1; a_2; a_3; a_4; a_5] x_i.

(** * Division, polynomial.cpp:34-53: quotient and remainder *)

Definition divide_quadratic (c0 c1 c2 f : R) : list R * R :=
  let a := c2 in
  let b := c1 + f * a in
  ([b; a], c0 + f * b).
Definition divide_cubic (c0 c1 c2 c3 f : R) : list R * R :=
  let a := c3 in
  let b := c2 + f * a in
  let c := c1 + f * b in
  ([c; b; a], c0 + f * c).

(** * ecl_math *)

(** sign, psign, nsign: simple.hpp:37-87. *)
Definition sign (x : R) : Z := if Rlt_dec 0 x then 1 else if Rlt_dec x 0 then -1 else 0.
Definition psign (x : R) : Z := if Rle_dec 0 x then 1 else -1.
Definition nsign (x : R) : Z := if Rlt_dec 0 x then 1 else -1.
(** cube_root, simple.hpp:96-100; pow(0,y) = 0 for y > 0. The quotient 1.0/3.0 is exact here. *)
Definition pow_r (x y : R) : R := if Req_EM_T x 0 then 0 else Rpower x y.
Definition cube_root (x : R) : R := IZR (psign x) * pow_r (Rabs x) (1 / 3).

(** isApprox and isApproxOrLessThan for floating point scalars, fuzzy.hpp:61-70. *)
Definition is_approx (x y prec : R) : bool :=
  if Rle_dec (Rabs (x - y)) (Rmin (Rabs x) (Rabs y) * prec) then true else false.
Definition is_approx_or_less (x y prec : R) : bool :=
  (if Rle_dec x y then true else false) || is_approx x y prec.
(** isApprox for two integers, fuzzy.hpp:84-87, and isApproxOrLessThan for an integer on the left, :99-102. *)
Definition is_approx_int (x y : Z) : bool := (x =? y)%Z.
(** isApprox for an integer and a double, fuzzy.hpp:89-97: precision 0 (the integer's default,
    ecl_type_traits/src/lib/numeric_limits.cpp:87) selects [dflt], the default precision of the other type. *)
Definition is_approx_mixed (x : Z) (y : R) (prec : R) (dflt : R) : bool :=
  let precision := if Req_EM_T prec 0 then dflt else prec in
  if Rle_dec (Rabs (IZR x - y)) (Rmin (Rabs (IZR x)) (Rabs y) * precision) then true else false.
(** isApproxOrLessThan for an integer and a double, fuzzy.hpp:99-102. *)
Definition is_approx_or_less_mixed (x : Z) (y : R) : bool := if Rle_dec (IZR x) y then true else false.
(** numeric_limits<double>::dummy_precision, numeric_limits.cpp:100. *)
Definition double_precision : R := / 10 ^ 12.

(** * Roots *)

(** Roots<LinearFunction>, polynomial.cpp:59-68. *)
Definition roots_linear (c0 c1 : R) : fres (list R) :=
  if Req_EM_T c1 0 then FOk [] else r <-- fdiv (-1 * c0) c1 ;; FOk [r].
(** Roots<QuadraticPolynomial>, polynomial.cpp:70-90. *)
Definition roots_quadratic (c0 c1 c2 : R) : fres (list R) :=
  let a := c2 in let b := c1 in let c := c0 in
  if Req_EM_T a 0 then roots_linear c b
  else
    let disc := b * b - 4 * a * c in
    if Rlt_dec 0 disc then
      s <-- fsqrt disc ;;
      r1 <-- fdiv (- b + s) (2 * a) ;;
      r2 <-- fdiv (- b - s) (2 * a) ;;
      FOk [r1; r2]
    else if Req_EM_T disc 0 then
      r <-- fdiv (- b) (2 * a) ;; FOk [r]
    else FOk [].
(** Roots<CubicPolynomial>, polynomial.cpp:93-152. An element that is not a number makes the whole outcome
    [FNonFinite]; in the code it is one of the returned elements. *)
Definition roots_cubic (c0 c1 c2 c3 : R) : fres (list R) :=
  let a := c3 in let b := c2 in let c := c1 in let d := c0 in
  p <-- fdiv (3 * a * c - b * b) (3 * a * a) ;;
  q <-- fdiv (2 * b * b * b - 9 * a * b * c + 27 * a * a * d) (27 * a * a * a) ;;
  let disc := p * p * p / 27 + q * q / 4 in
  shift <-- fdiv (- b) (3 * a) ;;
  if Req_EM_T p 0 then
    if Req_EM_T q 0 then FOk [shift] else FOk [cube_root (- q) + shift]
  else if Req_EM_T q 0 then
    s <-- fsqrt (-1 * p) ;; FOk [shift; s + shift; - s + shift]
  else if Req_EM_T disc 0 then
    r1 <-- fdiv (3 * q) p ;;
    r2 <-- fdiv (-3 * q) (2 * p) ;;
    FOk [r1 + shift; r2 + shift]
  else if Rle_dec 0 disc then
    s <-- fsqrt disc ;;
    let u := cube_root (- q / 2 + s) in
    let v := cube_root (- q / 2 - s) in
    FOk [u + v + shift]
  else
    s <-- fsqrt (- p / 3) ;;
    k <-- fdiv (3 * q) (2 * p) ;;
    m <-- fdiv (-3) p ;;
    w <-- fsqrt m ;;
    th <-- facos (k * w) ;;
    FOk [2 * s * cos (1 / 3 * th) + shift;
         2 * s * cos (1 / 3 * th - 2 * PI / 3) + shift;
         2 * s * cos (1 / 3 * th - 4 * PI / 3) + shift].

(** * Intersection of two lines, polynomial.cpp:154-168. The first
    component of the state is last_operation_failed (polynomial.hpp:1087-1113). *)
Definition intersection (f0 f1 g0 g1 : R) (failed : bool) : bool * fres (R * R) :=
  if is_approx f1 g1 double_precision then (true, FThrow OutOfRangeError)
  else (failed, x <-- fdiv (f0 - g0) (g1 - f1) ;; FOk (x, eval [f0; f1] x)).

(** * Extrema, polynomial.cpp:170-272 *)

Definition bigger (max test : R) : R := if Rlt_dec max test then test else max.
Definition smaller (min test : R) : R := if Rlt_dec test min then test else min.
(** An abscissa that is not finite fails one of the two comparisons with the bounds. *)
Definition inside (r : fres R) (x0 x1 : R) (p : list R) (pick : R -> R -> R) (best : R) : R :=
  match r with
  | FOk r => if Rlt_dec x0 r then if Rlt_dec r x1 then pick best (eval p r) else best else best
  | _ => best
  end.
Definition extremum_linear (pick : R -> R -> R) (x0 x1 : R) (p : list R) : R :=
  pick (eval p x0) (eval p x1).
Definition extremum_cubic (pick : R -> R -> R) (x0 x1 c0 c1 c2 c3 : R) : R :=
  let p := [c0; c1; c2; c3] in
  let best := pick (eval p x0) (eval p x1) in
  let a := 3 * c3 in
  let b := 2 * c2 in
  let c := c1 in
  if Req_EM_T a 0 then inside (fdiv (- c) b) x0 x1 p pick best
  else
    let t := b * b - 4 * a * c in
    if Rlt_dec 0 t then
      let best := inside (fdiv (- b + sqrt t) (2 * a)) x0 x1 p pick best in
      inside (fdiv (- b - sqrt t) (2 * a)) x0 x1 p pick best
    else best.
Definition maximum_linear := extremum_linear bigger.
Definition minimum_linear := extremum_linear smaller.
Definition maximum_cubic := extremum_cubic bigger.
Definition minimum_cubic := extremum_cubic smaller.
