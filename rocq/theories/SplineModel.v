(** Model of the ecl_geometry splines: cubic_spline.cpp, cubic_spline_blueprints.cpp, tension_function.cpp,
    tension_spline.cpp, tension_spline_blueprints.cpp and smooth_linear_spline.cpp.
    Doubles are real numbers (RBase). The code goes on computing with infinities and NaN; here a computation stops
    with [FNonFinite] as soon as one value is not finite. Reading or writing an array outside its bounds is [FUB] (in a
    debug build Array's own check throws instead). *)
From Verif Require Import RBase PolyModel.
Open Scope R_scope.

(** * Evaluation, common to the three kinds of spline *)

(** while ( x > discretised_domain[index+1] ) ++index; cubic_spline.cpp:31-34, tension_spline.cpp:31-34,
    smooth_linear_spline.cpp:114-117. One step per array element is enough: the read after that is out of bounds. *)
Fixpoint find_index (dom : list R) (x : R) (fuel : nat) (index : Z) : fres Z :=
  match fuel with
  | O => FUB
  | S fuel' =>
      d <-- rget dom (index + 1)%Z ;;
      if Rlt_dec d x then find_index dom x fuel' (index + 1)%Z else FOk index
  end.
(** The range check, which is compiled in debug builds only, and the search: cubic_spline.cpp:30-34. *)
Definition spline_index (debug : bool) (dom : list R) (x : R) : fres Z :=
  match dom with
  | [] => FUB
  | front :: _ =>
      if debug && negb ((if Rle_dec front x then true else false) && (if Rle_dec x (last dom 0) then true else false))
      then FThrow OutOfRangeError
      else find_index dom x (S (length dom)) 0
  end.
(** Array access with a signed index. *)
Definition aget {A} (l : list A) (i : Z) : fres A := match zget l i with Some a => FOk a | None => FUB end.

(** * Cubic splines *)

(** CubicSpline: discretised_domain and cubic_polynomials, cubic_spline.hpp:235-238. *)
Record cspline := mk_cspline { cs_domain : list R; cs_polys : list (list R) }.

(** operator(), derivative and dderivative, cubic_spline.cpp:29-54. *)
Definition cs_eval (debug : bool) (s : cspline) (x : R) : fres R :=
  i <-- spline_index debug (cs_domain s) x ;; p <-- aget (cs_polys s) i ;; FOk (eval p x).
Definition cs_deriv (debug : bool) (s : cspline) (x : R) : fres R :=
  i <-- spline_index debug (cs_domain s) x ;; p <-- aget (cs_polys s) i ;; FOk (eval (deriv p) x).
Definition cs_dderiv (debug : bool) (s : cspline) (x : R) : fres R :=
  i <-- spline_index debug (cs_domain s) x ;; p <-- aget (cs_polys s) i ;; FOk (eval (deriv (deriv p)) x).

(** The loop at cubic_spline_blueprints.cpp:60-67 (and 100-107). The arrays [yd] and [u] hold the elements written so far. *)
Fixpoint c2_forward (x y : list R) (todo : nat) (i : Z) (yd u : list R) : fres (list R * list R) :=
  match todo with
  | O => FOk (yd, u)
  | S todo' =>
      xm <-- rget x (i - 1)%Z ;; xi <-- rget x i ;; xp <-- rget x (i + 1)%Z ;;
      ym <-- rget y (i - 1)%Z ;; yi <-- rget y i ;; yp <-- rget y (i + 1)%Z ;;
      ydm <-- rget yd (i - 1)%Z ;; um <-- rget u (i - 1)%Z ;;
      sig <-- fdiv (xi - xm) (xp - xm) ;;
      let p := sig * ydm + 2 in
      ydi <-- fdiv (sig - 1) p ;;
      s1 <-- fdiv (yp - yi) (xp - xi) ;;
      s0 <-- fdiv (yi - ym) (xi - xm) ;;
      u0 <-- fdiv (6 * (s1 - s0)) (xp - xm) ;;
      ui <-- fdiv (u0 - sig * um) p ;;
      c2_forward x y todo' (i + 1)%Z (yd ++ [ydi]) (u ++ [ui])
  end.
(** The back substitution, cubic_spline_blueprints.cpp:74-76 (114-116): k counts down from n-2. *)
Fixpoint c2_back (u : list R) (k : nat) (yd : list R) : fres (list R) :=
  match k with
  | O => FOk yd
  | S k' =>
      a <-- rget yd (Z.of_nat k') ;; b <-- rget yd (Z.of_nat k' + 1)%Z ;; c <-- rget u (Z.of_nat k') ;;
      c2_back u k' (zset yd (Z.of_nat k') (a * b + c))
  end.
(** The rest of both constructors, after the size checks: the boundary values come first. *)
Definition c2_solve (x y : list R) (yd0 u0 qn ulast : R) : fres (list R) :=
  let n := length x in
  yu <-- c2_forward x y (n - 2) 1 [yd0] [u0] ;;
  let '(yd, u) := yu in
  um <-- rget u (Z.of_nat n - 2)%Z ;;
  ydm <-- rget yd (Z.of_nat n - 2)%Z ;;
  ydlast <-- fdiv (ulast - qn * um) (qn * ydm + 1) ;;
  c2_back u (n - 1) (yd ++ [ydlast]).
(** Size checks, lines 47-51 and 87-91. *)
Definition size_checks (debug : bool) (x y : list R) : fres unit :=
  if (Zlen x <? 2)%Z || (Zlen y <? 2)%Z then FThrow OutOfRangeError
  else if debug && negb (Zlen x =? Zlen y)%Z then FThrow OutOfRangeError
  else FOk tt.
(** C2CubicSpline with end slopes, cubic_spline_blueprints.cpp:42-77. *)
Definition c2_clamped (debug : bool) (x y : list R) (v0 vf : R) : fres (list R) :=
  _ <-- size_checks debug x y ;;
  let n := Zlen x in
  x0 <-- rget x 0 ;; x1 <-- rget x 1 ;; y0 <-- rget y 0 ;; y1 <-- rget y 1 ;;
  a <-- fdiv 3 (x1 - x0) ;; b <-- fdiv (y1 - y0) (x1 - x0) ;;
  xl <-- rget x (n - 1)%Z ;; xk <-- rget x (n - 2)%Z ;; yl <-- rget y (n - 1)%Z ;; yk <-- rget y (n - 2)%Z ;;
  c <-- fdiv 3 (xl - xk) ;; d <-- fdiv (yl - yk) (xl - xk) ;;
  c2_solve x y (- (1 / 2)) (a * (b - v0)) (1 / 2) (c * (vf - d)).
(** C2CubicSpline with zero end curvature, cubic_spline_blueprints.cpp:83-117. *)
Definition c2_natural (debug : bool) (x y : list R) : fres (list R) :=
  _ <-- size_checks debug x y ;; c2_solve x y 0 0 0 0.
(** C2CubicSpline::apply, cubic_spline_blueprints.cpp:125-134. *)
Fixpoint c2_polys (x y yd : list R) (todo : nat) (i : Z) : fres (list (list R)) :=
  match todo with
  | O => FOk []
  | S todo' =>
      xi <-- rget x i ;; yi <-- rget y i ;; ai <-- rget yd i ;;
      xp <-- rget x (i + 1)%Z ;; yp <-- rget y (i + 1)%Z ;; ap <-- rget yd (i + 1)%Z ;;
      p <-- cubic_second_derivative xi yi ai xp yp ap ;;
      ps <-- c2_polys x y yd todo' (i + 1)%Z ;;
      FOk (p :: ps)
  end.
Definition c2_apply (x y yd : list R) : fres cspline :=
  ps <-- c2_polys x y yd (length x - 1) 0 ;; FOk (mk_cspline x ps).
(** CubicSpline::Natural and CubicSpline::ContinuousDerivatives, then the conversion to a spline. *)
Definition natural_spline (debug : bool) (x y : list R) : fres cspline :=
  yd <-- c2_natural debug x y ;; c2_apply x y yd.
Definition clamped_spline (debug : bool) (x y : list R) (v0 vf : R) : fres cspline :=
  yd <-- c2_clamped debug x y v0 vf ;; c2_apply x y yd.

(** DerivativeHeuristicCubicSpline, cubic_spline_blueprints.cpp:152-157: the interior slopes. *)
Fixpoint dh_slopes (x y : list R) (todo : nat) (i : Z) : fres (list R) :=
  match todo with
  | O => FOk []
  | S todo' =>
      xm <-- rget x (i - 1)%Z ;; xi <-- rget x i ;; xp <-- rget x (i + 1)%Z ;;
      ym <-- rget y (i - 1)%Z ;; yi <-- rget y i ;; yp <-- rget y (i + 1)%Z ;;
      before <-- fdiv (yi - ym) (xi - xm) ;;
      after <-- fdiv (yp - yi) (xp - xi) ;;
      r <-- dh_slopes x y todo' (i + 1)%Z ;;
      FOk ((before + after) / 2 :: r)
  end.
(** cubic_spline_blueprints.cpp:141-159. With an empty set size()-1 wraps and element 0 does not exist; with a single point
    the second store overwrites the first. *)
Definition dh_ydot (debug : bool) (x y : list R) (v0 vf : R) : fres (list R) :=
  if debug && negb (Zlen x =? Zlen y)%Z then FThrow OutOfRangeError
  else match x with
  | [] => FUB
  | [_] => FOk [vf]
  | _ => r <-- dh_slopes x y (length x - 2) 1 ;; FOk (v0 :: r ++ [vf])
  end.
(** DerivativeHeuristicCubicSpline::apply, cubic_spline_blueprints.cpp:167-176. *)
Fixpoint dh_polys (x y yd : list R) (todo : nat) (i : Z) : fres (list (list R)) :=
  match todo with
  | O => FOk []
  | S todo' =>
      xi <-- rget x i ;; yi <-- rget y i ;; vi <-- rget yd i ;;
      xp <-- rget x (i + 1)%Z ;; yp <-- rget y (i + 1)%Z ;; vp <-- rget yd (i + 1)%Z ;;
      p <-- cubic_derivative xi yi vi xp yp vp ;;
      ps <-- dh_polys x y yd todo' (i + 1)%Z ;;
      FOk (p :: ps)
  end.
Definition heuristic_spline (debug : bool) (x y : list R) (v0 vf : R) : fres cspline :=
  yd <-- dh_ydot debug x y v0 vf ;;
  ps <-- dh_polys x y yd (length x - 1) 0 ;; FOk (mk_cspline x ps).

(** * Tension splines *)

(** TensionFunction: x_0, x_f, y_0, y_f, z_0, z_f; set by TensionSecondDerivativeInterpolation::apply,
    tension_function.cpp:68-77. *)
Record tfun := mk_tfun { t_x0 : R; t_y0 : R; t_z0 : R; t_xf : R; t_yf : R; t_zf : R }.
(** operator(), tension_function.cpp:45-52. *)
Definition tf_eval (f : tfun) (tau x : R) : fres R :=
  let h := t_xf f - t_x0 f in
  a <-- fdiv (t_z0 f * sinh (tau * (t_xf f - x)) + t_zf f * sinh (tau * (x - t_x0 f))) (tau * tau * sinh (tau * h)) ;;
  z0 <-- fdiv (t_z0 f) (tau * tau) ;; zf <-- fdiv (t_zf f) (tau * tau) ;;
  b <-- fdiv ((t_y0 f - z0) * (t_xf f - x)) h ;;
  c <-- fdiv ((t_yf f - zf) * (x - t_x0 f)) h ;;
  FOk (a + b + c).
(** derivative, tension_function.cpp:26-34. *)
Definition tf_deriv (f : tfun) (tau x : R) : fres R :=
  let h := t_xf f - t_x0 f in
  a <-- fdiv (-1 * tau * t_z0 f * cosh (tau * (t_xf f - x)) + tau * t_zf f * cosh (tau * (x - t_x0 f))) (tau * tau * sinh (tau * h)) ;;
  z0 <-- fdiv (t_z0 f) (tau * tau) ;; zf <-- fdiv (t_zf f) (tau * tau) ;;
  b <-- fdiv (-1 * (t_y0 f - z0)) h ;;
  c <-- fdiv (t_yf f - zf) h ;;
  FOk (a + b + c).
(** dderivative, tension_function.cpp:37-43. *)
Definition tf_dderiv (f : tfun) (tau x : R) : fres R :=
  let h := t_xf f - t_x0 f in
  fdiv (tau * tau * t_z0 f * sinh (tau * (t_xf f - x)) + tau * tau * t_zf f * sinh (tau * (x - t_x0 f))) (tau * tau * sinh (tau * h)).

(** TensionSpline: discretised_domain, tension, functions. *)
Record tspline := mk_tspline { ts_domain : list R; ts_tension : R; ts_functions : list tfun }.
(** tension_spline.cpp:29-54. *)
Definition ts_eval (debug : bool) (s : tspline) (x : R) : fres R :=
  i <-- spline_index debug (ts_domain s) x ;; f <-- aget (ts_functions s) i ;; tf_eval f (ts_tension s) x.
Definition ts_deriv (debug : bool) (s : tspline) (x : R) : fres R :=
  i <-- spline_index debug (ts_domain s) x ;; f <-- aget (ts_functions s) i ;; tf_deriv f (ts_tension s) x.
Definition ts_dderiv (debug : bool) (s : tspline) (x : R) : fres R :=
  i <-- spline_index debug (ts_domain s) x ;; f <-- aget (ts_functions s) i ;; tf_dderiv f (ts_tension s) x.

(** The parameters of one segment, tension_spline_blueprints.cpp:65-68. *)
Record tpar := mk_tpar { p_a : R; p_beta : R; p_gamma : R }.
Fixpoint tension_params (x y : list R) (tau : R) (todo : nat) (i : Z) : fres (list tpar) :=
  match todo with
  | O => FOk []
  | S todo' =>
      xi <-- rget x i ;; xp <-- rget x (i + 1)%Z ;; yi <-- rget y i ;; yp <-- rget y (i + 1)%Z ;;
      let h := xp - xi in
      r <-- fdiv 1 h ;; s <-- fdiv tau (sinh (tau * h)) ;;
      c <-- fdiv (cosh (tau * h)) (sinh (tau * h)) ;;
      g <-- fdiv (tau * tau * (yp - yi)) h ;;
      rest <-- tension_params x y tau todo' (i + 1)%Z ;;
      FOk (mk_tpar (r - s) (tau * c - r) g :: rest)
  end.
(** tension_spline_blueprints.cpp:84-87: [u] and [v] hold the elements 1 .. i-1 written so far (element 0 is never
    written or read). *)
Fixpoint tension_forward (ps : list tpar) (todo : nat) (i : Z) (u v : list R) : fres (list R * list R) :=
  match todo with
  | O => FOk (u, v)
  | S todo' =>
      p <-- aget ps i ;; q <-- aget ps (i - 1)%Z ;;
      um <-- rget u (i - 2)%Z ;; vm <-- rget v (i - 2)%Z ;;
      a <-- fdiv (p_a q * p_a q) um ;;
      b <-- fdiv (p_a q * vm) um ;;
      tension_forward ps todo' (i + 1)%Z (u ++ [p_beta p + p_beta q - a]) (v ++ [p_gamma p - p_gamma q - b])
  end.
(** tension_spline_blueprints.cpp:92-94: from i down to 1; [z] is the part of yddot_data written so far, the
    elements i+1 .. n. *)
Fixpoint tension_back (ps : list tpar) (u v : list R) (i : nat) (z : list R) : fres (list R) :=
  match i with
  | O => FOk z
  | S i' =>
      p <-- aget ps (Z.of_nat i) ;; ui <-- rget u (Z.of_nat i - 1)%Z ;; vi <-- rget v (Z.of_nat i - 1)%Z ;; zn <-- rget z 0 ;;
      zi <-- fdiv (vi - p_a p * zn) ui ;;
      tension_back ps u v i' (zi :: z)
  end.
(** C2TensionSpline, tension_spline_blueprints.cpp:41-96. Fewer than two points: size()-1 is 0 or wraps. *)
Definition c2_tension (debug : bool) (x y : list R) (tau : R) : fres (list R) :=
  if debug && negb (Zlen x =? Zlen y)%Z then FThrow OutOfRangeError
  else if (Zlen x <? 2)%Z then FUB
  else
    let n := (length x - 1)%nat in
    ps <-- tension_params x y tau n 0 ;;
    p1 <-- aget ps 1 ;; p0 <-- aget ps 0 ;;            (* line 82: beta[1] and u[1], arrays of n elements *)
    uv <-- tension_forward ps (n - 2) 2 [p_beta p1 + p_beta p0] [p_gamma p1 - p_gamma p0] ;;
    let '(u, v) := uv in
    z <-- tension_back ps u v (n - 1) [0] ;;
    FOk (0 :: z).
(** C2TensionSpline::apply, tension_spline_blueprints.cpp:104-114. *)
Fixpoint tension_functions (x y z : list R) (todo : nat) (i : Z) : fres (list tfun) :=
  match todo with
  | O => FOk []
  | S todo' =>
      xi <-- rget x i ;; yi <-- rget y i ;; zi <-- rget z i ;;
      xp <-- rget x (i + 1)%Z ;; yp <-- rget y (i + 1)%Z ;; zp <-- rget z (i + 1)%Z ;;
      fs <-- tension_functions x y z todo' (i + 1)%Z ;;
      FOk (mk_tfun xi yi zi xp yp zp :: fs)
  end.
Definition tension_spline (debug : bool) (x y : list R) (tau : R) : fres tspline :=
  z <-- c2_tension debug x y tau ;;
  fs <-- tension_functions x y z (length x - 1) 0 ;; FOk (mk_tspline x tau fs).

(** * Smooth linear splines *)

(** SmoothLinearSpline: discretised_domain, segments, corners. *)
Record lspline := mk_lspline { ls_domain : list R; ls_segments : list (list R); ls_corners : list (list R) }.

(** smooth_linear_spline.cpp:53-55. *)
Fixpoint sl_segments (x y : list R) (todo : nat) (i : Z) : fres (list (list R)) :=
  match todo with
  | O => FOk []
  | S todo' =>
      xi <-- rget x i ;; yi <-- rget y i ;; xp <-- rget x (i + 1)%Z ;; yp <-- rget y (i + 1)%Z ;;
      p <-- linear_interpolation xi yi xp yp ;;
      ps <-- sl_segments x y todo' (i + 1)%Z ;;
      FOk (p :: ps)
  end.
(** One attempt at a corner, lines 70-92: whether the acceleration bound holds, the corner and its ends. *)
Definition sl_try (xm xi xp : R) (first last : bool) (l r : list R) (a_max : R) (j : Z) : fres (bool * list R * R * R) :=
  let x_l := xi - IZR j * (xi - xm) / (if first then 5 else 10) in
  let x_r := xi + IZR j * (xp - xi) / (if last then 5 else 10) in
  q <-- quintic x_l (eval l x_l) (deriv_at l x_l) 0 x_r (eval r x_r) (deriv_at r x_r) 0 ;;
  match deriv (deriv q) with
  | [c0; c1; c2; c3] =>
      FOk ((if Rlt_dec (Rabs (maximum_cubic x_l x_r c0 c1 c2 c3)) (Rabs a_max) then true else false)
           && (if Rlt_dec (Rabs (minimum_cubic x_l x_r c0 c1 c2 c3)) (Rabs a_max) then true else false), q, x_l, x_r)
  | _ => FUB
  end.
(** for j = 1 .. 5, lines 69-107. *)
Fixpoint sl_attempts (xm xi xp : R) (first last : bool) (l r : list R) (a_max : R) (todo : nat) (j : Z) : fres (list R * R * R) :=
  match todo with
  | O => FThrow ConstructorError
  | S todo' =>
      t <-- sl_try xm xi xp first last l r a_max j ;;
      let '(ok, q, x_l, x_r) := t in
      if ok then FOk (q, x_l, x_r) else sl_attempts xm xi xp first last l r a_max todo' (j + 1)%Z
  end.
(** for i = 1 .. n-1, lines 62-109: the corners and the interior of the domain. *)
Fixpoint sl_corners (x : list R) (segs : list (list R)) (a_max : R) (n : Z) (todo : nat) (i : Z) : fres (list (list R) * list R) :=
  match todo with
  | O => FOk ([], [])
  | S todo' =>
      l <-- aget segs (i - 1)%Z ;; r <-- aget segs i ;;
      l0 <-- rget l 0 ;; l1 <-- rget l 1 ;; r1 <-- rget r 1 ;;
      xi <-- rget x i ;;
      c <-- (if Req_EM_T l1 r1 then FOk ([l0; l1; 0; 0; 0; 0], xi, xi)
             else xm <-- rget x (i - 1)%Z ;; xp <-- rget x (i + 1)%Z ;;
                  sl_attempts xm xi xp (i =? 1)%Z (i =? n - 1)%Z l r a_max 5 1) ;;
      let '(q, x_l, x_r) := c in
      rest <-- sl_corners x segs a_max n todo' (i + 1)%Z ;;
      let '(cs, ds) := rest in
      FOk (q :: cs, x_l :: x_r :: ds)
  end.
(** The constructor, lines 30-110. Fewer than two points: n - 1 wraps and domain element 0 does not exist. *)
Definition smooth_linear (x y : list R) (a_max : R) : fres lspline :=
  if negb (Zlen x =? Zlen y)%Z then FThrow OutOfRangeError
  else if (Zlen x <? 2)%Z then FUB
  else
    let n := (length x - 1)%nat in
    segs <-- sl_segments x y n 0 ;;
    x0 <-- rget x 0 ;; xn <-- rget x (Z.of_nat n) ;;
    c <-- sl_corners x segs a_max (Z.of_nat n) (n - 1) 1 ;;
    let '(cs, ds) := c in
    FOk (mk_lspline (x0 :: ds ++ [xn]) segs cs).

(** operator(), derivative, dderivative, lines 112-149: even indices are linear, odd ones quintic. *)
Definition ls_piece (s : lspline) (i : Z) : fres (list R) :=
  if (Z.rem i 2 =? 0)%Z then aget (ls_segments s) (Z.quot i 2) else aget (ls_corners s) (Z.quot (i - 1) 2).
Definition ls_eval (debug : bool) (s : lspline) (x : R) : fres R :=
  i <-- spline_index debug (ls_domain s) x ;; p <-- ls_piece s i ;; FOk (eval p x).
Definition ls_deriv (debug : bool) (s : lspline) (x : R) : fres R :=
  i <-- spline_index debug (ls_domain s) x ;; p <-- ls_piece s i ;; FOk (deriv_at p x).
Definition ls_dderiv (debug : bool) (s : lspline) (x : R) : fres R :=
  i <-- spline_index debug (ls_domain s) x ;; p <-- ls_piece s i ;; FOk (dderiv_at p x).
