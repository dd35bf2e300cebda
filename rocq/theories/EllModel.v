(** Covariance ellipsoids in three dimensions: ecl_statistics/src/lib/covariance_ellipsoid.cpp:229-296 and
    include/ecl/statistics/covariance_ellipsoid.hpp:217-278, 437-498.  Floats and doubles are exact reals.  Eigen's EigenSolver is not modelled: the
    eigenvalues and eigenvectors it answers (pseudoEigenvalueMatrix() and pseudoEigenvectors() of a matrix with real eigenvalues) are an input. *)
From Verif Require Import RBase.
Open Scope R_scope.

(** A vector of three elements; a matrix by its columns. *)
Record vec3 : Type := V3 { c0 : R; c1 : R; c2 : R }.
Definition dot3 (u v : vec3) : R := c0 u * c0 v + c1 u * c1 v + c2 u * c2 v.
(** cross() of Eigen. *)
Definition cross3 (u v : vec3) : vec3 := V3 (c1 u * c2 v - c2 u * c1 v) (c2 u * c0 v - c0 u * c2 v) (c0 u * c1 v - c1 u * c0 v).
(** normalize() of Eigen: divides by the norm if the squared norm is positive. *)
Definition normalize3 (v : vec3) : fres vec3 :=
  let z := dot3 v v in
  if Rlt_dec 0 z then s <-- fsqrt z ;; x <-- fdiv (c0 v) s ;; y <-- fdiv (c1 v) s ;; w <-- fdiv (c2 v) s ;; FOk (V3 x y w) else FOk v.
(** The members ellipse_lengths and ellipse_axes (three columns). *)
Record ellipsoid : Type := mk_ell { e_len : R * R * R; e_ax : vec3 * vec3 * vec3 }.
(** CovarianceEllipsoid(), covariance_ellipsoid.cpp:232-235, 265-268. *)
Definition ell_new : ellipsoid := mk_ell (1, 1, 1) (V3 1 0 0, V3 0 1 0, V3 0 0 1).
(** compute(M, sort), 240-263 (float), 273-295 (double), given what the solver answered. *)
Definition ell_compute (values : R * R * R) (vectors : vec3 * vec3 * vec3) (sort : bool) : fres ellipsoid :=
  let '(l0, l1, l2) := values in
  let '(v0, v1, v2) := vectors in
  s0 <-- fsqrt l0 ;; s1 <-- fsqrt l1 ;; s2 <-- fsqrt l2 ;;                                       (* 244-246 *)
  if sort then
    n0 <-- normalize3 v0 ;; n1 <-- normalize3 v1 ;; n2 <-- normalize3 v2 ;;                      (* 252-254 *)
    if Rlt_dec (dot3 (cross3 n0 n1) n2) 0 then FOk (mk_ell (s1, s0, s2) (n1, n0, n2))            (* 255-258 *)
    else FOk (mk_ell (s0, s1, s2) (n0, n1, n2))                                                  (* 260 *)
  else FOk (mk_ell (s0, s1, s2) (v0, v1, v2)).
