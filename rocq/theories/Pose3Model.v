(** Model of poses in space, ecl_geometry legacy_pose3d.hpp; of points, cartesian_point.hpp and
    homogeneous_point.hpp; and of ecl_math norms.hpp. Floats and doubles are exact reals; the arithmetic of Eigen
    (transpose, products, Quaternion::toRotationMatrix) is transcribed, its source is not in the repository. *)
From Verif Require Import RBase AngleModel PoseModel.
Open Scope R_scope.

(** * Vectors and matrices of Eigen *)

Record v3 : Type := mk_v3 { vx : R; vy : R; vz : R }.
(** A 3x3 matrix, mRC in row R and column C. *)
Record m33 : Type := mk_m33 {
  m00 : R; m01 : R; m02 : R;
  m10 : R; m11 : R; m12 : R;
  m20 : R; m21 : R; m22 : R }.

Definition identity33 : m33 := mk_m33 1 0 0 0 1 0 0 0 1.
Definition zero3 : v3 := mk_v3 0 0 0.
Definition transpose (a : m33) : m33 :=
  mk_m33 (m00 a) (m10 a) (m20 a) (m01 a) (m11 a) (m21 a) (m02 a) (m12 a) (m22 a).
Definition mat_mul (a b : m33) : m33 :=
  mk_m33 (m00 a * m00 b + m01 a * m10 b + m02 a * m20 b)
         (m00 a * m01 b + m01 a * m11 b + m02 a * m21 b)
         (m00 a * m02 b + m01 a * m12 b + m02 a * m22 b)
         (m10 a * m00 b + m11 a * m10 b + m12 a * m20 b)
         (m10 a * m01 b + m11 a * m11 b + m12 a * m21 b)
         (m10 a * m02 b + m11 a * m12 b + m12 a * m22 b)
         (m20 a * m00 b + m21 a * m10 b + m22 a * m20 b)
         (m20 a * m01 b + m21 a * m11 b + m22 a * m21 b)
         (m20 a * m02 b + m21 a * m12 b + m22 a * m22 b).
Definition mat_vec (a : m33) (v : v3) : v3 :=
  mk_v3 (m00 a * vx v + m01 a * vy v + m02 a * vz v)
        (m10 a * vx v + m11 a * vy v + m12 a * vz v)
        (m20 a * vx v + m21 a * vy v + m22 a * vz v).
Definition vec_add (u v : v3) : v3 := mk_v3 (vx u + vx v) (vy u + vy v) (vz u + vz v).
Definition vec_scale (s : R) (v : v3) : v3 := mk_v3 (s * vx v) (s * vy v) (s * vz v).

(** Eigen's Quaternion (w, x, y, z), and its toRotationMatrix, which does not normalise. *)
Record quat : Type := mk_quat { qw : R; qx : R; qy : R; qz : R }.
Definition to_rotation_matrix (q : quat) : m33 :=
  let tx := 2 * qx q in let ty := 2 * qy q in let tz := 2 * qz q in
  let twx := tx * qw q in let twy := ty * qw q in let twz := tz * qw q in
  let txx := tx * qx q in let txy := ty * qx q in let txz := tz * qx q in
  let tyy := ty * qy q in let tyz := tz * qy q in let tzz := tz * qz q in
  mk_m33 (1 - (tyy + tzz)) (txy - twz) (txz + twy)
         (txy + twz) (1 - (txx + tzz)) (tyz - twx)
         (txz - twy) (tyz + twx) (1 - (txx + tyy)).
(** Eigen's AngleAxis. *)
Record angle_axis : Type := mk_angle_axis { aa_angle : R; aa_axis : v3 }.

(** * LegacyPose3D, legacy_pose3d.hpp:60-296 *)

(** The fields rot and trans, legacy_pose3d.hpp:294-295. *)
Record pose3 : Type := mk_pose3 { rot3 : m33; trans3 : v3 }.

(** Default constructor, legacy_pose3d.hpp:80. *)
Definition pose3_default : pose3 := mk_pose3 identity33 zero3.
(** Constructor from a matrix and a vector, legacy_pose3d.hpp:93-98. *)
Definition pose3_make (m : m33) (t : v3) : pose3 := mk_pose3 m t.
(** Overwriting the block<2,2>(0,0) of a matrix and the segment<2>(0) of a vector. *)
Definition set_block22 (m : m33) (b : R * R * R * R) : m33 :=
  let '(b00, b01, b10, b11) := b in
  mk_m33 b00 b01 (m02 m) b10 b11 (m12 m) (m20 m) (m21 m) (m22 m).
Definition set_segment2 (v : v3) (x y : R) : v3 := mk_v3 x y (vz v).
(** Constructor from a planar pose, legacy_pose3d.hpp:106-113. *)
Definition pose3_of_pose2 (p : pose) : pose3 :=
  mk_pose3 (set_block22 identity33 (as_matrix (rot p))) (set_segment2 zero3 (tx p) (ty p)).
(** Constructor from an AngleAxis, legacy_pose3d.hpp:122-130: both arguments are ignored. *)
Definition pose3_of_angle_axis (aa : angle_axis) (t : v3) : pose3 := mk_pose3 identity33 zero3.
(** Constructor from a Quaternion, legacy_pose3d.hpp:138-142. *)
Definition pose3_of_quat (q : quat) (t : v3) : pose3 := mk_pose3 (to_rotation_matrix q) t.
(** Copy constructor and assignment, legacy_pose3d.hpp:148-151, 178-182. *)
Definition pose3_copy (p : pose3) : pose3 := mk_pose3 (rot3 p) (trans3 p).
Definition pose3_assign (this p : pose3) : pose3 := mk_pose3 (rot3 p) (trans3 p).
(** Assignment of a planar pose, legacy_pose3d.hpp:163-171: five overwritten blocks. *)
Definition pose3_assign2 (this : pose3) (p : pose) : pose3 :=
  let r1 := set_block22 (rot3 this) (as_matrix (rot p)) in
  let r2 := mk_m33 (m00 r1) (m01 r1) 0 (m10 r1) (m11 r1) 0 (m20 r1) (m21 r1) (m22 r1) in
  let r3 := mk_m33 (m00 r2) (m01 r2) (m02 r2) (m10 r2) (m11 r2) (m12 r2) 0 0 1 in
  let t1 := set_segment2 (trans3 this) (tx p) (ty p) in
  mk_pose3 r3 (mk_v3 (vx t1) (vy t1) 0).
(** The setters rotation(m) and translation(t), legacy_pose3d.hpp:193-208. *)
Definition pose3_set_rotation (p : pose3) (m : m33) : pose3 := mk_pose3 m (trans3 p).
Definition pose3_set_translation (p : pose3) (t : v3) : pose3 := mk_pose3 (rot3 p) t.
(** inverse(), legacy_pose3d.hpp:242-247. *)
Definition pose3_inverse (p : pose3) : pose3 :=
  let i := pose3_set_rotation pose3_default (transpose (rot3 p)) in
  pose3_set_translation i (vec_scale (-1) (mat_vec (rot3 i) (trans3 p))).
(** operator*, legacy_pose3d.hpp:253-256. *)
Definition pose3_product (p q : pose3) : pose3 :=
  pose3_make (mat_mul (rot3 p) (rot3 q)) (vec_add (trans3 p) (mat_vec (rot3 p) (trans3 q))).
(** operator*=, legacy_pose3d.hpp:266-271: the product is a new object before it is assigned. *)
Definition pose3_times_assign (p q : pose3) : pose3 := pose3_assign p (pose3_product p q).
(** relative(), legacy_pose3d.hpp:280-283. *)
Definition pose3_relative (p ref : pose3) : pose3 := pose3_product (pose3_inverse ref) p.

(** * Norms, norms.hpp *)

(** euclidean_norm and EuclideanNorm on doubles, norms.hpp:48-51, 61-64, 81-84, 94-97. *)
Definition norm_r2 (x1 x2 : R) : R := sqrt (x1 * x1 + x2 * x2).
Definition norm_r3 (x1 x2 x3 : R) : R := sqrt (x1 * x1 + x2 * x2 + x3 * x3).
(** The same on int: each product and sum must fit 32 bits (otherwise undefined), the square root is computed on the
    double and the result is truncated to int. *)
Definition int32 (z : Z) : fres Z := if (andb (-2147483648 <=? z) (z <=? 2147483647))%Z then FOk z else FUB.
Definition int_of_double (x : R) : fres Z := int32 (rtrunc x).
Definition norm_z2 (x1 x2 : Z) : fres Z :=
  a <-- int32 (x1 * x1) ;; b <-- int32 (x2 * x2) ;; s <-- int32 (a + b) ;; int_of_double (sqrt (IZR s)).
Definition norm_z3 (x1 x2 x3 : Z) : fres Z :=
  a <-- int32 (x1 * x1) ;; b <-- int32 (x2 * x2) ;; s <-- int32 (a + b) ;;
  c <-- int32 (x3 * x3) ;; t <-- int32 (s + c) ;; int_of_double (sqrt (IZR t)).

(** * CartesianPoint<double,2>, cartesian_point.hpp:298-497 *)

Record point : Type := mk_point { p_x : R; p_y : R }.
(** Constructors, cartesian_point.hpp:304-320; operator= 354-358. *)
Definition point_const (v : R) : point := mk_point v v.
Definition point_assign (this v : point) : point := v.
(** operator[] for reading, cartesian_point.hpp:349-352, and writing through, 344-347. *)
Definition point_get (debug : bool) (p : point) (i : Z) : fres R :=
  if debug && negb (i <? 2)%Z then FThrow OutOfRangeError
  else if (i =? 0)%Z then FOk (p_x p) else if (i =? 1)%Z then FOk (p_y p) else FUB.
Definition point_set (debug : bool) (p : point) (i : Z) (v : R) : fres point :=
  if debug && negb (i <? 2)%Z then FThrow OutOfRangeError
  else if (i =? 0)%Z then FOk (mk_point v (p_y p)) else if (i =? 1)%Z then FOk (mk_point (p_x p) v) else FUB.
(** operator== and !=, cartesian_point.hpp:411-421. *)
Definition point_eqb (p q : point) : bool :=
  if Req_EM_T (p_x q) (p_x p) then (if Req_EM_T (p_y q) (p_y p) then true else false) else false.
Definition point_neqb (p q : point) : bool :=
  if Req_EM_T (p_x q) (p_x p) then (if Req_EM_T (p_y q) (p_y p) then false else true) else true.
(** rotate, cartesian_point.hpp:423-432. *)
Definition point_rotate (p : point) (angle : R) : point :=
  let c := cos angle in
  let s := sin angle in
  let tx := p_x p * c - p_y p * s in
  let ty := p_x p * s + p_y p * c in
  mk_point tx ty.
(** get_angle, cartesian_point.hpp:434-437. *)
Definition point_angle (p : point) : R := atan2 (p_y p) (p_x p).
(** operator+=, +, -, *, cartesian_point.hpp:439-442, 466-479. *)
Definition point_plus_assign (p q : point) : point := mk_point (p_x p + p_x q) (p_y p + p_y q).
Definition point_times (p : point) (d : R) : point := mk_point (p_x p * d) (p_y p * d).
Definition point_plus (p q : point) : point := mk_point (p_x p + p_x q) (p_y p + p_y q).
Definition point_minus (p q : point) : point := mk_point (p_x p - p_x q) (p_y p - p_y q).
(** distance, cartesian_point.hpp:444-448. *)
Definition point_distance (p q : point) : R :=
  let t := point_minus p q in sqrt (p_x t * p_x t + p_y t * p_y t).
(** Normalize, cartesian_point.hpp:450-464: the new point and the returned magnitude. *)
Definition point_normalize (p : point) : point * R :=
  let mag := norm_r2 (p_x p) (p_y p) in
  if Req_EM_T mag 0 then (mk_point 1 0, mag)
  else (mk_point (p_x p * (1 / mag)) (p_y p * (1 / mag)), mag).
(** Norm, cartesian_point.hpp:481-485. *)
Definition point_norm (p : point) : R := norm_r2 (p_x p) (p_y p).

(** * CartesianPoint<int,2>: the same functions with the conversions of int *)

Record zpoint : Type := mk_zpoint { z_x : Z; z_y : Z }.
(** rotate, cartesian_point.hpp:423-432: the doubles (exact here) are truncated when they are stored. *)
Definition zpoint_rotate (p : zpoint) (angle : R) : fres zpoint :=
  let c := cos angle in
  let s := sin angle in
  let tx := IZR (z_x p) * c - IZR (z_y p) * s in
  let ty := IZR (z_x p) * s + IZR (z_y p) * c in
  x <-- int_of_double tx ;; y <-- int_of_double ty ;; FOk (mk_zpoint x y).
(** distance, cartesian_point.hpp:444-448. *)
Definition zpoint_distance (p q : zpoint) : fres Z :=
  dx <-- int32 (z_x p - z_x q) ;; dy <-- int32 (z_y p - z_y q) ;;
  a <-- int32 (dx * dx) ;; b <-- int32 (dy * dy) ;; s <-- int32 (a + b) ;; int_of_double (sqrt (IZR s)).
(** Normalize, cartesian_point.hpp:450-464: "elements[0] *= 1.0/mag" computes with doubles, here rounded to nearest
    even as they are, and truncates the product. *)
Definition zpoint_normalize (p : zpoint) : fres (zpoint * Z) :=
  mag <-- norm_z2 (z_x p) (z_y p) ;;
  if (mag =? 0)%Z then FOk (mk_zpoint 1 0, mag)
  else x <-- int_of_double (rnd (IZR (z_x p) * rnd (1 / IZR mag))) ;;
       y <-- int_of_double (rnd (IZR (z_y p) * rnd (1 / IZR mag))) ;;
       FOk (mk_zpoint x y, mag).
(** operator+=, + and -, cartesian_point.hpp:439-442, 471-479. *)
Definition zpoint_plus (p q : zpoint) : fres zpoint :=
  x <-- int32 (z_x p + z_x q) ;; y <-- int32 (z_y p + z_y q) ;; FOk (mk_zpoint x y).
Definition zpoint_minus (p q : zpoint) : fres zpoint :=
  x <-- int32 (z_x p - z_x q) ;; y <-- int32 (z_y p - z_y q) ;; FOk (mk_zpoint x y).

(** * HomogeneousPoint, homogeneous_point.hpp:56-185 *)

(** The four elements, homogeneous_point.hpp:184. *)
Record hpoint : Type := mk_hpoint { h_x : R; h_y : R; h_z : R; h_w : R }.
(** What a program does with a homogeneous point. *)
Inductive hctor : Type :=
| HConst (v : R)                 (* homogeneous_point.hpp:62-65 *)
| HVec3 (v : v3)                 (* homogeneous_point.hpp:74-77 *)
| HVec4 (v : hpoint)             (* homogeneous_point.hpp:85-87 *)
| HCoords (x y z : R).           (* homogeneous_point.hpp:95-97 *)
Definition h_construct (debug : bool) (c : hctor) : fres hpoint :=
  match c with
  | HConst v => FOk (mk_hpoint v v v 1)
  | HVec3 v => FOk (mk_hpoint (vx v) (vy v) (vz v) 1)
  | HVec4 v => if debug then (if Req_EM_T (h_w v) 1 then FOk v else FThrow InvalidInputError) else FOk v
  | HCoords x y z => FOk (mk_hpoint x y z 1)
  end.
Inductive hcall : Type :=
| HSetX (v : R) | HSetY (v : R) | HSetZ (v : R)   (* homogeneous_point.hpp:176-178 *)
| HComma (vs : list R)           (* point << a, b, ...: homogeneous_point.hpp:117-119 *)
| HElement (i : Z) (v : R).      (* point.positionVector()[i] = v: homogeneous_point.hpp:128 *)
(** Eigen's comma initialiser stores the values in order; in a debug build it asserts that there are exactly four
    (abort: FUB), in a release build missing ones leave the rest as it is and too many are written outside. *)
Definition h_perform (debug : bool) (p : hpoint) (c : hcall) : fres hpoint :=
  match c with
  | HSetX v => FOk (mk_hpoint v (h_y p) (h_z p) (h_w p))
  | HSetY v => FOk (mk_hpoint (h_x p) v (h_z p) (h_w p))
  | HSetZ v => FOk (mk_hpoint (h_x p) (h_y p) v (h_w p))
  | HComma [a] => if debug then FUB else FOk (mk_hpoint a (h_y p) (h_z p) (h_w p))
  | HComma [a; b] => if debug then FUB else FOk (mk_hpoint a b (h_z p) (h_w p))
  | HComma [a; b; c] => if debug then FUB else FOk (mk_hpoint a b c (h_w p))
  | HComma [a; b; c; d] => FOk (mk_hpoint a b c d)
  | HComma _ => FUB
  | HElement i v =>
      if (i =? 0)%Z then FOk (mk_hpoint v (h_y p) (h_z p) (h_w p))
      else if (i =? 1)%Z then FOk (mk_hpoint (h_x p) v (h_z p) (h_w p))
      else if (i =? 2)%Z then FOk (mk_hpoint (h_x p) (h_y p) v (h_w p))
      else if (i =? 3)%Z then FOk (mk_hpoint (h_x p) (h_y p) (h_z p) v)
      else FUB
  end.
Fixpoint h_performs (debug : bool) (p : hpoint) (cs : list hcall) : fres hpoint :=
  match cs with
  | [] => FOk p
  | c :: tl => q <-- h_perform debug p c ;; h_performs debug q tl
  end.
