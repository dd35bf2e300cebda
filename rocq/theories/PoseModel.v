(** Model of planar poses and odometry: ecl_geometry pose2d.hpp, legacy_pose2d.hpp, odometry_helper.cpp, and of
    ecl_mobile_robot differential_drive.cpp. Floats and doubles are exact reals. *)
From Verif Require Import RBase AngleModel SegModel.
Open Scope R_scope.

(** * Poses stored as (x, y, heading) *)

Record xyh : Type := mk_xyh { px : R; py : R; ph : R }.

(** concatenate_poses, pose2d.hpp:47-63. *)
Definition concatenate (b c : xyh) : xyh :=
  mk_xyh (px b + cos (ph b) * px c - sin (ph b) * py c)
         (py b + sin (ph b) * px c + cos (ph b) * py c)
         (wrap (ph b + ph c)).

(** extend_pose, pose2d.hpp:76-89, and Pose2D::operator*=, pose2d.hpp:167-170, on two distinct objects. The
    comma initialiser stores each coefficient when its operand is reached, but no operand reads a coefficient of
    pose that is already stored. *)
Definition extend (p e : xyh) : xyh :=
  let c := cos (ph p) in
  let s := sin (ph p) in
  let x' := px p + c * px e - s * py e in
  let y' := py p + s * px e + c * py e in
  mk_xyh x' y' (wrap (ph p + ph e)).

(** extend_pose on one object passed as both arguments. The operands of "pose << e1, e2, e3" may all be evaluated
    first (early = true), or e2 and e3 after the call "pose << e1" has stored the first coefficient
    (early = false): before C++17 the order is unspecified, since C++17 it is the second one. *)
Definition extend_self (early : bool) (p : xyh) : xyh :=
  let c := cos (ph p) in
  let s := sin (ph p) in
  let x' := px p + c * px p - s * py p in
  let y' := py p + s * (if early then px p else x') + c * py p in
  mk_xyh x' y' (wrap (ph p + ph p)).

(** * Poses with a rotation matrix or an angle *)

(** RotationType, legacy_pose2d.hpp:67-88: a 2x2 matrix (m00, m01, m10, m11) or an angle. *)
Inductive rotation : Type :=
| RotMatrix (m00 m01 m10 m11 : R)
| RotAngle (a : R).
(** LegacyPose2D, legacy_pose2d.hpp:452-455. *)
Record pose : Type := mk_pose { rot : rotation; tx : R; ty : R }.

(** RotationMatrixMath::Rotation, legacy_pose2d.hpp:116-117; rotationMatrix(), legacy_pose2d.hpp:389. *)
Definition as_matrix (r : rotation) : R * R * R * R :=
  match r with RotMatrix a b c d => (a, b, c, d) | RotAngle a => rotation_matrix a end.
(** Heading, legacy_pose2d.hpp:118, 138; heading(), legacy_pose2d.hpp:388. *)
Definition as_angle (r : rotation) : R :=
  match r with RotMatrix a b c d => from_matrix a c | RotAngle a => a end.
(** Identity, legacy_pose2d.hpp:115, 135, for the storage with a matrix (mat = true) or an angle. *)
Definition rot_identity (mat : bool) : rotation := if mat then RotMatrix 1 0 0 1 else RotAngle (mk_angle 0).
(** RotationMath::Rotation of an angle object, legacy_pose2d.hpp:117, 136; the angle is built from a number. *)
Definition rot_of_angle (mat : bool) (h : R) : rotation :=
  let a := mk_angle h in
  if mat then let '(m00, m01, m10, m11) := rotation_matrix a in RotMatrix m00 m01 m10 m11 else RotAngle a.
(** RotationMath::Rotation of a stored rotation, legacy_pose2d.hpp:116-117, 136-137. *)
Definition rot_convert (mat : bool) (r : rotation) : rotation :=
  if mat then let '(m00, m01, m10, m11) := as_matrix r in RotMatrix m00 m01 m10 m11 else RotAngle (as_angle r).
(** Product, legacy_pose2d.hpp:119-120, 139-140. *)
Definition rot_product (r1 r2 : rotation) : rotation :=
  match r1 with
  | RotMatrix a b c d =>
      let '(e, f, g, h) := as_matrix r2 in
      RotMatrix (a * e + b * g) (a * f + b * h) (c * e + d * g) (c * f + d * h)
  | RotAngle a => RotAngle (plus a (as_angle r2))
  end.
(** Inverse, legacy_pose2d.hpp:121, 141. *)
Definition rot_inverse (r : rotation) : rotation :=
  match r with RotMatrix a b c d => RotMatrix a c b d | RotAngle a => RotAngle (mk_angle (-1 * a)) end.
(** Matrix times column vector. *)
Definition rot_apply (r : rotation) (x y : R) : R * R :=
  let '(a, b, c, d) := as_matrix r in (a * x + b * y, c * x + d * y).

(** Constructors and setPose, legacy_pose2d.hpp:212-223, 356; Identity(), legacy_pose2d.hpp:349-351. *)
Definition pose_identity (mat : bool) : pose := mk_pose (rot_identity mat) 0 0.
Definition pose_make (mat : bool) (x y h : R) : pose := mk_pose (rot_of_angle mat h) x y.
(** Conversion between the storages, legacy_pose2d.hpp:263-267, 279-284. *)
Definition pose_convert (mat : bool) (p : pose) : pose := mk_pose (rot_convert mat (rot p)) (tx p) (ty p).
(** inverse(), legacy_pose2d.hpp:401-406. *)
Definition pose_inverse (p : pose) : pose :=
  let r := rot_inverse (rot p) in
  let '(x, y) := rot_apply r (tx p) (ty p) in
  mk_pose r (-1 * x) (-1 * y).
(** operator*, legacy_pose2d.hpp:413-416. *)
Definition pose_product (p q : pose) : pose :=
  let '(x, y) := rot_apply (rot p) (tx q) (ty q) in
  mk_pose (rot_product (rot p) (rot q)) (tx p + x) (ty p + y).
(** operator*=, legacy_pose2d.hpp:422-426 (the product is a new object before it is assigned). *)
Definition pose_times_assign (p q : pose) : pose := pose_product p q.
(** relative(), legacy_pose2d.hpp:441-444. *)
Definition pose_relative (p ref : pose) : pose := pose_product (pose_inverse ref) p.

(** * Trajectories: matrices with one column per pose, odometry_helper.cpp *)

(** Euclidean distance of two positions; (a - b).norm() in odometry_helper.cpp:34, 78-91. *)
Definition norm2 (x y : R) : R := sqrt (x * x + y * y).
(** distance(a, b) of two poses, odometry_helper.cpp:78-91; distanceSqared, odometry_helper.cpp:93-101. *)
Definition pose_distance (a b : xyh) : R := norm2 (px a - px b) (py a - py b).
Definition pose_distance_squared (a b : xyh) : R :=
  (px a - px b) * (px a - px b) + (py a - py b) * (py a - py b).

(** The loop of distance(position, trajectory), odometry_helper.cpp:37-53; None is the initial infinity. *)
Fixpoint segments_min (best : option R) (sx sy : R) (rest : list xyh) (x y : R) : option R :=
  match rest with
  | [] => best
  | e :: tl =>
      let t := squared_distance sx sy (px e) (py e) x y in
      let best' := match best with
                   | None => Some t
                   | Some m => if Rlt_dec t m then Some t else Some m
                   end in
      segments_min best' (px e) (py e) tl x y
  end.
(** distance(position, trajectory), odometry_helper.cpp:23-56. The first column of a trajectory without columns is
    read out of bounds. *)
Definition trajectory_distance (x y : R) (t : list xyh) : fres R :=
  match t with
  | [] => FUB
  | p :: tl =>
      if Z.eqb (Zlen t) 1 then FOk (norm2 (x - px p) (y - py p))
      else match segments_min None (px p) (py p) tl x y with
           | None => FNonFinite
           | Some m => fsqrt m
           end
  end.

(** addAtEnd, odometry_helper.cpp:103-123. "target << addition" is Eigen's comma initialiser: it copies the
    addition into the top left corner of the target, which keeps its size. A block that does not fit, or one that
    does not fill the target, fails Eigen's assertions in a debug build (abort: FUB); in a release build the first
    writes out of bounds. *)
Definition add_at_end {A} (debug : bool) (target addition : list A) : fres (list A) :=
  if Z.eqb (Zlen target) 0 then FOk addition
  else if (Zlen target <? Zlen addition)%Z then FUB
  else if debug && negb (Zlen target =? Zlen addition)%Z then FUB
  else FOk (addition ++ skipn (length addition) target).

(** setAt and getAt, odometry_helper.cpp:161-179: one column; outside the matrix: assertion or out of bounds. *)
Definition set_at {A} (t : list A) (i : Z) (p : A) : fres (list A) :=
  match zget t i with None => FUB | Some _ => FOk (zset t i p) end.
Definition get_at {A} (t : list A) (i : Z) : fres A :=
  match zget t i with None => FUB | Some p => FOk p end.
(** getFront and getBack, odometry_helper.cpp:181-199. *)
Definition get_front {A} (t : list A) : fres A := get_at t 0.
Definition get_back {A} (t : list A) : fres A := get_at t (Zlen t - 1).
(** vectorToTrajectory, odometry_helper.cpp:125-149: a matrix of the right size, with undetermined contents
    [junk], is filled column by column. *)
Fixpoint fill {A} (t : list A) (i : Z) (v : list A) : fres (list A) :=
  match v with
  | [] => FOk t
  | p :: tl => t' <-- set_at t i p ;; fill t' (i + 1) tl
  end.
Definition vector_to_trajectory {A} (junk : nat -> A) (v : list A) : fres (list A) :=
  fill (map junk (seq 0 (length v))) 0 v.
(** resize, odometry_helper.cpp:151-159: conservativeResize keeps the columns that fit; new ones are undetermined;
    a negative size fails an assertion. *)
Definition resize {A} (junk : nat -> A) (t : list A) (n : Z) : fres (list A) :=
  if (n <? 0)%Z then FUB
  else FOk (firstn (Z.to_nat n) t ++ map junk (seq (length t) (Z.to_nat n - length t))).

(** Odometry: a pose and a twist (Odom2D, a vector of six floats), odometry_helper.cpp:201-209, 329-360. *)
Record odom : Type := mk_odom { o_pose : xyh; o_twist : xyh }.
(** getPoses and getTwists, odometry_helper.cpp:201-209. *)
Definition get_poses (t : list odom) : list xyh := map o_pose t.
Definition get_twists (t : list odom) : list xyh := map o_twist t.

(** * Differential drive, differential_drive.cpp; the object holds bias (axle length) and radius *)

(** poseUpdateFromWheelDifferential, differential_drive.cpp:37-46. *)
Definition wheel_update (bias radius dleft dright : R) : fres xyh :=
  let ds := radius * (dleft + dright) / 2 in
  domega <-- fdiv (radius * (dright - dleft)) bias ;;
  FOk (mk_xyh ds 0 (wrap domega)).
(** poseUpdateFromBaseDifferential, differential_drive.cpp:48-57. *)
Definition base_update (translation rotation : R) : xyh := mk_xyh translation 0 (wrap rotation).
(** baseToWheelVelocities, differential_drive.cpp:59-67: (left, right). *)
Definition base_to_wheel (bias radius v w : R) : fres (R * R) :=
  right <-- fdiv (2 * v + w * bias) (2 * radius) ;;
  q <-- fdiv (2 * v) radius ;;
  FOk (q - right, right).
(** PoseToBaseDifferential, differential_drive.cpp:69-86: (ds, dtheta). The 2x2 inverse is Eigen's: the adjugate
    times the reciprocal of the determinant. *)
Definition pose_to_base (a b : xyh) : fres (R * R) :=
  let dx := px b - px a in
  let dy := py b - py a in
  let '(m00, m01, m10, m11) := rotation_matrix (mk_angle (ph a)) in
  invdet <-- fdiv 1 (m00 * m11 - m01 * m10) ;;
  let r0 := m11 * invdet * dx + - m01 * invdet * dy in
  let r1 := - m10 * invdet * dx + m00 * invdet * dy in
  s <-- fsqrt (r0 * r0 + r1 * r1) ;;
  let ds := if Rlt_dec r0 0 then - s else s in
  FOk (ds, wrap (ph b - ph a)).
