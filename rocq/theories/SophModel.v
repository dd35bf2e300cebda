(** Model of the Sophus helpers and interpolators, ecl_linear_algebra src/lib/sophus_helpers.cpp, sophus_interpolators.cpp,
    include/ecl/linear_algebra/sophus/helpers.hpp and interpolators.hpp. Floats are exact reals. Sophus and Eigen are not in
    the repository: their formulas are transcribed, without the Taylor branches Sophus takes for very small angles (the exact
    values those branches approximate are used) and without its renormalisation of quaternions (exact here). *)
From Verif Require Import RBase AngleModel PoseModel Pose3Model.
Open Scope R_scope.

(** * Eigen: products of quaternions, angle-axis, and the quaternion of a matrix *)

Definition q_mul (a b : quat) : quat :=
  mk_quat (qw a * qw b - qx a * qx b - qy a * qy b - qz a * qz b)
          (qw a * qx b + qx a * qw b + qy a * qz b - qz a * qy b)
          (qw a * qy b + qy a * qw b + qz a * qx b - qx a * qz b)
          (qw a * qz b + qz a * qw b + qx a * qy b - qy a * qx b).
Definition q_conj (a : quat) : quat := mk_quat (qw a) (- qx a) (- qy a) (- qz a).
(** Quaternion(AngleAxis) and normalize. *)
Definition q_of_angle_axis (a : R) (u : v3) : quat :=
  mk_quat (cos (a / 2)) (sin (a / 2) * vx u) (sin (a / 2) * vy u) (sin (a / 2) * vz u).
Definition q_normalize (a : quat) : quat :=
  let n := sqrt (qw a * qw a + qx a * qx a + qy a * qy a + qz a * qz a) in
  mk_quat (qw a / n) (qx a / n) (qy a / n) (qz a / n).
(** Quaternion(Matrix3f). *)
Definition q_of_matrix (m : m33) : quat :=
  let tr := m00 m + m11 m + m22 m in
  if Rlt_dec 0 tr then
    let t := sqrt (tr + 1) in
    mk_quat (t / 2) ((m21 m - m12 m) * (1 / 2 / t)) ((m02 m - m20 m) * (1 / 2 / t)) ((m10 m - m01 m) * (1 / 2 / t))
  else
    let i := if Rlt_dec (m00 m) (m11 m) then 1%Z else 0%Z in
    let mii := if Rlt_dec (m00 m) (m11 m) then m11 m else m00 m in
    let i := if Rlt_dec mii (m22 m) then 2%Z else i in
    if (i =? 0)%Z then
      let t := sqrt (m00 m - m11 m - m22 m + 1) in
      mk_quat ((m21 m - m12 m) * (1 / 2 / t)) (t / 2) ((m10 m + m01 m) * (1 / 2 / t)) ((m20 m + m02 m) * (1 / 2 / t))
    else if (i =? 1)%Z then
      let t := sqrt (m11 m - m22 m - m00 m + 1) in
      mk_quat ((m02 m - m20 m) * (1 / 2 / t)) ((m01 m + m10 m) * (1 / 2 / t)) (t / 2) ((m21 m + m12 m) * (1 / 2 / t))
    else
      let t := sqrt (m22 m - m00 m - m11 m + 1) in
      mk_quat ((m10 m - m01 m) * (1 / 2 / t)) ((m02 m + m20 m) * (1 / 2 / t)) ((m12 m + m21 m) * (1 / 2 / t)) (t / 2).
(** AngleAxis::toRotationMatrix. *)
Definition m_of_angle_axis (a : R) (u : v3) : m33 :=
  let sx := sin a * vx u in let sy := sin a * vy u in let sz := sin a * vz u in
  let cx := (1 - cos a) * vx u in let cy := (1 - cos a) * vy u in let cz := (1 - cos a) * vz u in
  mk_m33 (cx * vx u + cos a) (cx * vy u - sz) (cx * vz u + sy)
         (cx * vy u + sz) (cy * vy u + cos a) (cy * vz u - sx)
         (cx * vz u - sy) (cy * vz u + sx) (cz * vz u + cos a).
Definition unit_x : v3 := mk_v3 1 0 0.
Definition unit_y : v3 := mk_v3 0 1 0.
Definition unit_z : v3 := mk_v3 0 0 1.

(** * Sophus: SE3, SE2 *)

Record se3 : Type := mk_se3 { sq : quat; st : v3 }.
Definition se3_rotation_matrix (t : se3) : m33 := to_rotation_matrix (sq t).
(** SE3(R, t), inverse() and operator*. *)
Definition se3_of_matrix (m : m33) (t : v3) : se3 := mk_se3 (q_of_matrix m) t.
Definition se3_inverse (a : se3) : se3 :=
  mk_se3 (q_conj (sq a)) (vec_scale (-1) (mat_vec (to_rotation_matrix (q_conj (sq a))) (st a))).
Definition se3_mul (a b : se3) : se3 :=
  mk_se3 (q_mul (sq a) (sq b)) (vec_add (st a) (mat_vec (to_rotation_matrix (sq a)) (st b))).
(** SO3::hat, expAndTheta and logAndTheta. *)
Definition hat (w : v3) : m33 := mk_m33 0 (- vz w) (vy w) (vz w) 0 (- vx w) (- vy w) (vx w) 0.
Definition v_norm (w : v3) : R := sqrt (vx w * vx w + vy w * vy w + vz w * vz w).
Definition so3_exp (w : v3) : quat :=
  let theta := v_norm w in
  if Req_EM_T theta 0 then mk_quat 1 (vx w / 2) (vy w / 2) (vz w / 2)
  else let f := sin (theta / 2) / theta in mk_quat (cos (theta / 2)) (f * vx w) (f * vy w) (f * vz w).
Definition so3_log_theta (q : quat) : v3 * R :=
  let n := v_norm (mk_v3 (qx q) (qy q) (qz q)) in
  let f := if Req_EM_T n 0 then 2 / qw q
           else if Req_EM_T (qw q) 0 then (if Rlt_dec 0 (qw q) then PI / n else - PI / n)
           else 2 * atan (n / qw q) / n in
  (mk_v3 (f * qx q) (f * qy q) (f * qz q), f * n).
(** SE3::exp and log; a tangent is (upsilon, omega). *)
Record tangent3 : Type := mk_tan3 { ups : v3; omg : v3 }.
Definition mat_add (a b : m33) : m33 :=
  mk_m33 (m00 a + m00 b) (m01 a + m01 b) (m02 a + m02 b) (m10 a + m10 b) (m11 a + m11 b) (m12 a + m12 b)
         (m20 a + m20 b) (m21 a + m21 b) (m22 a + m22 b).
Definition mat_scale (s : R) (a : m33) : m33 :=
  mk_m33 (s * m00 a) (s * m01 a) (s * m02 a) (s * m10 a) (s * m11 a) (s * m12 a) (s * m20 a) (s * m21 a) (s * m22 a).
Definition tan3_scale (s : R) (a : tangent3) : tangent3 := mk_tan3 (vec_scale s (ups a)) (vec_scale s (omg a)).
Definition se3_exp (a : tangent3) : se3 :=
  let theta := v_norm (omg a) in
  let o := hat (omg a) in
  let v := if Req_EM_T theta 0 then to_rotation_matrix (so3_exp (omg a))
           else mat_add identity33 (mat_add (mat_scale ((1 - cos theta) / (theta * theta)) o)
                  (mat_scale ((theta - sin theta) / (theta * theta * theta)) (mat_mul o o))) in
  mk_se3 (so3_exp (omg a)) (mat_vec v (ups a)).
Definition se3_log (a : se3) : tangent3 :=
  let '(w, theta) := so3_log_theta (sq a) in
  let o := hat w in
  let vinv := if Req_EM_T theta 0 then mat_add identity33 (mat_add (mat_scale (- (1 / 2)) o) (mat_scale (1 / 12) (mat_mul o o)))
              else mat_add identity33 (mat_add (mat_scale (- (1 / 2)) o)
                     (mat_scale ((1 - theta / (2 * tan (theta / 2))) / (theta * theta)) (mat_mul o o))) in
  mk_tan3 (mat_vec vinv (st a)) w.
(** SE2(angle, t), inverse, exp and log; the rotation is a unit complex number. A tangent is (x, y, theta). *)
Record se2 : Type := mk_se2 { zc : R; zs : R; zx : R; zy : R }.
Definition se2_make (a x y : R) : se2 := mk_se2 (cos a) (sin a) x y.
Definition se2_inverse (a : se2) : se2 :=
  mk_se2 (zc a) (- zs a) (- (zc a * zx a + zs a * zy a)) (- (- zs a * zx a + zc a * zy a)).
Definition so2_log (a : se2) : R := atan2 (zs a) (zc a).
Definition se2_exp (t : v3) : se2 :=
  let theta := vz t in
  let s := if Req_EM_T theta 0 then 1 else sin theta / theta in
  let c := if Req_EM_T theta 0 then 0 else (1 - cos theta) / theta in
  mk_se2 (cos theta) (sin theta) (s * vx t - c * vy t) (c * vx t + s * vy t).
Definition se2_log (a : se2) : v3 :=
  let theta := so2_log a in
  let half := theta / 2 in
  let h := if Req_EM_T (zc a - 1) 0 then 1 else - (half * zs a) / (zc a - 1) in
  mk_v3 (h * zx a + half * zy a) (- half * zx a + h * zy a) theta.

(** * sophus_helpers.cpp, helpers.hpp *)

(** toPose2D, sophus_helpers.cpp:22-31. *)
Definition to_pose2d (p : se3) : v3 :=
  let r := se3_rotation_matrix p in mk_v3 (vx (st p)) (vy (st p)) (atan2 (m10 r) (m00 r)).
(** toPose3D, sophus_helpers.cpp:33-44: the product of angle-axes is a product of quaternions. *)
Definition to_pose3d (p : v3) : se3 :=
  let r := to_rotation_matrix (q_mul (q_mul (q_of_angle_axis (vz p) unit_z) (q_of_angle_axis 0 unit_y)) (q_of_angle_axis 0 unit_x)) in
  se3_of_matrix r (mk_v3 (vx p) (vy p) 0).
(** Converter<SE3f, Vector3f> and Converter<Vector3f, SE3f>, sophus_helpers.cpp:70-76. *)
Definition convert_to_se3 (p : v3) : se3 := to_pose3d p.
Definition convert_to_vector (p : se3) : v3 := to_pose2d p.
(** points2DToSophusTransform, sophus_helpers.cpp:51-59. *)
Definition points2d_transform (from_x from_y to_x to_y : R) : se3 :=
  mk_se3 (q_of_angle_axis (atan2 (to_y - from_y) (to_x - from_x)) unit_z) (mk_v3 from_x from_y 0).
(** PlanarRotation2Quaternion: operator() and convert, helpers.hpp:88-111. *)
Definition planar_call (theta : R) : quat := q_normalize (q_of_matrix (m_of_angle_axis theta unit_z)).
Definition planar_convert (theta : R) : quat := mk_quat (cos (theta / 2)) 0 0 (sin (theta / 2)).

(** * interpolators.hpp, sophus_interpolators.cpp *)

(** Interpolator<SE3f>: constructor and operator(), interpolators.hpp:51-66. *)
Record interp : Type := mk_interp { i_a : se3; i_tan : tangent3 }.
Definition interp_make (a b : se3) : interp := mk_interp a (se3_log (se3_mul b (se3_inverse a))).
Definition interp_at (i : interp) (t : R) : se3 := se3_mul (se3_exp (tan3_scale t (i_tan i))) (i_a i).
(** PlanarInterpolator: constructor, sophus_interpolators.cpp:21-36 (the assertion exists in debug builds only), and
    operator(), sophus_interpolators.cpp:37-46. *)
Record planar : Type := mk_planar { pl_a : se3; pl_tan : v3 }.
Definition planar_make (debug : bool) (a b : se3) : fres planar :=
  let b_rel_a := se3_mul b (se3_inverse a) in
  let pose_b_rel_a := se3_inverse b_rel_a in
  let tr := st pose_b_rel_a in
  if (debug && (if Rlt_dec (Rabs (vz tr)) (1 / 100000) then false else true))%bool then FThrow InvalidArgError
  else
    let axis_angle := vz (fst (so3_log_theta (sq (se3_inverse b_rel_a)))) in
    let rel := se2_inverse (se2_make axis_angle (vx tr) (vy tr)) in
    FOk (mk_planar a (se2_log rel)).
Definition planar_at (p : planar) (t : R) : se3 :=
  let rel := se2_exp (vec_scale t (pl_tan p)) in
  let angle := so2_log (se2_inverse rel) in
  let tr := mk_v3 (zx (se2_inverse rel)) (zy (se2_inverse rel)) 0 in
  let r := m_of_angle_axis angle unit_z in
  se3_mul (se3_inverse (se3_of_matrix r tr)) (pl_a p).
(** SlidingInterpolator: constructor, sophus_interpolators.cpp:52-55, and operator(), sophus_interpolators.cpp:57-63. *)
Record sliding : Type := mk_sliding { sl_interp : interp; sl_a : se3; sl_b : se3 }.
Definition sliding_make (a b : se3) : sliding := mk_sliding (interp_make a b) a b.
Definition sliding_at (s : sliding) (t : R) : se3 :=
  let ta := st (se3_inverse (sl_a s)) in
  let tb := st (se3_inverse (sl_b s)) in
  let tr := vec_add ta (vec_scale t (vec_add tb (vec_scale (-1) ta))) in
  let rel := interp_at (sl_interp s) t in
  se3_inverse (mk_se3 (sq (se3_inverse rel)) tr).
