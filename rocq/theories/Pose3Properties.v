(** Properties of poses in space, points and norms. *)
From Flocq Require Import Core Relative.
From Verif Require Import RBase AngleModel AngleProofs PoseModel PoseProofs PoseProperties Pose3Model Pose3Proofs.
Open Scope R_scope.

(** * C187: poses in space are rigid motions *)

(** A pose with a rotation in it stays one, whatever is done with poses; products compose the motions they stand for,
    associate and have the default pose as unit. *)
Theorem C187_product : forall p q, is_rot3 (rot3 p) -> is_rot3 (rot3 q) ->
  is_rot3 (rot3 (pose3_product p q)) /\
  (forall v, motion3 (pose3_product p q) v = motion3 p (motion3 q v)) /\
  (forall r, pose3_product (pose3_product p q) r = pose3_product p (pose3_product q r)) /\
  pose3_product p pose3_default = p /\ pose3_product pose3_default p = p /\
  pose3_times_assign p q = pose3_product p q /\ pose3_times_assign p p = pose3_product p p.
Proof.
  intros p q P Q. split; [now apply rot3_mul|]. split; [intros v; apply product_motion|]. split.
  { intros r. apply motion3_inj. intros v. now rewrite !product_motion. }
  assert (D : forall v, motion3 pose3_default v = v).
  { intros v. rewrite motion3_unfold. cbn. rewrite mat_vec_id. destruct v. unfold vec_add. cbn. now rewrite !Rplus_0_l. }
  split; [apply motion3_inj; intros v; now rewrite product_motion, D|].
  split; [apply motion3_inj; intros v; now rewrite product_motion, D|]. split; reflexivity.
Qed.
Print Assumptions C187_product.

(** The inverse undoes the motion on either side, and inverting twice gives the pose back. *)
Theorem C187_inverse : forall p, is_rot3 (rot3 p) ->
  is_rot3 (rot3 (pose3_inverse p)) /\
  (forall v, motion3 (pose3_inverse p) (motion3 p v) = v) /\ (forall v, motion3 p (motion3 (pose3_inverse p) v) = v) /\
  pose3_product p (pose3_inverse p) = pose3_default /\ pose3_product (pose3_inverse p) p = pose3_default /\
  pose3_inverse (pose3_inverse p) = p /\
  (forall q, is_rot3 (rot3 q) -> pose3_inverse (pose3_product p q) = pose3_product (pose3_inverse q) (pose3_inverse p)).
Proof.
  intros p P. assert (I : is_rot3 (rot3 (pose3_inverse p))) by now apply rot3_transpose.
  assert (D : forall v, motion3 pose3_default v = v).
  { intros v. rewrite motion3_unfold. cbn. rewrite mat_vec_id. destruct v. unfold vec_add. cbn. now rewrite !Rplus_0_l. }
  split; [exact I|]. split; [intros v; now apply inverse_motion_l|]. split; [intros v; now apply inverse_motion_r|].
  split; [apply motion3_inj; intros v; now rewrite product_motion, D, inverse_motion_r|].
  split; [apply motion3_inj; intros v; now rewrite product_motion, D, inverse_motion_l|]. split.
  - apply motion3_inj; intros v. rewrite <- (inverse_motion_l p v P) at 1. now apply inverse_motion_l.
  - intros q Q. apply motion3_inj; intros v. rewrite product_motion.
    pose proof (inverse_motion_r _ v P) as E. set (w := motion3 (pose3_inverse p) v) in *.
    pose proof (inverse_motion_r _ w Q) as F. set (u := motion3 (pose3_inverse q) w) in *.
    rewrite <- E, <- F, <- (product_motion p q u). apply inverse_motion_l. now apply rot3_mul.
Qed.
Print Assumptions C187_inverse.

(** relative() is the pose to multiply the reference with; it recovers the factor of a product, and a change of the
    common frame does not change it. *)
Theorem C187_relative : forall p ref, is_rot3 (rot3 p) -> is_rot3 (rot3 ref) ->
  is_rot3 (rot3 (pose3_relative p ref)) /\
  pose3_product ref (pose3_relative p ref) = p /\
  pose3_times_assign ref (pose3_relative p ref) = p /\
  pose3_relative (pose3_product ref p) ref = p /\
  pose3_relative p p = pose3_default /\
  (forall g, is_rot3 (rot3 g) -> pose3_relative (pose3_product g p) (pose3_product g ref) = pose3_relative p ref).
Proof.
  intros p ref P Q. assert (D : forall v, motion3 pose3_default v = v).
  { intros v. rewrite motion3_unfold. cbn. rewrite mat_vec_id. destruct v. unfold vec_add. cbn. now rewrite !Rplus_0_l. }
  split; [unfold pose3_relative; apply rot3_mul; [now apply rot3_transpose|exact P]|].
  assert (A : pose3_product ref (pose3_relative p ref) = p).
  { apply motion3_inj; intros v. unfold pose3_relative. now rewrite !product_motion, inverse_motion_r. }
  split; [exact A|]. split; [exact A|].
  split; [apply motion3_inj; intros v; unfold pose3_relative; now rewrite !product_motion, inverse_motion_l|].
  split; [apply motion3_inj; intros v; unfold pose3_relative; now rewrite !product_motion, D, inverse_motion_l|].
  intros g G. apply motion3_inj; intros v. unfold pose3_relative. rewrite !product_motion.
  rewrite (proj2 (proj2 (proj2 (proj2 (proj2 (proj2 (C187_inverse g G)))))) ref Q), product_motion. now rewrite inverse_motion_l.
Qed.
Print Assumptions C187_relative.

(** A pose with a rotation in it keeps all distances, and no two poses stand for the same motion. *)
Theorem C187_rigid : forall p, is_rot3 (rot3 p) ->
  (forall u v, dist3 (motion3 p u) (motion3 p v) = dist3 u v) /\
  (forall q, (forall v, motion3 p v = motion3 q v) -> p = q).
Proof. intros p P. split; [intros u v; now apply dist_motion|intros q; apply motion3_inj]. Qed.
Print Assumptions C187_rigid.

(** The default pose, copies, assignments and setters. *)
Theorem C187_storage : forall p q m t,
  is_rot3 (rot3 pose3_default) /\ (forall v, motion3 pose3_default v = v) /\
  pose3_copy p = p /\ pose3_assign p q = q /\
  rot3 (pose3_set_rotation p m) = m /\ trans3 (pose3_set_rotation p m) = trans3 p /\
  rot3 (pose3_set_translation p t) = rot3 p /\ trans3 (pose3_set_translation p t) = t /\
  rot3 (pose3_make m t) = m /\ trans3 (pose3_make m t) = t.
Proof.
  intros p q m t. split; [apply rot3_id|]. split.
  { intros v. rewrite motion3_unfold. cbn. rewrite mat_vec_id. destruct v. unfold vec_add. cbn. now rewrite !Rplus_0_l. }
  destruct p, q. repeat split.
Qed.
Print Assumptions C187_storage.

(** The constructor and the setter take any matrix: with one that is not a rotation, inverse() is no inverse. *)
Theorem C187_any_matrix_refuted : ~ (forall p, pose3_product p (pose3_inverse p) = pose3_default).
Proof.
  intros H. specialize (H (pose3_make (mk_m33 2 0 0 0 1 0 0 0 1) zero3)).
  apply (f_equal (fun p => m00 (rot3 p))) in H. cbn in H. lra.
Qed.
Print Assumptions C187_any_matrix_refuted.

(** A quarter turn about the z axis followed by a shift. *)
Example C187_case : let p := mk_pose3 (mk_m33 0 (-1) 0 1 0 0 0 0 1) (mk_v3 1 2 3) in
  is_rot3 (rot3 p) /\ motion3 p (mk_v3 1 0 0) = mk_v3 1 3 3 /\ trans3 (pose3_inverse p) = mk_v3 (-2) 1 (-3).
Proof.
  unfold is_rot3, pose3_inverse, vec_scale, mat_vec, transpose, motion3, dot, cross, col0, col1, col2, row0, row1, row2. cbn. repeat split; try lra; f_equal; lra.
Qed.

(** * C188: planar poses in space *)

(** A planar pose in space moves a point as it does in the plane and leaves its height; assigning it gives the same
    pose whatever was there before. *)
Theorem C188_lift : forall p, is_rotation (rot p) ->
  is_rot3 (rot3 (pose3_of_pose2 p)) /\
  (forall x y z, motion3 (pose3_of_pose2 p) (mk_v3 x y z) =
    mk_v3 (fst (pose_motion p (x, y))) (snd (pose_motion p (x, y))) z) /\
  (forall this, pose3_assign2 this p = pose3_of_pose2 p).
Proof.
  intros p P. split; [now apply lift_rot|]. split; [intros; apply lift_motion|].
  intros this. unfold pose3_assign2, pose3_of_pose2. destruct (as_matrix (rot p)) as [[[a b] c] d]. reflexivity.
Qed.
Print Assumptions C188_lift.

(** Products, inverses and relative poses can be taken before or after going to space, for either storage. *)
Theorem C188_homomorphism : forall p q, is_rotation (rot p) -> is_rotation (rot q) ->
  pose3_of_pose2 (pose_product p q) = pose3_product (pose3_of_pose2 p) (pose3_of_pose2 q) /\
  pose3_of_pose2 (pose_inverse p) = pose3_inverse (pose3_of_pose2 p) /\
  pose3_of_pose2 (pose_relative p q) = pose3_relative (pose3_of_pose2 p) (pose3_of_pose2 q) /\
  (forall mat, pose3_of_pose2 (pose_identity mat) = pose3_default) /\
  (forall mat, pose3_of_pose2 (pose_convert mat p) = pose3_of_pose2 p).
Proof.
  assert (HP : forall p q, is_rotation (rot p) -> is_rotation (rot q) ->
    pose3_of_pose2 (pose_product p q) = pose3_product (pose3_of_pose2 p) (pose3_of_pose2 q)).
  { intros p q P Q. apply motion3_inj. intros [x y z]. rewrite product_motion, !lift_motion.
    rewrite (proj2 (C60_legacy_product p q P Q)). now destruct (pose_motion q (x, y)). }
  assert (HI : forall p, is_rotation (rot p) -> pose3_of_pose2 (pose_inverse p) = pose3_inverse (pose3_of_pose2 p)).
  { intros p P. destruct (C60_legacy_inverse p P) as (RI & _ & M & _). apply motion3_inj. intros [x y z].
    pose proof (M (x, y)) as E. rewrite lift_motion. destruct (pose_motion (pose_inverse p) (x, y)) as [u v]. cbn [fst snd].
    rewrite <- (inverse_motion_l (pose3_of_pose2 p) (mk_v3 u v z)) by now apply lift_rot.
    rewrite lift_motion, E. reflexivity. }
  intros p q P Q. split; [now apply HP|]. split; [now apply HI|]. split.
  { unfold pose_relative, pose3_relative. rewrite HP, HI; try assumption. reflexivity. apply (C60_legacy_inverse q Q). }
  split.
  - intros mat. destruct mat; unfold pose3_of_pose2, pose_identity, pose3_default; cbn; [reflexivity|].
    unfold rotation_matrix, mk_angle. destruct (wrap_cs 0) as [-> ->]. rewrite cos_0, sin_0, Ropp_0. reflexivity.
  - intros mat. destruct (rot_cs _ P) as (c & s & U & E). destruct (as_angle_cs _ _ _ P U E) as [C S'].
    unfold pose3_of_pose2, pose_convert. cbn [rot tx ty]. f_equal. f_equal. unfold rot_convert. destruct mat.
    + destruct (as_matrix (rot p)) as [[[? ?] ?] ?]. reflexivity.
    + cbn [as_matrix]. unfold rotation_matrix. now rewrite C, S', E.
Qed.
Print Assumptions C188_homomorphism.

Example C188_case : pose3_of_pose2 (mk_pose (RotMatrix 0 (-1) 1 0) 5 6) =
  mk_pose3 (mk_m33 0 (-1) 0 1 0 0 0 0 1) (mk_v3 5 6 0) /\ is_rotation (RotMatrix 0 (-1) 1 0).
Proof. split; [reflexivity|]. cbn. lra. Qed.

(** * C189: poses in space from a quaternion or an angle and an axis *)

(** Hamilton's product, conjugate and norm, for the statements below. *)
Definition h_mul (a b : quat) : quat :=
  mk_quat (qw a * qw b - qx a * qx b - qy a * qy b - qz a * qz b)
          (qw a * qx b + qx a * qw b + qy a * qz b - qz a * qy b)
          (qw a * qy b - qx a * qz b + qy a * qw b + qz a * qx b)
          (qw a * qz b + qx a * qy b - qy a * qx b + qz a * qw b).
Definition h_unit (a : quat) : Prop := qw a * qw a + qx a * qx a + qy a * qy a + qz a * qz a = 1.
(** v turned by [t] about the unit axis [n] (Rodrigues). *)
Definition turned (t : R) (n v : v3) : v3 :=
  let c := cos t in let s := sin t in let k := dot n v * (1 - c) in let w := cross n v in
  mk_v3 (c * vx v + s * vx w + k * vx n) (c * vy v + s * vy w + k * vy n) (c * vz v + s * vz w + k * vz n).

(** A unit quaternion gives the pose that turns vectors as q v q* does; products of quaternions become products of
    poses; opposite quaternions give the same pose. *)
Theorem C189_quaternion : forall q t, h_unit q ->
  is_rot3 (rot3 (pose3_of_quat q t)) /\
  (forall v w, h_mul (h_mul q (mk_quat 0 (vx v) (vy v) (vz v))) (mk_quat (qw q) (- qx q) (- qy q) (- qz q)) =
     mk_quat 0 (vx w) (vy w) (vz w) ->
     motion3 (pose3_of_quat q t) v = mk_v3 (vx t + vx w) (vy t + vy w) (vz t + vz w)) /\
  (forall v, exists w, h_mul (h_mul q (mk_quat 0 (vx v) (vy v) (vz v))) (mk_quat (qw q) (- qx q) (- qy q) (- qz q)) =
     mk_quat 0 (vx w) (vy w) (vz w)) /\
  (forall r s, h_unit r -> pose3_product (pose3_of_quat q zero3) (pose3_of_quat r s) =
     pose3_of_quat (h_mul q r) (trans3 (pose3_product (pose3_of_quat q zero3) (pose3_of_quat r s)))) /\
  pose3_of_quat (mk_quat (- qw q) (- qx q) (- qy q) (- qz q)) t = pose3_of_quat q t.
Proof.
  intros q t U. split; [now apply quat_rot|]. split; [|split; [|split]].
  - intros v w E. change (qmul (qmul q (qvec v)) (qconj q) = qvec w) in E. rewrite (quat_sandwich q v U) in E. apply qvec_inj in E.
    rewrite motion3_unfold. cbn. now rewrite E.
  - intros v. exists (mat_vec (to_rotation_matrix q) v). exact (quat_sandwich q v U).
  - intros r s V. unfold pose3_product, pose3_of_quat, pose3_make. cbn [rot3 trans3]. f_equal. symmetry. now apply quat_mul_matrix.
  - unfold pose3_of_quat, to_rotation_matrix. cbn. f_equal. f_equal; ring.
Qed.
Print Assumptions C189_quaternion.

(** The quaternion of an angle and a unit axis gives the rotation by that angle about that axis. *)
Theorem C189_axis_angle_quaternion : forall a n t, dot n n = 1 ->
  forall v, motion3 (pose3_of_quat (mk_quat (cos (a / 2)) (sin (a / 2) * vx n) (sin (a / 2) * vy n) (sin (a / 2) * vz n)) t) v =
    mk_v3 (vx t + vx (turned a n v)) (vy t + vy (turned a n v)) (vz t + vz (turned a n v)).
Proof.
  intros a [n0 n1 n2] t N [x y z]. unfold dot in N. cbn in N.
  assert (C : cos a = 1 - 2 * (sin (a / 2) * sin (a / 2))).
  { replace a with (2 * (a / 2)) at 1 by field. rewrite cos_2a_sin. ring. }
  assert (S' : sin a = 2 * (sin (a / 2) * cos (a / 2))).
  { replace a with (2 * (a / 2)) at 1 by field. rewrite sin_2a. ring. }
  unfold turned. rewrite C, S'. set (c := cos (a / 2)). set (s := sin (a / 2)).
  rewrite motion3_unfold. unfold vec_add, mat_vec, to_rotation_matrix, dot, cross. cbn.
  assert (N0 : n0 * n0 = 1 - n1 * n1 - n2 * n2) by lra.
  f_equal; apply Rplus_eq_compat_l.
  - transitivity (x - 2 * s * s * x * (n0 * n0 + n1 * n1 + n2 * n2) + 2 * (s * c) * (n1 * z - n2 * y) +
      2 * (s * s) * (n0 * x + n1 * y + n2 * z) * n0); [ring|]. rewrite N. ring.
  - transitivity (y - 2 * s * s * y * (n0 * n0 + n1 * n1 + n2 * n2) + 2 * (s * c) * (n2 * x - n0 * z) +
      2 * (s * s) * (n0 * x + n1 * y + n2 * z) * n1); [ring|]. rewrite N. ring.
  - transitivity (z - 2 * s * s * z * (n0 * n0 + n1 * n1 + n2 * n2) + 2 * (s * c) * (n0 * y - n1 * x) +
      2 * (s * s) * (n0 * x + n1 * y + n2 * z) * n2); [ring|]. rewrite N. ring.
Qed.
Print Assumptions C189_axis_angle_quaternion.

(** The constructor from an angle and an axis ignores all of its arguments: there is a quarter turn and a shift for
    which it builds the identity. *)
Theorem C189_angle_axis_refuted : exists aa t v, dot (aa_axis aa) (aa_axis aa) = 1 /\
  motion3 (pose3_of_angle_axis aa t) v <>
  mk_v3 (vx t + vx (turned (aa_angle aa) (aa_axis aa) v)) (vy t + vy (turned (aa_angle aa) (aa_axis aa) v))
        (vz t + vz (turned (aa_angle aa) (aa_axis aa) v)).
Proof.
  exists (mk_angle_axis (PI / 2) (mk_v3 0 0 1)), (mk_v3 7 0 0), (mk_v3 1 0 0). split; [unfold dot; cbn; ring|].
  unfold motion3, turned, dot, cross, row0, row1, row2. cbn. rewrite cos_PI2, sin_PI2. intros E. injection E as E1 _ _. lra.
Qed.
Print Assumptions C189_angle_axis_refuted.
(** Worse: its result does not depend on the arguments. *)
Theorem C189_angle_axis_ignored : forall aa bb t u, pose3_of_angle_axis aa t = pose3_of_angle_axis bb u /\
  forall v, motion3 (pose3_of_angle_axis aa t) v = v.
Proof.
  intros. split; [reflexivity|]. intros v. rewrite motion3_unfold. cbn. rewrite mat_vec_id. destruct v. unfold vec_add. cbn. now rewrite !Rplus_0_l.
Qed.
Print Assumptions C189_angle_axis_ignored.
(** A quaternion that is not a unit is not normalised. *)
Theorem C189_any_quaternion_refuted : ~ (forall q t, is_rot3 (rot3 (pose3_of_quat q t))).
Proof.
  intros H. destruct (H (mk_quat 0 1 1 0) zero3) as (A & _). unfold dot, col0 in A. cbn in A. lra.
Qed.
Print Assumptions C189_any_quaternion_refuted.
Example C189_case : h_unit (mk_quat (3 / 5) 0 0 (4 / 5)) /\
  motion3 (pose3_of_quat (mk_quat (3 / 5) 0 0 (4 / 5)) (mk_v3 1 1 1)) (mk_v3 25 0 0) = mk_v3 (-6) 25 1.
Proof.
  split; [unfold h_unit; cbn; lra|]. unfold motion3, dot, row0, row1, row2. cbn. f_equal; lra.
Qed.

(** * C190: points of the plane with double coordinates *)

(** rotate() turns the point: it keeps the norm and distances and adds to the angle; turns add up. *)
Theorem C190_rotate : forall p a,
  point_norm (point_rotate p a) = point_norm p /\
  (forall q, point_distance (point_rotate p a) (point_rotate q a) = point_distance p q) /\
  (forall b, point_rotate (point_rotate p a) b = point_rotate p (a + b)) /\
  point_rotate (point_rotate p a) (- a) = p /\
  (p_x p <> 0 \/ p_y p <> 0 -> same_angle (point_angle (point_rotate p a)) (point_angle p + a)).
Proof.
  intros [x y] a. assert (U : cos a * cos a + sin a * sin a = 1).
  { pose proof (sin2_cos2 a) as H. unfold Rsqr in H. lra. }
  assert (COMP : forall b, point_rotate (point_rotate (mk_point x y) a) b = point_rotate (mk_point x y) (a + b)).
  { intros b. unfold point_rotate. cbn. rewrite cos_plus, sin_plus. f_equal; ring. }
  split; [|split; [|split; [exact COMP|split]]].
  - unfold point_norm, norm_r2, point_rotate. cbn. f_equal.
    transitivity ((cos a * cos a + sin a * sin a) * (x * x + y * y)); [ring|]. rewrite U. ring.
  - intros [u v]. unfold point_distance, point_minus, point_rotate. cbn. f_equal.
    transitivity ((cos a * cos a + sin a * sin a) * ((x - u) * (x - u) + (y - v) * (y - v))); [ring|]. rewrite U. ring.
  - rewrite COMP. unfold point_rotate. replace (a + - a) with 0 by ring. rewrite cos_0, sin_0. cbn. f_equal; ring.
  - cbn. intros N. destruct (polar x y N) as (EX & EY & P). set (r := norm_r2 x y) in *. set (t := atan2 y x) in *.
    unfold point_angle, point_rotate. cbn. rewrite EX, EY.
    replace (r * cos t * cos a - r * sin t * sin a) with (r * cos (t + a)) by (rewrite cos_plus; ring).
    replace (r * cos t * sin a + r * sin t * cos a) with (r * sin (t + a)) by (rewrite sin_plus; ring).
    rewrite <- EX, <- EY. fold t. now apply atan2_polar_any.
Qed.
Print Assumptions C190_rotate.

(** get_angle() lies in the half open range, and norm and angle determine the point. *)
Theorem C190_polar : forall p, - PI < point_angle p <= PI /\
  p_x p = point_norm p * cos (point_angle p) /\ p_y p = point_norm p * sin (point_angle p) /\
  (forall r t, 0 < r -> - PI < t <= PI -> point_angle (mk_point (r * cos t) (r * sin t)) = t /\ point_norm (mk_point (r * cos t) (r * sin t)) = r).
Proof.
  intros [x y]. split; [apply atan2_range|]. unfold point_norm, point_angle. cbn [p_x p_y].
  assert (Q : forall r t, 0 < r -> - PI < t <= PI -> atan2 (r * sin t) (r * cos t) = t /\ norm_r2 (r * cos t) (r * sin t) = r).
  { intros r t P T. split; [now apply atan2_polar|]. unfold norm_r2. pose proof (sin2_cos2 t) as H. unfold Rsqr in H.
    replace (r * cos t * (r * cos t) + r * sin t * (r * sin t)) with (r * r * (sin t * sin t + cos t * cos t)) by ring.
    rewrite H, Rmult_1_r. apply sqrt_square. lra. }
  destruct (Req_dec x 0) as [->|X]; [destruct (Req_dec y 0) as [->|Y]|].
  - split; [|split; [|exact Q]]; replace (norm_r2 0 0) with 0 by (unfold norm_r2; replace (0 * 0 + 0 * 0) with 0 by ring; now rewrite sqrt_0); ring.
  - destruct (polar 0 y) as (A & B & _); [now right|]. auto.
  - destruct (polar x y) as (A & B & _); [now left|]. auto.
Qed.
Print Assumptions C190_polar.

(** distance() is a metric, and the norm of the difference. *)
Theorem C190_distance : forall p q r,
  point_distance p q = point_norm (point_minus p q) /\
  0 <= point_distance p q /\ (point_distance p q = 0 <-> p = q) /\
  point_distance p q = point_distance q p /\
  point_distance p r <= point_distance p q + point_distance q r /\
  point_distance (point_plus p r) (point_plus q r) = point_distance p q /\
  (forall d, point_norm (point_times p d) = Rabs d * point_norm p).
Proof.
  intros [x y] [u v] [a b]. unfold point_distance, point_norm, point_minus, point_plus, point_times. cbn [p_x p_y].
  fold (norm_r2 (x - u) (y - v)). fold (norm_r2 (u - x) (v - y)). fold (norm_r2 (x - a) (y - b)). fold (norm_r2 (u - a) (v - b)).
  rewrite !norm2_as_3. split; [reflexivity|]. split; [apply norm3_nonneg|]. split.
  { split.
    - intros E. apply norm3_zero in E. destruct E as (E & F & _). f_equal; lra.
    - intros E. injection E as -> ->. apply norm3_zero. repeat split; ring. }
  split. { unfold norm_r3. f_equal. ring. }
  split.
  { replace (x - a) with ((x - u) + (u - a)) by ring. replace (y - b) with ((y - v) + (v - b)) by ring.
    replace 0 with (0 + 0) at 1 by ring. apply norm3_triangle. }
  split. { unfold norm_r3. f_equal. ring. }
  intros d. rewrite !norm2_as_3, <- norm3_scale. f_equal; ring.
Qed.
Print Assumptions C190_distance.

(** Normalize() returns the norm and leaves a point of norm one in the same direction (the x axis for the origin). *)
Theorem C190_normalize : forall p, let '(n, m) := point_normalize p in
  m = point_norm p /\ point_norm n = 1 /\
  (p_x p <> 0 \/ p_y p <> 0 -> p = point_times n m /\ point_angle n = point_angle p) /\
  (p_x p = 0 -> p_y p = 0 -> n = mk_point 1 0).
Proof.
  intros [x y]. unfold point_normalize, point_norm, point_times. cbn [p_x p_y]. destruct (Req_EM_T (norm_r2 x y) 0) as [Z|N].
  - split; [reflexivity|]. split. { cbn. unfold norm_r2. replace (1 * 1 + 0 * 0) with 1 by ring. apply sqrt_1. }
    split; [|reflexivity]. intros D. destruct (polar x y D) as (_ & _ & P). lra.
  - assert (D : x <> 0 \/ y <> 0).
    { destruct (Req_dec x 0) as [->|]; [|now left]. destruct (Req_dec y 0) as [->|]; [|now right]. exfalso. apply N.
      rewrite norm2_as_3. now apply norm3_zero. }
    destruct (polar x y D) as (EX & EY & P). split; [reflexivity|]. split; [|split].
    + cbn [p_x p_y]. rewrite norm2_as_3. replace (x * (1 / norm_r2 x y)) with (/ norm_r2 x y * x) by (field; exact N).
      replace (y * (1 / norm_r2 x y)) with (/ norm_r2 x y * y) by (field; exact N).
      replace 0 with (/ norm_r2 x y * 0) at 1 by ring. rewrite norm3_scale, <- norm2_as_3.
      rewrite Rabs_pos_eq by (left; now apply Rinv_0_lt_compat). field. exact N.
    + intros _. split; [cbn; f_equal; field; exact N|]. unfold point_angle. cbn [p_x p_y].
      pose proof (atan2_range y x) as T. rewrite <- (atan2_polar 1 (atan2 y x)) by (lra || exact T). rewrite !Rmult_1_l.
      f_equal; apply (Rmult_eq_reg_l (norm_r2 x y)); try exact N.
      * rewrite <- EY. field. exact N.
      * rewrite <- EX. field. exact N.
    + intros -> ->. exfalso. destruct D; auto.
Qed.
Print Assumptions C190_normalize.

(** Comparison, arithmetic and indexed access of points. *)
Theorem C190_arithmetic : forall p q r,
  (point_eqb p q = true <-> p = q) /\ (point_neqb p q = negb (point_eqb p q)) /\
  point_plus_assign p q = point_plus p q /\ point_plus p q = point_plus q p /\
  point_plus (point_plus p q) r = point_plus p (point_plus q r) /\ point_minus (point_plus p q) q = p /\
  point_eqb (point_assign p q) q = true.
Proof.
  intros [x y] [u v] [a b]. assert (EQ : forall p q, point_eqb p q = true <-> p = q).
  { intros [x' y'] [u' v']. unfold point_eqb. cbn. destruct (Req_EM_T u' x') as [->|N]; [destruct (Req_EM_T v' y') as [->|N]|].
    - now split.
    - split; [discriminate|]. intros E. injection E as ->. contradiction.
    - split; [discriminate|]. intros E. injection E as -> ->. contradiction. }
  split; [apply EQ|]. split.
  { unfold point_neqb, point_eqb. cbn. now destruct (Req_EM_T u x), (Req_EM_T v y). }
  split; [reflexivity|]. unfold point_plus, point_minus. cbn. split; [f_equal; ring|]. split; [f_equal; ring|]. split; [f_equal; ring|].
  now apply EQ.
Qed.
Print Assumptions C190_arithmetic.

(** An index outside the point throws in a debug build and is undefined in a release build; inside, a read gives
    what was written last. *)
Theorem C190_access : forall debug p i v, (0 <= i)%Z ->
  ((i < 2)%Z -> exists q, point_set debug p i v = FOk q /\ point_get debug q i = FOk v /\
     forall j, (0 <= j < 2)%Z -> j <> i -> point_get debug q j = point_get debug p j) /\
  ((2 <= i)%Z -> point_get true p i = FThrow OutOfRangeError /\ point_set true p i v = FThrow OutOfRangeError /\
     point_get false p i = FUB /\ point_set false p i v = FUB).
Proof.
  intros debug [x y] i v P. split.
  - intros L. assert (i = 0 \/ i = 1)%Z as [-> | ->] by lia; unfold point_set, point_get; destruct debug; cbn;
      eexists; (split; [reflexivity|]); (split; [reflexivity|]); intros j J N; assert (j = 0 \/ j = 1)%Z as [-> | ->] by lia; cbn; congruence || reflexivity.
  - intros L. unfold point_set, point_get. assert (E : (i <? 2)%Z = false) by (apply Z.ltb_ge; lia). rewrite E.
    assert (E0 : (i =? 0)%Z = false) by (apply Z.eqb_neq; lia). assert (E1 : (i =? 1)%Z = false) by (apply Z.eqb_neq; lia).
    rewrite E0, E1. auto.
Qed.
Print Assumptions C190_access.

Example C190_case : point_norm (mk_point 3 4) = 5 /\ point_rotate (mk_point 3 4) (PI / 2) = mk_point (-4) 3 /\
  point_normalize (mk_point 3 4) = (mk_point (3 / 5) (4 / 5), 5).
Proof.
  assert (N : norm_r2 3 4 = 5) by (unfold norm_r2; replace (3 * 3 + 4 * 4) with (5 * 5) by ring; apply sqrt_square; lra).
  split; [exact N|]. split.
  - unfold point_rotate. rewrite cos_PI2, sin_PI2. cbn. f_equal; ring.
  - unfold point_normalize. cbn. rewrite N. destruct (Req_EM_T 5 0); [lra|]. f_equal. f_equal; field.
Qed.

(** * C191: Euclidean norms *)

(** On doubles, in two and three dimensions. *)
Theorem C191_norm : forall a b c x y z s,
  0 <= norm_r3 a b c /\ norm_r3 a b c * norm_r3 a b c = a * a + b * b + c * c /\
  (norm_r3 a b c = 0 <-> a = 0 /\ b = 0 /\ c = 0) /\
  norm_r3 (s * a) (s * b) (s * c) = Rabs s * norm_r3 a b c /\
  norm_r3 (a + x) (b + y) (c + z) <= norm_r3 a b c + norm_r3 x y z /\
  norm_r2 a b = norm_r3 a b 0 /\ norm_r3 a b c = norm_r2 (norm_r2 a b) c.
Proof.
  intros. split; [apply norm3_nonneg|]. split; [apply norm3_square|]. split; [apply norm3_zero|]. split; [apply norm3_scale|].
  split; [apply norm3_triangle|]. split; [apply norm2_as_3|].
  pose proof (norm3_square a b 0) as E. rewrite <- norm2_as_3 in E. unfold norm_r2 at 1, norm_r3. fold (norm_r2 a b).
  f_equal. rewrite E. ring.
Qed.
Print Assumptions C191_norm.

(** On integers the result is rounded down, as long as no intermediate result leaves 32 bits; outside it is
    undefined. *)
Theorem C191_integer_norm : forall a b,
  ((a * a + b * b <= 2147483647)%Z -> exists n, norm_z2 a b = FOk n /\ (0 <= n)%Z /\ (n * n <= a * a + b * b < (n + 1) * (n + 1))%Z) /\
  ((2147483647 < a * a + b * b)%Z -> norm_z2 a b = FUB) /\
  (forall c, ((a * a + b * b + c * c <= 2147483647)%Z ->
     exists n, norm_z3 a b c = FOk n /\ (0 <= n)%Z /\ (n * n <= a * a + b * b + c * c < (n + 1) * (n + 1))%Z) /\
    ((2147483647 < a * a + b * b + c * c)%Z -> norm_z3 a b c = FUB)).
Proof.
  assert (OK : forall z, (0 <= z <= 2147483647)%Z -> int32 z = FOk z).
  { intros z H. unfold int32. replace ((-2147483648 <=? z) && (z <=? 2147483647))%Z with true by (symmetry; apply andb_true_iff; split; apply Z.leb_le; lia). reflexivity. }
  assert (BAD : forall z, (2147483647 < z)%Z -> int32 z = FUB).
  { intros z H. unfold int32. replace (z <=? 2147483647)%Z with false by (symmetry; apply Z.leb_gt; lia). now rewrite andb_false_r. }
  assert (SQ : forall n, (0 <= n <= 2147483647)%Z -> int_of_double (sqrt (IZR n)) = FOk (Z.sqrt n)).
  { intros n H. unfold int_of_double. rewrite rtrunc_sqrt by lia. apply OK. pose proof (Z.sqrt_nonneg n). pose proof (Z.sqrt_le_lin n ltac:(lia)). lia. }
  assert (DEC : forall z, (0 <= z)%Z -> {(z <= 2147483647)%Z} + {(2147483647 < z)%Z}) by (intros z _; apply Z_le_gt_dec || destruct (Z_le_gt_dec z 2147483647); [now left|right; lia]).
  intros a b. pose proof (Z.square_nonneg a) as A. pose proof (Z.square_nonneg b) as B. split; [|split].
  - intros L. exists (Z.sqrt (a * a + b * b)). unfold norm_z2. repeat (rewrite OK by lia; cbn [fbind]). rewrite SQ by lia. split; [reflexivity|].
    split; [apply Z.sqrt_nonneg|]. pose proof (Z.sqrt_spec (a * a + b * b) ltac:(lia)) as SS. cbv zeta in SS. lia.
  - intros L. unfold norm_z2. destruct (DEC (a * a)%Z A) as [H|H]; [rewrite (OK (a * a)%Z) by lia; cbn [fbind]|now rewrite BAD].
    destruct (DEC (b * b)%Z B) as [G|G]; [rewrite (OK (b * b)%Z) by lia; cbn [fbind]|now rewrite BAD]. now rewrite BAD.
  - intros c. pose proof (Z.square_nonneg c) as C. split.
    + intros L. exists (Z.sqrt (a * a + b * b + c * c)). unfold norm_z3. repeat (rewrite OK by lia; cbn [fbind]). rewrite SQ by lia. split; [reflexivity|].
      split; [apply Z.sqrt_nonneg|]. pose proof (Z.sqrt_spec (a * a + b * b + c * c) ltac:(lia)) as SS. cbv zeta in SS. lia.
    + intros L. unfold norm_z3. destruct (DEC (a * a)%Z A) as [H|H]; [rewrite (OK (a * a)%Z) by lia; cbn [fbind]|now rewrite BAD].
      destruct (DEC (b * b)%Z B) as [G|G]; [rewrite (OK (b * b)%Z) by lia; cbn [fbind]|now rewrite BAD].
      destruct (DEC (a * a + b * b)%Z) as [F|F]; [lia|rewrite (OK (a * a + b * b)%Z) by lia; cbn [fbind]|now rewrite BAD].
      destruct (DEC (c * c)%Z C) as [E|E]; [rewrite (OK (c * c)%Z) by lia; cbn [fbind]|now rewrite BAD]. now rewrite BAD.
Qed.
Print Assumptions C191_integer_norm.
(** So it is not a norm: scaling fails, and coordinates of an int can be too large. *)
Theorem C191_integer_norm_refuted : ~ (forall a b s, norm_z2 (s * a) (s * b) = (n <-- norm_z2 a b ;; FOk (Z.abs s * n)%Z)) /\
  (exists a, (-2147483648 <= a <= 2147483647)%Z /\ norm_z2 a 0 = FUB).
Proof.
  split.
  - intros H. specialize (H 1 1 3)%Z. unfold norm_z2, fbind, int32, int_of_double in H. cbn in H. rewrite !rtrunc_sqrt in H by lia. cbn in H. discriminate.
  - exists 50000%Z. split; [lia|]. reflexivity.
Qed.
Print Assumptions C191_integer_norm_refuted.

(** * C192: points of the plane with integer coordinates *)

(** Normalize() promises a unit vector: for (3, 4) it leaves the origin. *)
Theorem C192_normalize_refuted : exists p n m, zpoint_normalize p = FOk (n, m) /\ z_x n = 0%Z /\ z_y n = 0%Z /\
  z_x p = 3%Z /\ z_y p = 4%Z /\ m = 5%Z.
Proof.
  exists (mk_zpoint 3 4), (mk_zpoint 0 0), 5%Z. split; [|repeat split].
  unfold zpoint_normalize, norm_z2, fbind. cbn -[int_of_double rnd]. unfold int_of_double at 1. rewrite rtrunc_sqrt by lia. cbn -[int_of_double rnd].
  assert (F : forall m, (Z.abs m < 9007199254740992)%Z -> is_double (IZR m * / 32)) by (intros m M; exact (double_format m (-5) M ltac:(lia))).
  assert (B : 0 <= rnd (1 / 5) <= IZR 7 * / 32).
  { split; [apply rnd_ge_format; [replace 0 with (IZR 0 * / 32) by ring; now apply F|lra]|apply rnd_le_format; [now apply F|lra]]. }
  rewrite !truncated_0; [reflexivity| |].
  - split; [apply rnd_ge_format; [replace 0 with (IZR 0 * / 32) by ring; now apply F|lra]|].
    apply Rle_lt_trans with (IZR 28 * / 32); [|lra]. apply rnd_le_format; [now apply F|lra].
  - split; [apply rnd_ge_format; [replace 0 with (IZR 0 * / 32) by ring; now apply F|lra]|].
    apply Rle_lt_trans with (IZR 28 * / 32); [|lra]. apply rnd_le_format; [now apply F|lra].
Qed.
Print Assumptions C192_normalize_refuted.
(** Even a point on an axis can become the origin: 49 times the rounded 1/49 is below one. *)
Theorem C192_normalize_axis_refuted : exists a, (0 < a)%Z /\ zpoint_normalize (mk_zpoint a 0) = FOk (mk_zpoint 0 0, a).
Proof.
  exists 49%Z. split; [lia|].
  unfold zpoint_normalize, norm_z2, fbind. cbn -[int_of_double rnd]. unfold int_of_double at 1. rewrite rtrunc_sqrt by lia. cbn -[int_of_double rnd].
  change (Z.sqrt 2401) with 49%Z. cbn -[int_of_double rnd].
  assert (E : rnd (1 / 49) = IZR 5882252574524729 * / IZR 288230376151711744).
  { apply (rnd_eval (1 / 49) 5882252574524729 (-58)); [lia|lia| |]; cbn.
    - lra.
    - apply Rabs_def1; lra. }
  rewrite E.
  assert (E2 : rnd (49 * (IZR 5882252574524729 * / IZR 288230376151711744)) = IZR 9007199254740991 * / IZR 9007199254740992).
  { apply (rnd_eval (49 * (IZR 5882252574524729 * / IZR 288230376151711744)) 9007199254740991 (-53)); [lia|lia| |]; cbn.
    - lra.
    - apply Rabs_def1; lra. }
  rewrite E2, truncated_0 by lra. rewrite Rmult_0_l.
  rewrite truncated_0; [reflexivity|]. replace (rnd 0) with 0; [lra|]. symmetry. apply round_0. apply valid_rnd_N.
Qed.
Print Assumptions C192_normalize_axis_refuted.
(** rotate() promises to keep the norm: an eighth of a turn takes (1, 0) to the origin. *)
Theorem C192_rotate_refuted : zpoint_rotate (mk_zpoint 1 0) (PI / 4) = FOk (mk_zpoint 0 0).
Proof.
  unfold zpoint_rotate. cbn [z_x z_y]. assert (P : 0 < sqrt 2) by (apply sqrt_lt_R0; lra).
  assert (Q : sqrt 2 * sqrt 2 = 2) by (apply sqrt_sqrt; lra).
  assert (L : 0 < 1 / sqrt 2 < 1).
  { assert (1 < sqrt 2) by nra. split; [apply Rdiv_lt_0_compat; lra|]. apply (Rmult_lt_reg_r (sqrt 2)); [lra|]. unfold Rdiv. rewrite Rmult_assoc, Rinv_l; lra. }
  rewrite cos_PI4, sin_PI4. rewrite !truncated_0 by lra. reflexivity.
Qed.
Print Assumptions C192_rotate_refuted.
(** distance() is the distance rounded down as long as everything fits an int, and undefined otherwise; sums and
    differences are exact under the same condition. *)
Theorem C192_distance : forall p q, let dx := (z_x p - z_x q)%Z in let dy := (z_y p - z_y q)%Z in
  ((dx * dx + dy * dy <= 2147483647)%Z ->
     exists n, zpoint_distance p q = FOk n /\ (0 <= n)%Z /\ (n * n <= dx * dx + dy * dy < (n + 1) * (n + 1))%Z) /\
  ((2147483647 < dx * dx + dy * dy)%Z -> zpoint_distance p q = FUB) /\
  (forall n, zpoint_distance p q = FOk n -> zpoint_distance q p = FOk n).
Proof.
  intros [x y] [u v]. cbn [z_x z_y]. cbn zeta. unfold zpoint_distance. cbn [z_x z_y].
  assert (NB : forall a b, (int32 a = FOk a /\ (-2147483648 <= a <= 2147483647)%Z) \/ (int32 a = FUB /\ ~ (-2147483648 <= a <= 2147483647)%Z /\ (2147483647 < a * a + b * b)%Z)).
  { intros a b. unfold int32. destruct ((-2147483648 <=? a) && (a <=? 2147483647))%Z eqn:E.
    - left. split; [reflexivity|]. apply andb_prop in E. destruct E as [E F]. apply Z.leb_le in E, F. lia.
    - right. split; [reflexivity|]. apply andb_false_iff in E. assert (G : ~ (-2147483648 <= a <= 2147483647)%Z) by (destruct E as [E|E]; apply Z.leb_gt in E; lia).
      split; [exact G|]. nia. }
  assert (D : forall a b, (d <-- int32 a ;; e <-- int32 b ;; a' <-- int32 (d * d) ;; b' <-- int32 (e * e) ;; s <-- int32 (a' + b') ;; int_of_double (sqrt (IZR s))) = norm_z2 a b).
  { intros a b. destruct (NB a b) as [[E A]|[E [A L]]]; rewrite E; cbn [fbind].
    - destruct (NB b a) as [[F B]|[F [B L]]]; rewrite F; cbn [fbind]; [reflexivity|].
      symmetry. apply (proj1 (proj2 (C191_integer_norm a b))). lia.
    - symmetry. apply (proj1 (proj2 (C191_integer_norm a b))). lia. }
  rewrite !D. destruct (C191_integer_norm (x - u) (y - v)) as (A & B & _). split; [exact A|]. split; [exact B|].
  intros n. unfold norm_z2. replace ((u - x) * (u - x))%Z with ((x - u) * (x - u))%Z by ring.
  replace ((v - y) * (v - y))%Z with ((y - v) * (y - v))%Z by ring. auto.
Qed.
Print Assumptions C192_distance.
Theorem C192_sums : forall p q,
  (forall r, zpoint_plus p q = FOk r -> z_x r = (z_x p + z_x q)%Z /\ z_y r = (z_y p + z_y q)%Z) /\
  (forall r, zpoint_minus p q = FOk r -> z_x r = (z_x p - z_x q)%Z /\ z_y r = (z_y p - z_y q)%Z) /\
  ((-2147483648 <= z_x p + z_x q <= 2147483647)%Z -> (-2147483648 <= z_y p + z_y q <= 2147483647)%Z -> exists r, zpoint_plus p q = FOk r) /\
  ((2147483647 < z_x p + z_x q)%Z -> zpoint_plus p q = FUB).
Proof.
  intros [x y] [u v]. unfold zpoint_plus, zpoint_minus, int32, fbind. cbn [z_x z_y]. split; [|split; [|split]].
  - intros r. destruct (_ && _)%bool; [|discriminate]. destruct (_ && _)%bool; [|discriminate]. intros E. injection E as <-. now split.
  - intros r. destruct (_ && _)%bool; [|discriminate]. destruct (_ && _)%bool; [|discriminate]. intros E. injection E as <-. now split.
  - intros A B. replace ((-2147483648 <=? x + u) && (x + u <=? 2147483647))%Z with true by (symmetry; apply andb_true_iff; split; apply Z.leb_le; lia).
    replace ((-2147483648 <=? y + v) && (y + v <=? 2147483647))%Z with true by (symmetry; apply andb_true_iff; split; apply Z.leb_le; lia). now eexists.
  - intros A. replace (x + u <=? 2147483647)%Z with false by (symmetry; apply Z.leb_gt; lia). now rewrite andb_false_r.
Qed.
Print Assumptions C192_sums.

(** * C193: homogeneous points *)

(** Programs that build a point and use the coordinate setters only. *)
Definition coordinate_call (c : hcall) : Prop :=
  match c with HSetX _ | HSetY _ | HSetZ _ => True | _ => False end.

(** The fourth element is one in every point a debug build constructs, and the coordinate setters keep it; each
    setter changes its own coordinate only. *)
Theorem C193_fourth_partial : forall debug c p cs,
  h_construct debug c = FOk p -> (debug = true \/ forall v, c <> HVec4 v) -> Forall coordinate_call cs ->
  exists q, h_performs debug p cs = FOk q /\ h_w q = 1.
Proof.
  intros debug c p cs E D F. assert (W : h_w p = 1).
  { destruct c as [v|v|v|x y z]; cbn in E; try (now injection E as <-). destruct D as [-> |D]; [|now destruct (D v)].
    destruct (Req_EM_T (h_w v) 1); [|discriminate]. now injection E as <-. }
  clear E D. revert p W. induction F as [|k tl K F IH]; intros p W.
  - exists p. split; [reflexivity|exact W].
  - destruct k; try contradiction; cbn; apply IH; exact W.
Qed.
Print Assumptions C193_fourth_partial.
Theorem C193_coordinates : forall debug p v,
  h_perform debug p (HSetX v) = FOk (mk_hpoint v (h_y p) (h_z p) (h_w p)) /\
  h_perform debug p (HSetY v) = FOk (mk_hpoint (h_x p) v (h_z p) (h_w p)) /\
  h_perform debug p (HSetZ v) = FOk (mk_hpoint (h_x p) (h_y p) v (h_w p)) /\
  (forall x y z, h_construct debug (HCoords x y z) = h_construct debug (HVec3 (mk_v3 x y z))) /\
  h_construct debug (HConst v) = h_construct debug (HCoords v v v) /\
  (forall x y z, h_perform debug p (HComma [x; y; z; 1]) = h_construct debug (HCoords x y z)) /\
  (forall q, h_w q <> 1 -> h_construct true (HVec4 q) = FThrow InvalidInputError) /\
  (forall q, h_w q = 1 -> h_construct debug (HVec4 q) = h_construct debug (HCoords (h_x q) (h_y q) (h_z q))).
Proof.
  intros debug p v. repeat (split; [reflexivity|]). split.
  - intros q N. cbn. destruct (Req_EM_T (h_w q) 1); [contradiction|reflexivity].
  - intros [x y z w] E. cbn in *. subst w. destruct debug; [|reflexivity]. destruct (Req_EM_T 1 1); [reflexivity|contradiction].
Qed.
Print Assumptions C193_coordinates.
(** The vector behind the point: an element is stored in its place, there is none before the first and after the fourth. *)
Theorem C193_element : forall debug p i v,
  match h_perform debug p (HElement i v) with
  | FOk q => (0 <= i < 4)%Z /\ forall k, nth_error [h_x q; h_y q; h_z q; h_w q] k = if Nat.eqb k (Z.to_nat i) then Some v else nth_error [h_x p; h_y p; h_z p; h_w p] k
  | FUB => ~ (0 <= i < 4)%Z
  | _ => False
  end.
Proof.
  intros debug p i v. cbn [h_perform].
  destruct (Z.eqb_spec i 0) as [->|]; [split; [lia|intros [|[|[|[|k]]]]; reflexivity]|].
  destruct (Z.eqb_spec i 1) as [->|]; [split; [lia|intros [|[|[|[|k]]]]; reflexivity]|].
  destruct (Z.eqb_spec i 2) as [->|]; [split; [lia|intros [|[|[|[|k]]]]; reflexivity]|].
  destruct (Z.eqb_spec i 3) as [->|]; [split; [lia|intros [|[|[|[|k]]]]; reflexivity]|]. lia.
Qed.
Print Assumptions C193_element.
(** In a release build a comma initialiser with fewer than four numbers keeps the rest. *)
Theorem C193_short_comma : forall p vs, (1 <= length vs <= 4)%nat ->
  exists q, h_perform false p (HComma vs) = FOk q /\
    [h_x q; h_y q; h_z q; h_w q] = vs ++ skipn (length vs) [h_x p; h_y p; h_z p; h_w p].
Proof. intros p vs L. destruct vs as [|a [|b [|c [|d [|e vs]]]]]; cbn in L; try lia; (eexists; split; [reflexivity|reflexivity]). Qed.
Print Assumptions C193_short_comma.
(** The comma initialiser, the vector behind the point, and (in a release build) the constructor from four numbers
    accept any fourth element. *)
Theorem C193_fourth_refuted :
  (exists p q, h_construct true (HCoords 1 2 3) = FOk p /\ h_perform true p (HComma [1; 2; 3; 4]) = FOk q /\ h_w q = 4) /\
  (exists p q, h_construct true (HCoords 1 2 3) = FOk p /\ h_perform true p (HElement 3 0) = FOk q /\ h_w q = 0) /\
  (exists p, h_construct false (HVec4 (mk_hpoint 1 2 3 4)) = FOk p /\ h_w p = 4).
Proof. split; [|split]; repeat eexists. Qed.
Print Assumptions C193_fourth_refuted.
Example C193_case : Forall coordinate_call [HSetX 5; HSetZ 6] /\
  h_performs true (mk_hpoint 1 2 3 1) [HSetX 5; HSetZ 6] = FOk (mk_hpoint 5 2 6 1).
Proof. split; [repeat constructor|reflexivity]. Qed.

Lemma unit_coordinate m x : (1 <= m <= 46341)%Z -> (Z.abs x <= m)%Z ->
  exists k, int_of_double (rnd (IZR x * rnd (1 / IZR m))) = FOk k /\ (k = 0 \/ k = Z.sgn x)%Z /\ ((Z.abs x < m)%Z -> k = 0%Z).
Proof.
  intros [M1 M2] X.
  assert (F : forall z, (Z.abs z < 9007199254740992)%Z -> is_double (IZR z * / 1048576)) by (intros z Q; exact (double_format z (-20) Q ltac:(lia))).
  assert (I1 : 1 <= IZR m <= 46341) by (split; apply IZR_le; lia).
  assert (P : / 46341 <= 1 / IZR m <= 1).
  { unfold Rdiv. rewrite Rmult_1_l. split; [apply Rinv_le_contravar; lra|]. rewrite <- Rinv_1. apply Rinv_le_contravar; lra. }
  assert (D1 : is_double 1) by (replace 1 with (IZR 1048576 * / 1048576) by lra; apply F; lia).
  set (q := rnd (1 / IZR m)).
  assert (Q0 : 0 < q <= 1).
  { split; [|apply rnd_le_format; [exact D1|lra]]. apply Rlt_le_trans with (IZR 1 * / 1048576); [lra|]. apply rnd_ge_format; [apply F; lia|]. lra. }
  assert (ERR : q * IZR m <= 1 + / 4503599627370496).
  { pose proof (relative_error_N_FLT radix2 (-1074) 53 ltac:(reflexivity) (fun z => negb (Z.even z)) (1 / IZR m)) as R.
    assert (B : bpow radix2 (-1074 + 53 - 1) <= Rabs (1 / IZR m)).
    { rewrite Rabs_pos_eq by lra. apply Rle_trans with (bpow radix2 (-20)); [apply bpow_le; lia|]. cbn. lra. }
    specialize (R B). change (round radix2 (FLT_exp (-1074) 53) (Znearest (fun z => negb (Z.even z))) (1 / IZR m)) with q in R.
    rewrite (Rabs_pos_eq (1 / IZR m)) in R by lra. replace (/ 2 * bpow radix2 (- (53) + 1)) with (/ 9007199254740992) in R by (cbn; lra).
    apply Rabs_le_inv in R. destruct R as [_ R].
    assert (E : 1 / IZR m * IZR m = 1) by (field; lra). nra. }
  assert (N : forall z, (0 <= z <= m)%Z -> exists k, rtrunc (rnd (IZR z * q)) = k /\ (k = 0 \/ k = 1)%Z /\ ((z < m)%Z -> k = 0%Z)).
  { intros z [Z1 Z2]. assert (Y1 : 0 <= IZR z <= IZR m) by (split; apply IZR_le; lia).
    assert (L : 0 <= rnd (IZR z * q)) by (apply rnd_ge_format; [replace 0 with (IZR 0 * / 1048576) by ring; apply F; lia|nra]).
    assert (U : rnd (IZR z * q) <= IZR 1048577 * / 1048576) by (apply rnd_le_format; [apply F; lia|nra]).
    exists (rtrunc (rnd (IZR z * q))). split; [reflexivity|]. destruct (rtrunc_pos _ L) as [T1 T2].
    assert (0 <= rtrunc (rnd (IZR z * q)))%Z by (apply le_IZR; apply Rnot_lt_le; intros C; assert (rtrunc (rnd (IZR z * q)) <= -1)%Z as G by (apply lt_IZR in C; lia); apply IZR_le in G; lra).
    assert (rtrunc (rnd (IZR z * q)) < 2)%Z by (apply lt_IZR; lra).
    split; [lia|]. intros ZL. assert (IZR z <= IZR m - 1) by (rewrite <- minus_IZR; apply IZR_le; lia).
    assert (U' : rnd (IZR z * q) <= IZR 1048560 * / 1048576).
    { apply rnd_le_format; [apply F; lia|].
      assert (E : 1 / IZR m * IZR m = 1) by (field; lra).
      assert (QL : / 47663 <= q).
      { apply Rle_trans with (IZR 22 * / 1048576).
        - lra.
        - apply rnd_ge_format; [apply F; lia|]. lra. }
      assert ((IZR m - 1) * q <= 1 + / 4503599627370496 - / 47663) by lra. nra. }
    assert (rtrunc (rnd (IZR z * q)) < 1)%Z by (apply lt_IZR; lra). lia. }
  destruct (Z.le_ge_cases 0 x) as [S1|S1].
  - destruct (N x ltac:(lia)) as (k & K1 & K2 & K3). exists k. unfold int_of_double. rewrite K1.
    split; [unfold int32; destruct K2 as [->| ->]; reflexivity|]. split; [|intros A; apply K3; lia].
    destruct K2 as [->| ->]; [now left|]. destruct (Z.eq_dec x 0) as [->|NX]; [left; exact (K3 ltac:(lia))|right; lia].
  - destruct (N (- x)%Z ltac:(lia)) as (k & K1 & K2 & K3). exists (- k)%Z. unfold int_of_double.
    assert (O : rnd (IZR x * q) = - rnd (IZR (- x) * q)) by (unfold rnd; rewrite <- round_NE_opp; f_equal; rewrite opp_IZR; ring).
    assert (T : rtrunc (- rnd (IZR (- x) * q)) = (- k)%Z).
    { assert (L : 0 <= rnd (IZR (- x) * q)).
      { apply rnd_ge_format; [replace 0 with (IZR 0 * / 1048576) by ring; apply F; lia|]. assert (0 <= IZR (- x)) by (apply IZR_le; lia). nra. }
      destruct (Req_dec (rnd (IZR (- x) * q)) 0) as [Z0|Z0].
      - rewrite Z0 in *. rewrite Ropp_0, K1. assert (rtrunc 0 = 0)%Z. { destruct (rtrunc_pos 0 ltac:(lra)) as [A B]. assert (rtrunc 0 <= 0)%Z by (apply le_IZR; lra). assert (-1 < rtrunc 0)%Z by (apply lt_IZR; lra). lia. } lia.
      - destruct (rtrunc_neg (- rnd (IZR (- x) * q)) ltac:(lra)) as [A B]. destruct (rtrunc_pos _ L) as [A' B']. rewrite K1 in A', B'.
        assert (- k < rtrunc (- rnd (IZR (- x) * q)) + 1)%Z by (apply lt_IZR; rewrite plus_IZR, (opp_IZR k); lra).
        assert (rtrunc (- rnd (IZR (- x) * q)) - 1 < - k)%Z by (apply lt_IZR; rewrite minus_IZR, (opp_IZR k); lra). lia. }
    rewrite O, T. split; [unfold int32; destruct K2 as [->| ->]; reflexivity|]. split; [|intros A; rewrite K3; lia].
    destruct K2 as [->| ->]; [now left|]. destruct (Z.eq_dec x 0) as [->|NX]; [left; rewrite (K3 ltac:(lia)); reflexivity|right; lia].
Qed.

(** The whole truth about Normalize(): it returns the norm rounded down; a coordinate becomes zero or plus or minus one with its sign, and zero
    unless its magnitude equals the norm rounded down. In particular both become zero if both magnitudes are below it. *)
Theorem C192_normalize_partial : forall p, let s := (z_x p * z_x p + z_y p * z_y p)%Z in
  ((2147483647 < s)%Z -> zpoint_normalize p = FUB) /\
  (s = 0%Z -> zpoint_normalize p = FOk (mk_zpoint 1 0, 0%Z)) /\
  ((1 <= s <= 2147483647)%Z -> exists q m, zpoint_normalize p = FOk (q, m) /\ (1 <= m)%Z /\ (m * m <= s < (m + 1) * (m + 1))%Z /\
     (z_x q = 0 \/ z_x q = Z.sgn (z_x p) /\ Z.abs (z_x p) = m)%Z /\ (z_y q = 0 \/ z_y q = Z.sgn (z_y p) /\ Z.abs (z_y p) = m)%Z).
Proof.
  intros [x y]. cbn [z_x z_y]. cbn zeta. unfold zpoint_normalize. cbn [z_x z_y]. destruct (C191_integer_norm x y) as (A & B & _). split; [|split].
  - intros H. rewrite (B H). reflexivity.
  - intros H. destruct (A ltac:(lia)) as (n & N & N1 & N2). rewrite N. cbn [fbind]. assert (n = 0%Z) as -> by nia. reflexivity.
  - intros H. destruct (A ltac:(lia)) as (n & N & N1 & N2). rewrite N. cbn [fbind]. assert (n <> 0%Z) by nia. replace (n =? 0)%Z with false by lia.
    assert (XN : (Z.abs x <= n)%Z) by nia. assert (YN : (Z.abs y <= n)%Z) by nia. assert (n <= 46341)%Z by nia.
    destruct (unit_coordinate n x ltac:(lia) XN) as (k & K1 & K2 & K3). destruct (unit_coordinate n y ltac:(lia) YN) as (l & L1 & L2 & L3).
    rewrite K1, L1. cbn [fbind]. exists (mk_zpoint k l), n. cbn [z_x z_y]. split; [reflexivity|]. split; [lia|]. split; [lia|].
    split; [destruct (Z.eq_dec (Z.abs x) n); [destruct K2; auto|left; apply K3; lia]|destruct (Z.eq_dec (Z.abs y) n); [destruct L2; auto|left; apply L3; lia]].
Qed.
Print Assumptions C192_normalize_partial.

Lemma rtrunc_towards t : Rabs (IZR (rtrunc t)) <= Rabs t /\ Rabs (IZR (rtrunc t) - t) < 1.
Proof.
  destruct (Rle_dec 0 t) as [H|H].
  - destruct (rtrunc_pos t H) as [L U]. assert (0 <= rtrunc t)%Z by (assert (-1 < rtrunc t)%Z by (apply lt_IZR; lra); lia).
    apply IZR_le in H0. rewrite !Rabs_pos_eq by lra. split; [exact L|]. apply Rabs_def1; lra.
  - destruct (rtrunc_neg t ltac:(lra)) as [L U]. assert (rtrunc t <= 0)%Z by (assert (rtrunc t < 1)%Z by (apply lt_IZR; lra); lia).
    apply IZR_le in H0. rewrite (Rabs_left1 t) by lra. rewrite (Rabs_left1 (IZR _)) by lra. split; [lra|]. apply Rabs_def1; lra.
Qed.
(** What rotate() does keep: every coordinate is less than one off the rotated one, towards zero, so that the norm never grows. It returns for
    every point of norm below 2^31. *)
Theorem C192_rotate_partial : forall p a, let tx := IZR (z_x p) * cos a - IZR (z_y p) * sin a in let ty := IZR (z_x p) * sin a + IZR (z_y p) * cos a in
  ((z_x p * z_x p + z_y p * z_y p < 2 ^ 62)%Z -> exists q, zpoint_rotate p a = FOk q) /\
  forall q, zpoint_rotate p a = FOk q ->
    Rabs (IZR (z_x q) - tx) < 1 /\ Rabs (IZR (z_y q) - ty) < 1 /\ Rabs (IZR (z_x q)) <= Rabs tx /\ Rabs (IZR (z_y q)) <= Rabs ty /\
    (z_x q * z_x q + z_y q * z_y q <= z_x p * z_x p + z_y p * z_y p)%Z.
Proof.
  intros [x y] a. cbn [z_x z_y]. cbn zeta. set (tx := IZR x * cos a - IZR y * sin a). set (ty := IZR x * sin a + IZR y * cos a).
  assert (SQ : tx * tx + ty * ty = IZR (x * x + y * y)).
  { unfold tx, ty. rewrite plus_IZR, !mult_IZR. pose proof (sin2_cos2 a) as SC. unfold Rsqr in SC.
    replace ((IZR x * cos a - IZR y * sin a) * (IZR x * cos a - IZR y * sin a) + (IZR x * sin a + IZR y * cos a) * (IZR x * sin a + IZR y * cos a))
      with ((IZR x * IZR x + IZR y * IZR y) * (sin a * sin a + cos a * cos a)) by ring. rewrite SC. ring. }
  unfold zpoint_rotate. cbn [z_x z_y]. fold tx ty. destruct (rtrunc_towards tx) as [X1 X2]. destruct (rtrunc_towards ty) as [Y1 Y2].
  assert (SQA : forall t, Rabs t * Rabs t = t * t) by (intros t; rewrite <- Rabs_mult; apply Rabs_pos_eq; nra).
  split.
  - intros H. apply IZR_lt in H. rewrite <- SQ in H. change (IZR (2 ^ 62)) with (2147483648 * 2147483648) in H || replace (IZR (2 ^ 62)) with (2147483648 * 2147483648) in H by (rewrite <- mult_IZR; reflexivity).
    assert (B : forall t u, t * t + u * u < 2147483648 * 2147483648 -> Rabs (IZR (rtrunc t)) <= Rabs t -> int_of_double t = FOk (rtrunc t)).
    { intros t u T R. assert (Rabs t < 2147483648). { pose proof (SQA t). pose proof (Rabs_pos t). pose proof (Rle_0_sqr u) as U. unfold Rsqr in U. nra. }
      assert (Z.abs (rtrunc t) < 2147483648)%Z by (apply lt_IZR; rewrite abs_IZR; lra). unfold int_of_double, int32.
      replace ((-2147483648 <=? rtrunc t) && (rtrunc t <=? 2147483647))%Z with true by lia. reflexivity. }
    rewrite (B tx ty H X1). rewrite (B ty tx ltac:(lra) Y1). cbn [fbind]. eexists. reflexivity.
  - intros q E. unfold int_of_double, int32 in E.
    destruct (_ && _)%bool in E; cbn [fbind] in E; [|discriminate]. destruct (_ && _)%bool in E; cbn [fbind] in E; [|discriminate]. injection E as <-. cbn [z_x z_y].
    repeat split; auto. apply le_IZR. rewrite <- SQ, plus_IZR, !mult_IZR. rewrite <- (SQA (IZR (rtrunc tx))), <- (SQA (IZR (rtrunc ty))), <- (SQA tx), <- (SQA ty).
    pose proof (Rabs_pos (IZR (rtrunc tx))). pose proof (Rabs_pos (IZR (rtrunc ty))). nra.
Qed.
Print Assumptions C192_rotate_partial.
