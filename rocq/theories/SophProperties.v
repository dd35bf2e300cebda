(** Properties of the Sophus helpers and interpolators. *)
From Verif Require Import RBase AngleModel AngleProofs PoseModel PoseProofs Pose3Model Pose3Proofs SophModel SophProofs.
Open Scope R_scope.

(** * C197 Planar poses and transforms of space *)

(** The transform of a planar pose turns by the heading and moves by the position, and leaves heights alone. *)
Theorem C197_lift : forall x y h px py pz,
  carry (to_pose3d (mk_v3 x y h)) (mk_v3 px py pz) = mk_v3 (x + (cos h * px - sin h * py)) (y + (sin h * px + cos h * py)) pz.
Proof.
  intros. destruct (to_pose3d_spec x y h) as (V & M & T). rewrite (z_carry _ _ _ _ V M), T. cbn [vx vy vz]. f_equal. ring.
Qed.
Print Assumptions C197_lift.
(** There and back: the pose again, with its heading in (-pi, pi]. *)
Theorem C197_round_trip : forall x y h, exists h', to_pose2d (to_pose3d (mk_v3 x y h)) = mk_v3 x y h' /\ same_angle h' h /\
  - PI < h' <= PI /\ (- PI < h <= PI -> h' = h) /\
  convert_to_vector (convert_to_se3 (mk_v3 x y h)) = mk_v3 x y h'.
Proof.
  intros. destruct (to_pose3d_spec x y h) as (V & M & T). exists (atan2 (sin h) (cos h)).
  assert (E : to_pose2d (to_pose3d (mk_v3 x y h)) = mk_v3 x y (atan2 (sin h) (cos h))).
  { unfold to_pose2d. change (se3_rotation_matrix (to_pose3d (mk_v3 x y h))) with (rm (to_pose3d (mk_v3 x y h))). rewrite M, T. reflexivity. }
  split; [exact E|]. split; [|split; [apply atan2_range|split; [apply atan2_cos_sin|exact E]]].
  pose proof (atan2_polar_any 1 h Rlt_0_1) as S. now rewrite !Rmult_1_l in S.
Qed.
Print Assumptions C197_round_trip.
(** Back and there: for transforms that leave heights alone, the same transform. *)
Theorem C197_flatten_partial : forall t, valid t -> (forall p, vz (carry t p) = vz p) ->
  forall p, carry (to_pose3d (to_pose2d t)) p = carry t p.
Proof.
  intros t V L p. destruct (level_form t V L) as (c & s & U & M & Z0). destruct (atan2_unit c s U) as [C S].
  unfold to_pose2d. change (se3_rotation_matrix t) with (rm t). rewrite M. cbn [zmat m00 m10]. destruct p as [px py pz].
  rewrite C197_lift, C, S, (z_carry t c s _ V M). cbn [vx vy vz]. rewrite Z0. f_equal. ring.
Qed.
Print Assumptions C197_flatten_partial.
Theorem C197_flatten_refuted : exists t, valid t /\ exists p, carry (to_pose3d (to_pose2d t)) p <> carry t p.
Proof.
  exists (mk_se3 (mk_quat 1 0 0 0) (mk_v3 0 0 1)). split; [unfold valid, qunit; cbn; ring|]. exists zero3. unfold to_pose2d. cbn [st vx vy].
  intros E. apply (f_equal vz) in E. unfold zero3 in E. rewrite C197_lift in E. unfold carry, vec_add, imag, qmul, qconj, qvec in E. cbn in E. lra.
Qed.
Print Assumptions C197_flatten_refuted.
(** Eigen's quaternion of a rotation matrix has that matrix. *)
Theorem C197_matrix_quaternion : forall m, is_rot3 m -> qunit (q_of_matrix m) /\ forall p, imag (qmul (qmul (q_of_matrix m) (qvec p)) (qconj (q_of_matrix m))) = mat_vec m p.
Proof.
  intros m H. destruct (q_of_matrix_ok m H) as [Q M]. split; [exact Q|]. intros p. rewrite quat_sandwich, M by exact Q. destruct (mat_vec m p). reflexivity.
Qed.
Print Assumptions C197_matrix_quaternion.
Example C197_level_exists : valid (to_pose3d (mk_v3 1 2 3)) /\ forall p, vz (carry (to_pose3d (mk_v3 1 2 3)) p) = vz p.
Proof. split; [apply to_pose3d_spec|]. intros [x y z]. now rewrite C197_lift. Qed.

(** * C198 The transform of a line between two points *)

(** It sends the origin to the first point and the point of the x axis at the distance of the two to the second. *)
Theorem C198_line : forall fx fy tx ty, let t := points2d_transform fx fy tx ty in
  let d := sqrt ((tx - fx) * (tx - fx) + (ty - fy) * (ty - fy)) in
  valid t /\ carry t (mk_v3 0 0 0) = mk_v3 fx fy 0 /\ carry t (mk_v3 d 0 0) = mk_v3 tx ty 0 /\ (forall p, vz (carry t p) = vz p).
Proof.
  intros fx fy tx ty. cbv zeta. set (h := atan2 (ty - fy) (tx - fx)).
  assert (V : valid (points2d_transform fx fy tx ty)) by exact (turn_unit unit_z h unit_z_unit).
  assert (M : rm (points2d_transform fx fy tx ty) = zmat (cos h) (sin h)) by exact (turn_z h).
  split; [exact V|]. split; [|split].
  - rewrite (z_carry _ _ _ _ V M). cbn [vx vy vz points2d_transform st]. f_equal; ring.
  - rewrite (z_carry _ _ _ _ V M). cbn [vx vy vz points2d_transform st].
    destruct (Req_dec (tx - fx) 0) as [X|X]; [destruct (Req_dec (ty - fy) 0) as [Y|Y]|].
    + rewrite X, Y. replace (0 * 0 + 0 * 0) with 0 by ring. rewrite sqrt_0. f_equal; lra.
    + destruct (polar (tx - fx) (ty - fy) (or_intror Y)) as (P1 & P2 & _). unfold norm_r2 in P1, P2. fold h in P1, P2. f_equal; lra.
    + destruct (polar (tx - fx) (ty - fy) (or_introl X)) as (P1 & P2 & _). unfold norm_r2 in P1, P2. fold h in P1, P2. f_equal; lra.
  - intros p. rewrite (z_carry _ _ _ _ V M). cbn. ring.
Qed.
Print Assumptions C198_line.

(** * C199 The quaternion of a planar rotation *)

Definition turns_by (q : quat) (a : R) : Prop := forall p, imag (qmul (qmul q (qvec p)) (qconj q)) = mk_v3 (cos a * vx p - sin a * vy p) (sin a * vx p + cos a * vy p) (vz p).
(** Both ways give a unit quaternion that turns by the angle; they agree up to the sign. *)
Theorem C199_rotation : forall a, qunit (planar_call a) /\ qunit (planar_convert a) /\ turns_by (planar_call a) a /\ turns_by (planar_convert a) a /\
  (planar_call a = planar_convert a \/ planar_call a = mk_quat (- qw (planar_convert a)) (- qx (planar_convert a)) (- qy (planar_convert a)) (- qz (planar_convert a))).
Proof.
  intros a. assert (C : planar_convert a = turn unit_z a) by (unfold planar_convert, turn, unit_z; cbn; f_equal; ring).
  unfold planar_call. rewrite angle_axis_z. destruct (q_of_matrix_ok _ (zmat_rot _ _ (cs1 a))) as [Q M]. rewrite q_normalize_unit by exact Q. rewrite C.
  assert (T : forall q, qunit q -> to_rotation_matrix q = zmat (cos a) (sin a) -> turns_by q a).
  { intros q U E p. rewrite quat_sandwich, E, zmat_vec by exact U. reflexivity. }
  pose proof (turn_unit unit_z a unit_z_unit) as U. split; [exact Q|]. split; [exact U|]. split; [now apply T|]. split; [apply T; [exact U|apply turn_z]|].
  apply double_cover; auto. rewrite M. symmetry. apply turn_z.
Qed.
Print Assumptions C199_rotation.
(** They are not always the same quaternion. *)
Theorem C199_same_quaternion_refuted : exists a, - PI <= a <= PI /\ planar_call a <> planar_convert a.
Proof.
  exists (- PI). pose proof PI_RGT_0. split; [lra|]. unfold planar_call. rewrite angle_axis_z.
  destruct (q_of_matrix_ok _ (zmat_rot _ _ (cs1 (- PI)))) as [Q _]. rewrite q_normalize_unit by exact Q. clear Q.
  rewrite cos_neg, sin_neg, cos_PI, sin_PI. unfold zmat, q_of_matrix. cbn [m00 m01 m02 m10 m11 m12 m20 m21 m22].
  destruct (Rlt_dec 0 (-1 + -1 + 1)); [lra|]. destruct (Rlt_dec (-1) (-1)); [lra|]. destruct (Rlt_dec (-1) 1); [|lra]. cbn [Z.eqb Pos.eqb].
  intros E. apply (f_equal qz) in E. cbn [qz planar_convert] in E. replace (- PI / 2) with (- (PI / 2)) in E by field. rewrite sin_neg, sin_PI2 in E.
  pose proof (sqrt_pos (1 - -1 - -1 + 1)). lra.
Qed.
Print Assumptions C199_same_quaternion_refuted.

(** * C200 The interpolator of transforms *)

(** It begins with the first transform and ends with the second. *)
Theorem C200_endpoints : forall a b, valid a -> valid b ->
  (forall p, carry (interp_at (interp_make a b) 0) p = carry a p) /\ (forall p, carry (interp_at (interp_make a b) 1) p = carry b p).
Proof. intros a b A B. split; intros p; [now apply interp_start|now apply interp_end]. Qed.
Print Assumptions C200_endpoints.
(** It moves steadily: what happens in a stretch of time depends on its length only. And it is rigid at all times. *)
Theorem C200_steady : forall a b, valid a -> forall s, exists d, valid d /\
  forall t p, valid (interp_at (interp_make a b) t) /\ carry (interp_at (interp_make a b) (s + t)) p = carry d (carry (interp_at (interp_make a b) t) p).
Proof.
  intros a b A s. exists (se3_exp (tan3_scale s (i_tan (interp_make a b)))). split; [apply se3_exp_valid|]. intros t p. split; [now apply interp_valid|now apply interp_steady].
Qed.
Print Assumptions C200_steady.
Example C200_case : valid (mk_se3 (mk_quat 0 0 1 0) (mk_v3 1 2 3)) /\ valid (mk_se3 (mk_quat (3 / 5) (4 / 5) 0 0) (mk_v3 0 0 5)).
Proof. split; unfold valid, qunit; cbn; field. Qed.

(** * C201 The planar interpolator *)

(** Between transforms whose relative motion leaves heights alone it begins with the first and ends with the second. *)
Theorem C201_endpoints_partial : forall debug a b, valid a -> valid b -> (forall p, vz (carry b p) = vz (carry a p)) ->
  exists i, planar_make debug a b = FOk i /\
    (forall p, carry (planar_at i 0) p = carry a p) /\ (forall p, carry (planar_at i 1) p = carry b p).
Proof.
  intros debug a b A B L. assert (L' : level (se3_mul b (se3_inverse a))).
  { intros p. rewrite carry_mul by auto using valid_inverse. rewrite L. now rewrite carry_inverse_r. }
  assert (VR : valid (se3_mul b (se3_inverse a))) by auto using valid_mul, valid_inverse.
  destruct (planar_make debug a b) as [i| |e|] eqn:E.
  - exists i. split; [reflexivity|]. assert (PA : pl_a i = a).
    { unfold planar_make in E. destruct (debug && _)%bool; [discriminate|]. apply FOk_inj in E. now subst i. }
    split; intros p; [|now apply (planar_end debug a b)]. rewrite planar_at_move by now rewrite PA. now rewrite plane_move_0, PA.
  - unfold planar_make in E. destruct (debug && _)%bool; discriminate.
  - exfalso. unfold planar_make in E. destruct (debug && _)%bool eqn:D; [|discriminate]. apply andb_prop in D. destruct D as [_ D].
    destruct (level_form _ VR L') as (c & s & U & M & Z0). cbn [se3_inverse st] in D.
    assert (MI : to_rotation_matrix (q_conj (sq (se3_mul b (se3_inverse a)))) = zmat c (- s)).
    { change (rm (se3_inverse (se3_mul b (se3_inverse a))) = zmat c (- s)). rewrite rm_inverse, M. apply zmat_transpose. }
    rewrite MI, zmat_vec in D. cbn [vec_scale vz] in D. rewrite Z0, Rmult_0_r, Rabs_R0 in D. destruct (Rlt_dec 0 (1 / 100000)); [discriminate|lra].
  - unfold planar_make in E. destruct (debug && _)%bool; discriminate.
Qed.
Print Assumptions C201_endpoints_partial.
(** It never changes heights, begins with the first transform, and moves steadily, whatever the transforms. *)
Theorem C201_stays_level : forall debug a b i, valid a -> planar_make debug a b = FOk i ->
  (forall t p, vz (carry (planar_at i t) p) = vz (carry a p)) /\ (forall p, carry (planar_at i 0) p = carry a p) /\
  (forall s, exists move, forall t p, carry (planar_at i (s + t)) p = move (carry (planar_at i t) p)).
Proof.
  intros debug a b i A E. assert (PA : pl_a i = a).
  { unfold planar_make in E. destruct (debug && _)%bool; [discriminate|]. apply FOk_inj in E. now subst i. }
  assert (V : valid (pl_a i)) by now rewrite PA. split; [|split].
  - intros t p. rewrite planar_at_move by exact V. now rewrite PA.
  - intros p. rewrite planar_at_move by exact V. now rewrite plane_move_0, PA.
  - intros s. exists (plane_move (se2_exp (vec_scale s (pl_tan i)))). intros t p. rewrite !planar_at_move by exact V. now rewrite se2_exp_add, plane_move_then.
Qed.
Print Assumptions C201_stays_level.
(** The check of a debug build looks at the height of the origins only: with a tilt between the transforms the end is missed. *)
Theorem C201_endpoints_refuted : exists a b i p, valid a /\ valid b /\ planar_make true a b = FOk i /\ carry (planar_at i 1) p <> carry b p.
Proof.
  set (a := mk_se3 (mk_quat 1 0 0 0) zero3). set (b := mk_se3 (mk_quat 0 1 0 0) zero3).
  assert (A : valid a) by (unfold valid, qunit; cbn; ring). assert (B : valid b) by (unfold valid, qunit; cbn; ring).
  exists a, b. destruct (planar_make true a b) as [i| |e|] eqn:E.
  - exists i, (mk_v3 0 0 1). split; [exact A|]. split; [exact B|]. split; [reflexivity|]. intros F. apply (f_equal vz) in F.
    destruct (C201_stays_level true a b i A E) as (L & _). rewrite L in F. unfold a, b, carry, vec_add, imag, qmul, qconj, qvec, zero3 in F. cbn in F. lra.
  - exfalso. unfold planar_make in E. destruct (true && _)%bool; discriminate.
  - exfalso. unfold planar_make in E. destruct (true && _)%bool eqn:D; [|discriminate]. cbn [andb] in D.
    rewrite (relative_origin a b zero3) in D by (auto; unfold a, b, carry, vec_add, imag, qmul, qconj, qvec, zero3; cbn; f_equal; ring).
    cbn [vz zero3] in D. rewrite Rabs_R0 in D. destruct (Rlt_dec 0 (1 / 100000)); [discriminate|lra].
  - exfalso. unfold planar_make in E. destruct (true && _)%bool; discriminate.
Qed.
Print Assumptions C201_endpoints_refuted.
(** A release build accepts frames at different heights. *)
Theorem C201_coplanar_check_refuted : exists a b i p, valid a /\ valid b /\ carry a p <> carry b p /\
  planar_make true a b = FThrow InvalidArgError /\ planar_make false a b = FOk i /\ carry (planar_at i 1) p <> carry b p.
Proof.
  set (a := mk_se3 (mk_quat 1 0 0 0) zero3). set (b := mk_se3 (mk_quat 1 0 0 0) (mk_v3 0 0 1)).
  assert (A : valid a) by (unfold valid, qunit; cbn; ring). assert (B : valid b) by (unfold valid, qunit; cbn; ring).
  assert (F : forall p, vz (carry a p) = vz p /\ vz (carry b p) = 1 + vz p).
  { intros [x y z]. unfold a, b, carry, vec_add, imag, qmul, qconj, qvec, zero3. cbn. split; ring. }
  exists a, b. destruct (planar_make false a b) as [i| |e|] eqn:E; try (unfold planar_make in E; cbn [andb] in E; discriminate).
  exists i, zero3. split; [exact A|]. split; [exact B|]. destruct (F zero3) as [F1 F2]. split; [intros H; rewrite H in F1; lra|].
  split; [|split; [reflexivity|]].
  - unfold planar_make. rewrite (relative_origin a b (mk_v3 0 0 (-1))) by (auto; unfold a, b, carry, vec_add, imag, qmul, qconj, qvec, zero3; cbn; f_equal; ring).
    cbn [vz]. rewrite Rabs_left by lra. destruct (Rlt_dec (- -1) (1 / 100000)); [lra|reflexivity].
  - intros H. apply (f_equal vz) in H. destruct (C201_stays_level false a b i A E) as (L & _). rewrite L, F1, F2 in H. lra.
Qed.
Print Assumptions C201_coplanar_check_refuted.

(** * C202 The sliding interpolator *)

(** The frame's origin (the point sent to zero) moves along the straight line between its two places, at constant speed,
    and the orientation is that of the interpolator. *)
Theorem C202_straight : forall a b oa ob, valid a -> valid b -> carry a oa = zero3 -> carry b ob = zero3 -> forall t,
  carry (sliding_at (sliding_make a b) t)
    (mk_v3 (vx oa + t * (vx ob - vx oa)) (vy oa + t * (vy ob - vy oa)) (vz oa + t * (vz ob - vz oa))) = zero3 /\
  forall p q, vec_add (carry (sliding_at (sliding_make a b) t) p) (vec_scale (-1) (carry (sliding_at (sliding_make a b) t) q)) =
              vec_add (carry (interp_at (interp_make a b) t) p) (vec_scale (-1) (carry (interp_at (interp_make a b) t) q)).
Proof.
  intros a b oa ob A B OA OB t. split.
  - pose proof (sliding_origin a b t A B) as H. rewrite <- OA in H at 1. rewrite carry_inverse_l in H by exact A.
    rewrite <- OB in H at 1. rewrite carry_inverse_l in H by exact B. rewrite <- OA in H at 1. rewrite carry_inverse_l in H by exact A.
    rewrite <- H. f_equal. destruct oa, ob. unfold vec_add, vec_scale. cbn. f_equal; ring.
  - intros p q. rewrite (carry_diff _ p q (sliding_valid (sliding_make a b) t A)), (carry_diff _ p q (interp_valid (interp_make a b) t A)). now rewrite sliding_rm.
Qed.
Print Assumptions C202_straight.
Theorem C202_endpoints : forall a b, valid a -> valid b ->
  (forall p, carry (sliding_at (sliding_make a b) 0) p = carry a p) /\ (forall p, carry (sliding_at (sliding_make a b) 1) p = carry b p).
Proof.
  intros a b A B. set (oa := carry (se3_inverse a) zero3). set (ob := carry (se3_inverse b) zero3).
  assert (OA : carry a oa = zero3) by now apply carry_inverse_r. assert (OB : carry b ob = zero3) by now apply carry_inverse_r.
  assert (VS : forall t, valid (sliding_at (sliding_make a b) t)) by (intros t; exact (sliding_valid (sliding_make a b) t A)).
  assert (VI : forall t, valid (interp_at (interp_make a b) t)) by (intros t; exact (interp_valid (interp_make a b) t A)).
  destruct (C202_straight a b oa ob A B OA OB 0) as [O0 _]. destruct (C202_straight a b oa ob A B OA OB 1) as [O1 _].
  split; intros p.
  - apply (carry_by_origin _ _ oa); auto.
    + rewrite sliding_rm. apply rm_of_carry; auto. intros q. now apply interp_start.
    + rewrite <- O0. f_equal. destruct oa. cbn. f_equal; ring.
  - apply (carry_by_origin _ _ ob); auto.
    + rewrite sliding_rm. apply rm_of_carry; auto. intros q. now apply interp_end.
    + rewrite <- O1. f_equal. destruct oa, ob. cbn. f_equal; ring.
Qed.
Print Assumptions C202_endpoints.

(** C199, exactly: for headings in (-pi, pi] the two are the same quaternion if and only if the heading is above -2/3 pi. *)
Theorem C199_exactly : forall a, - PI <= a <= PI -> (planar_call a = planar_convert a <-> - (2 * (PI / 3)) < a).
Proof.
  intros a A. pose proof PI_RGT_0 as P. destruct (C199_rotation a) as (_ & _ & _ & _ & D).
  assert (CN : cos (2 * (PI / 3)) = - / 2) by (rewrite cos_2PI3; lra).
  assert (K : a <= 0 -> (- (2 * (PI / 3)) < a <-> 0 < 2 * cos a + 1)).
  { intros N. rewrite <- (cos_neg a). split; intros H.
    - assert (cos (2 * (PI / 3)) < cos (- a)) by (apply cos_decreasing_1; lra). lra.
    - apply Rnot_le_lt. intros F. assert (cos (- a) <= cos (2 * (PI / 3))) by (apply cos_decr_1; lra). lra. }
  assert (Q : planar_call a = q_of_matrix (zmat (cos a) (sin a))).
  { unfold planar_call. rewrite angle_axis_z. destruct (q_of_matrix_ok _ (zmat_rot _ _ (cs1 a))) as [U _]. now rewrite q_normalize_unit. }
  unfold zmat, q_of_matrix in Q. cbn [m00 m01 m02 m10 m11 m12 m20 m21 m22] in Q. pose proof (COS_bound a).
  destruct (Rlt_dec 0 (cos a + cos a + 1)) as [T|T].
  - assert (W : 0 < qw (planar_call a)). { rewrite Q. cbn [qw]. assert (0 < sqrt (cos a + cos a + 1 + 1)) by (apply sqrt_lt_R0; lra). lra. }
    assert (C : 0 <= cos (a / 2)) by (apply cos_ge_0; lra).
    split; [intros _|intros _].
    + destruct (Rle_dec a 0) as [N|N]; [apply K; lra|lra].
    + destruct D as [D|D]; [exact D|]. rewrite D in W. cbn [qw planar_convert] in W. lra.
  - destruct (Rlt_dec (cos a) (cos a)) as [F|_]; [lra|]. destruct (Rlt_dec (cos a) 1) as [_|F]; [|lra]. cbn [Z.eqb Pos.eqb] in Q.
    assert (W : 0 < qz (planar_call a)). { rewrite Q. cbn [qz]. assert (0 < sqrt (1 - cos a - cos a + 1)) by (apply sqrt_lt_R0; lra). lra. }
    split; intros H1.
    + rewrite H1 in W. cbn [qz planar_convert] in W. destruct (Rle_dec a 0) as [N|N]; [|lra]. exfalso.
      assert (0 <= sin (- (a / 2))) by (apply sin_ge_0; lra). rewrite sin_neg in *. lra.
    + assert (N : 0 < a) by (apply Rnot_le_lt; intros F; apply K in H1; lra). destruct D as [D|D]; [exact D|]. rewrite D in W. cbn [qz planar_convert] in W.
      assert (0 <= sin (a / 2)) by (apply sin_ge_0; lra). lra.
Qed.
Print Assumptions C199_exactly.

(** The matrix and the quaternion of a turn about any axis are the same rotation. *)
Theorem C199_any_axis : forall a x y z, x * x + y * y + z * z = 1 ->
  m_of_angle_axis a (mk_v3 x y z) = to_rotation_matrix (q_of_angle_axis a (mk_v3 x y z)).
Proof.
  intros a x y z U. change (q_of_angle_axis a (mk_v3 x y z)) with (turn (mk_v3 x y z) a) || (replace (q_of_angle_axis a (mk_v3 x y z)) with (turn (mk_v3 x y z) a) by (unfold turn, q_of_angle_axis; f_equal; ring)).
  rewrite turn_matrix by exact U. rewrite kpoly_form. unfold m_of_angle_axis, kform. cbn [vx vy vz]. assert (Z2 : z * z = 1 - x * x - y * y) by lra. f_equal; ring [Z2].
Qed.
Print Assumptions C199_any_axis.

(** Two transforms that turn about the vertical, at the same height. *)
Example C201_case : let a := mk_se3 (mk_quat (3 / 5) 0 0 (4 / 5)) (mk_v3 1 2 3) in let b := mk_se3 (mk_quat 0 0 0 1) (mk_v3 5 0 3) in
  valid a /\ valid b /\ forall p, vz (carry b p) = vz (carry a p).
Proof. cbv zeta. split; [unfold valid, qunit; cbn; lra|]. split; [unfold valid, qunit; cbn; lra|]. intros [x y z]. unfold carry, vec_add, imag, qmul, qvec, qconj. cbn. field. Qed.
(** Where the origin of each frame is. *)
Example C202_case : let a := mk_se3 (mk_quat 1 0 0 0) (mk_v3 1 2 3) in let b := mk_se3 (mk_quat 0 1 0 0) (mk_v3 4 5 6) in
  valid a /\ valid b /\ carry a (mk_v3 (-1) (-2) (-3)) = zero3 /\ carry b (mk_v3 (-4) 5 6) = zero3.
Proof. cbv zeta. split; [unfold valid, qunit; cbn; lra|]. split; [unfold valid, qunit; cbn; lra|]. unfold carry, vec_add, imag, qmul, qvec, qconj, zero3. cbn. split; f_equal; ring. Qed.
Example C199_case : - PI <= 1 <= PI /\ - (2 * (PI / 3)) < 1 /\ (3 / 5) * (3 / 5) + 0 * 0 + (4 / 5) * (4 / 5) = 1.
Proof. pose proof PI_RGT_0. pose proof PI2_3_2. unfold PI2 in *. lra. Qed.
