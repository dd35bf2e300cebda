(** Specifications and lemmas for poses in space, points and norms. *)
From Flocq Require Import Core.
From Verif Require Import RBase AngleModel AngleProofs PoseModel PoseProofs Pose3Model.
Open Scope R_scope.

(** * Rigid motions of space, independently of how a pose is computed *)

Definition dot (u v : v3) : R := vx u * vx v + vy u * vy v + vz u * vz v.
Definition cross (u v : v3) : v3 :=
  mk_v3 (vy u * vz v - vz u * vy v) (vz u * vx v - vx u * vz v) (vx u * vy v - vy u * vx v).
Definition row0 (a : m33) : v3 := mk_v3 (m00 a) (m01 a) (m02 a).
Definition row1 (a : m33) : v3 := mk_v3 (m10 a) (m11 a) (m12 a).
Definition row2 (a : m33) : v3 := mk_v3 (m20 a) (m21 a) (m22 a).
Definition col0 (a : m33) : v3 := mk_v3 (m00 a) (m10 a) (m20 a).
Definition col1 (a : m33) : v3 := mk_v3 (m01 a) (m11 a) (m21 a).
Definition col2 (a : m33) : v3 := mk_v3 (m02 a) (m12 a) (m22 a).
(** A rotation: columns of length one, at right angles, right handed. *)
Definition is_rot3 (a : m33) : Prop :=
  dot (col0 a) (col0 a) = 1 /\ dot (col1 a) (col1 a) = 1 /\ dot (col2 a) (col2 a) = 1 /\
  dot (col0 a) (col1 a) = 0 /\ dot (col0 a) (col2 a) = 0 /\ dot (col1 a) (col2 a) = 0 /\
  dot (cross (col0 a) (col1 a)) (col2 a) = 1.
(** The point of the reference frame that has the given coordinates in the frame of the pose. *)
Definition motion3 (p : pose3) (v : v3) : v3 :=
  mk_v3 (vx (trans3 p) + dot (row0 (rot3 p)) v) (vy (trans3 p) + dot (row1 (rot3 p)) v)
        (vz (trans3 p) + dot (row2 (rot3 p)) v).
Definition dist3 (u v : v3) : R :=
  sqrt ((vx u - vx v) * (vx u - vx v) + (vy u - vy v) * (vy u - vy v) + (vz u - vz v) * (vz u - vz v)).

Ltac m9 := match goal with |- mk_m33 _ _ _ _ _ _ _ _ _ = mk_m33 _ _ _ _ _ _ _ _ _ => f_equal | |- mk_v3 _ _ _ = mk_v3 _ _ _ => f_equal end.

Lemma rot3_orth a : is_rot3 a -> mat_mul (transpose a) a = identity33.
Proof.
  destruct a. unfold is_rot3, mat_mul, transpose, identity33, dot, cross, col0, col1, col2. cbn.
  intros (A & B & C & D & E & F & G). m9; lra.
Qed.
Definition det3 (a : m33) : R :=
  m00 a * (m11 a * m22 a - m12 a * m21 a) - m01 a * (m10 a * m22 a - m12 a * m20 a) + m02 a * (m10 a * m21 a - m11 a * m20 a).
Definition adj3 (a : m33) : m33 :=
  mk_m33 (m11 a * m22 a - m12 a * m21 a) (m02 a * m21 a - m01 a * m22 a) (m01 a * m12 a - m02 a * m11 a)
         (m12 a * m20 a - m10 a * m22 a) (m00 a * m22 a - m02 a * m20 a) (m02 a * m10 a - m00 a * m12 a)
         (m10 a * m21 a - m11 a * m20 a) (m01 a * m20 a - m00 a * m21 a) (m00 a * m11 a - m01 a * m10 a).
Lemma rot3_det a : is_rot3 a -> det3 a = 1.
Proof.
  destruct a. unfold is_rot3, dot, cross, col0, col1, col2, det3. cbn. intros (_ & _ & _ & _ & _ & _ & G). lra.
Qed.
Lemma orth_det_rot a : mat_mul (transpose a) a = identity33 -> det3 a = 1 -> is_rot3 a.
Proof.
  destruct a. unfold is_rot3, mat_mul, transpose, identity33, dot, cross, col0, col1, col2, det3. cbn.
  intros E. injection E as E1 E2 E3 E4 E5 E6 E7 E8 E9. intros D. repeat split; lra.
Qed.
Lemma mat_mul_assoc a b c : mat_mul a (mat_mul b c) = mat_mul (mat_mul a b) c.
Proof. destruct a, b, c. unfold mat_mul. cbn. m9; ring. Qed.
Lemma mat_mul_id_l a : mat_mul identity33 a = a.
Proof. destruct a. unfold mat_mul, identity33. cbn. m9; ring. Qed.
Lemma mat_mul_id_r a : mat_mul a identity33 = a.
Proof. destruct a. unfold mat_mul, identity33. cbn. m9; ring. Qed.
Lemma transpose_mul a b : transpose (mat_mul a b) = mat_mul (transpose b) (transpose a).
Proof. destruct a, b. unfold mat_mul, transpose. cbn. m9; ring. Qed.
Lemma transpose_invol a : transpose (transpose a) = a.
Proof. now destruct a. Qed.
Lemma det_mul a b : det3 (mat_mul a b) = det3 a * det3 b.
Proof. destruct a, b. unfold mat_mul, det3. cbn. ring. Qed.
Lemma det_transpose a : det3 (transpose a) = det3 a.
Proof. destruct a. unfold transpose, det3. cbn. ring. Qed.
Lemma adj_r a : det3 a = 1 -> mat_mul a (adj3 a) = identity33.
Proof. destruct a. unfold mat_mul, adj3, identity33, det3. cbn. intros D. m9; lra. Qed.
Lemma rot3_orth_r a : is_rot3 a -> mat_mul a (transpose a) = identity33.
Proof.
  intros H. pose proof (rot3_orth _ H) as O'. pose proof (adj_r _ (rot3_det _ H)) as A.
  rewrite <- (mat_mul_id_r (mat_mul a (transpose a))), <- A, mat_mul_assoc, <- (mat_mul_assoc a (transpose a) a), O', mat_mul_id_r.
  reflexivity.
Qed.
Lemma rot3_id : is_rot3 identity33.
Proof. unfold is_rot3, dot, cross, col0, col1, col2. cbn. repeat split; ring. Qed.
Lemma rot3_mul a b : is_rot3 a -> is_rot3 b -> is_rot3 (mat_mul a b).
Proof.
  intros A B. apply orth_det_rot; [|now rewrite det_mul, rot3_det, rot3_det, Rmult_1_l].
  rewrite transpose_mul, mat_mul_assoc, <- (mat_mul_assoc (transpose b)), rot3_orth, mat_mul_id_r by exact A. now apply rot3_orth.
Qed.
Lemma rot3_transpose a : is_rot3 a -> is_rot3 (transpose a).
Proof.
  intros A. apply orth_det_rot; [rewrite transpose_invol; now apply rot3_orth_r|rewrite det_transpose; now apply rot3_det].
Qed.

Lemma mat_vec_mul a b v : mat_vec (mat_mul a b) v = mat_vec a (mat_vec b v).
Proof. destruct a, b, v. unfold mat_mul, mat_vec. cbn. m9; ring. Qed.
Lemma mat_vec_id v : mat_vec identity33 v = v.
Proof. destruct v. unfold mat_vec, identity33. cbn. m9; ring. Qed.
Lemma motion3_unfold p v : motion3 p v = vec_add (trans3 p) (mat_vec (rot3 p) v).
Proof. destruct p as [[] []], v. reflexivity. Qed.
Lemma mat_vec_add a u v : mat_vec a (vec_add u v) = vec_add (mat_vec a u) (mat_vec a v).
Proof. destruct a, u, v. unfold mat_vec, vec_add. cbn. m9; ring. Qed.
Lemma mat_vec_scale a s v : mat_vec a (vec_scale s v) = vec_scale s (mat_vec a v).
Proof. destruct a, v. unfold mat_vec, vec_scale. cbn. m9; ring. Qed.
Lemma vec_add_assoc u v w : vec_add u (vec_add v w) = vec_add (vec_add u v) w.
Proof. destruct u, v, w. unfold vec_add. cbn. m9; ring. Qed.
Lemma vec_cancel u v : vec_add (vec_scale (-1) u) (vec_add u v) = v.
Proof. destruct u, v. unfold vec_add, vec_scale. cbn. m9; ring. Qed.
Lemma vec_cancel_r u v : vec_add u (vec_add (vec_scale (-1) u) v) = v.
Proof. destruct u, v. unfold vec_add, vec_scale. cbn. m9; ring. Qed.

Lemma product_motion p q v : motion3 (pose3_product p q) v = motion3 p (motion3 q v).
Proof. rewrite !motion3_unfold. cbn. now rewrite mat_vec_mul, mat_vec_add, vec_add_assoc. Qed.
Lemma inverse_motion_l p v : is_rot3 (rot3 p) -> motion3 (pose3_inverse p) (motion3 p v) = v.
Proof.
  intros H. rewrite !motion3_unfold. cbn. rewrite mat_vec_add, <- mat_vec_mul, rot3_orth, mat_vec_id by exact H. apply vec_cancel.
Qed.
Lemma inverse_motion_r p v : is_rot3 (rot3 p) -> motion3 p (motion3 (pose3_inverse p) v) = v.
Proof.
  intros H. rewrite !motion3_unfold. cbn. rewrite mat_vec_add, mat_vec_scale, <- !mat_vec_mul, rot3_orth_r, !mat_vec_id by exact H.
  apply vec_cancel_r.
Qed.

(** Poses are determined by their motions. *)
Lemma motion3_inj p q : (forall v, motion3 p v = motion3 q v) -> p = q.
Proof.
  intros H. pose proof (H (mk_v3 0 0 0)) as H0. pose proof (H (mk_v3 1 0 0)) as H1. pose proof (H (mk_v3 0 1 0)) as H2.
  pose proof (H (mk_v3 0 0 1)) as H3. clear H. destruct p as [[] []], q as [[] []].
  unfold motion3, dot, row0, row1, row2 in *. cbn in *.
  injection H0 as A1 A2 A3. injection H1 as B1 B2 B3. injection H2 as C1 C2 C3. injection H3 as D1 D2 D3.
  f_equal; f_equal; lra.
Qed.

Lemma dist_rot a u v : is_rot3 a -> dist3 (mat_vec a u) (mat_vec a v) = dist3 u v.
Proof.
  destruct a, u as [x1 y1 z1], v as [x2 y2 z2]. unfold is_rot3, dist3, dot, cross, col0, col1, col2. cbn.
  intros (A & B & C & D & E & F & _). f_equal.
  pose proof (fun x y z : R => eq_refl : x * x * 1 + y * y * 1 + z * z * 1 + 2 * x * y * 0 + 2 * x * z * 0 + 2 * y * z * 0 =
    x * x * 1 + y * y * 1 + z * z * 1 + 2 * x * y * 0 + 2 * x * z * 0 + 2 * y * z * 0) as Q.
  specialize (Q (x1 - x2) (y1 - y2) (z1 - z2)).
  rewrite <- A in Q at 1. rewrite <- B in Q at 1. rewrite <- C in Q at 1.
  rewrite <- D in Q at 1. rewrite <- E in Q at 1. rewrite <- F in Q at 1. lra.
Qed.
Lemma dist_motion p u v : is_rot3 (rot3 p) -> dist3 (motion3 p u) (motion3 p v) = dist3 u v.
Proof.
  intros H. rewrite <- (dist_rot (rot3 p) u v H), !motion3_unfold. destruct (mat_vec (rot3 p) u), (mat_vec (rot3 p) v), (trans3 p).
  unfold dist3, vec_add. cbn. f_equal. ring.
Qed.

(** * Planar poses in space *)

Lemma lift_motion p x y z : motion3 (pose3_of_pose2 p) (mk_v3 x y z) =
  mk_v3 (fst (pose_motion p (x, y))) (snd (pose_motion p (x, y))) z.
Proof.
  unfold motion3, pose3_of_pose2, pose_motion, dot. destruct (as_matrix (rot p)) as [[[a b] c] d]. cbn. f_equal; ring.
Qed.
Lemma lift_rot p : is_rotation (rot p) -> is_rot3 (rot3 (pose3_of_pose2 p)).
Proof.
  intros H. destruct (rot_cs _ H) as (c & s & U & E). unfold pose3_of_pose2. rewrite E.
  unfold is_rot3, dot, cross, col0, col1, col2. cbn. repeat split; try ring; transitivity (c * c + s * s); try ring; exact U.
Qed.

(** * Quaternions *)

(** Hamilton's product and the conjugate. *)
Definition qmul (a b : quat) : quat :=
  mk_quat (qw a * qw b - qx a * qx b - qy a * qy b - qz a * qz b)
          (qw a * qx b + qx a * qw b + qy a * qz b - qz a * qy b)
          (qw a * qy b - qx a * qz b + qy a * qw b + qz a * qx b)
          (qw a * qz b + qx a * qy b - qy a * qx b + qz a * qw b).
Definition qconj (a : quat) : quat := mk_quat (qw a) (- qx a) (- qy a) (- qz a).
Definition qvec (v : v3) : quat := mk_quat 0 (vx v) (vy v) (vz v).
Definition qunit (a : quat) : Prop := qw a * qw a + qx a * qx a + qy a * qy a + qz a * qz a = 1.

Lemma quat_sandwich q v : qunit q -> qmul (qmul q (qvec v)) (qconj q) = qvec (mat_vec (to_rotation_matrix q) v).
Proof.
  destruct q as [w x y z], v as [a b c]. unfold qunit, qmul, qconj, qvec, mat_vec, to_rotation_matrix. cbn. intros U.
  f_equal.
  - ring.
  - transitivity ((w * w + x * x + y * y + z * z) * a + - 2 * (y * y + z * z) * a + 2 * (x * y - w * z) * b + 2 * (x * z + w * y) * c); [ring|].
    rewrite U. ring.
  - transitivity ((w * w + x * x + y * y + z * z) * b + - 2 * (x * x + z * z) * b + 2 * (x * y + w * z) * a + 2 * (y * z - w * x) * c); [ring|].
    rewrite U. ring.
  - transitivity ((w * w + x * x + y * y + z * z) * c + - 2 * (x * x + y * y) * c + 2 * (x * z - w * y) * a + 2 * (y * z + w * x) * b); [ring|].
    rewrite U. ring.
Qed.
Lemma qmul_assoc a b c : qmul a (qmul b c) = qmul (qmul a b) c.
Proof. destruct a, b, c. unfold qmul. cbn. f_equal; ring. Qed.
Lemma qconj_mul a b : qconj (qmul a b) = qmul (qconj b) (qconj a).
Proof. destruct a, b. unfold qconj, qmul. cbn. f_equal; ring. Qed.
Lemma qunit_mul a b : qunit a -> qunit b -> qunit (qmul a b).
Proof.
  destruct a as [w x y z], b as [w' x' y' z']. unfold qunit, qmul. cbn. intros A B.
  transitivity ((w * w + x * x + y * y + z * z) * (w' * w' + x' * x' + y' * y' + z' * z')); [ring|]. rewrite A, B. ring.
Qed.
Lemma qvec_inj u v : qvec u = qvec v -> u = v.
Proof. destruct u, v. unfold qvec. cbn. intros E. now injection E as -> -> ->. Qed.
Lemma mat_vec_inj a b : (forall v, mat_vec a v = mat_vec b v) -> a = b.
Proof.
  intros H. pose proof (H (mk_v3 1 0 0)) as H1. pose proof (H (mk_v3 0 1 0)) as H2. pose proof (H (mk_v3 0 0 1)) as H3.
  destruct a, b. unfold mat_vec in *. cbn in *. injection H1 as B1 B2 B3. injection H2 as C1 C2 C3. injection H3 as D1 D2 D3.
  f_equal; lra.
Qed.
Lemma quat_mul_matrix a b : qunit a -> qunit b ->
  to_rotation_matrix (qmul a b) = mat_mul (to_rotation_matrix a) (to_rotation_matrix b).
Proof.
  intros A B. apply mat_vec_inj. intros v. apply qvec_inj.
  rewrite <- quat_sandwich, mat_vec_mul by now apply qunit_mul. rewrite <- (quat_sandwich a), <- (quat_sandwich b) by assumption.
  now rewrite qconj_mul, !qmul_assoc.
Qed.
Lemma quat_rot q : qunit q -> is_rot3 (to_rotation_matrix q).
Proof.
  destruct q as [w x y z]. unfold qunit, is_rot3, dot, cross, col0, col1, col2, to_rotation_matrix. cbn. intros U.
  assert (W : w * w = 1 - x * x - y * y - z * z) by lra.
  repeat split.
  - transitivity (1 + 4 * (y * y + z * z) * (w * w + x * x + y * y + z * z - 1)); [ring|]. rewrite U. ring.
  - transitivity (1 + 4 * (x * x + z * z) * (w * w + x * x + y * y + z * z - 1)); [ring|]. rewrite U. ring.
  - transitivity (1 + 4 * (x * x + y * y) * (w * w + x * x + y * y + z * z - 1)); [ring|]. rewrite U. ring.
  - transitivity (- 4 * x * y * (w * w + x * x + y * y + z * z - 1)); [ring|]. rewrite U. ring.
  - transitivity (- 4 * x * z * (w * w + x * x + y * y + z * z - 1)); [ring|]. rewrite U. ring.
  - transitivity (- 4 * y * z * (w * w + x * x + y * y + z * z - 1)); [ring|]. rewrite U. ring.
  - transitivity (1 + 4 * (x * x + y * y + z * z) * (w * w + x * x + y * y + z * z - 1)); [ring|]. rewrite U. ring.
Qed.

(** * Norms *)

Lemma sqr_nonneg x : 0 <= x * x. Proof. nra. Qed.
Lemma norm3_square x y z : norm_r3 x y z * norm_r3 x y z = x * x + y * y + z * z.
Proof. unfold norm_r3. apply sqrt_sqrt. nra. Qed.
Lemma norm3_nonneg x y z : 0 <= norm_r3 x y z.
Proof. apply sqrt_pos. Qed.
Lemma norm2_as_3 x y : norm_r2 x y = norm_r3 x y 0.
Proof. unfold norm_r2, norm_r3. f_equal. ring. Qed.
Lemma sq_le a b : 0 <= a -> 0 <= b -> a * a <= b * b -> a <= b. Proof. nra. Qed.
Lemma sq_eq a b : 0 <= a -> 0 <= b -> a * a = b * b -> a = b. Proof. nra. Qed.
Lemma cauchy3 a b c x y z : a * x + b * y + c * z <= norm_r3 a b c * norm_r3 x y z.
Proof.
  destruct (Rle_dec 0 (a * x + b * y + c * z)) as [P|N].
  - apply sq_le; [exact P|apply Rmult_le_pos; apply norm3_nonneg|].
    replace (norm_r3 a b c * norm_r3 x y z * (norm_r3 a b c * norm_r3 x y z))
      with ((norm_r3 a b c * norm_r3 a b c) * (norm_r3 x y z * norm_r3 x y z)) by ring.
    rewrite !norm3_square.
    pose proof (sqr_nonneg (a * y - b * x)). pose proof (sqr_nonneg (a * z - c * x)). pose proof (sqr_nonneg (b * z - c * y)). lra.
  - pose proof (Rmult_le_pos _ _ (norm3_nonneg a b c) (norm3_nonneg x y z)). lra.
Qed.
Lemma norm3_triangle a b c x y z : norm_r3 (a + x) (b + y) (c + z) <= norm_r3 a b c + norm_r3 x y z.
Proof.
  apply sq_le; [apply norm3_nonneg|pose proof (norm3_nonneg a b c); pose proof (norm3_nonneg x y z); lra|].
  pose proof (cauchy3 a b c x y z). pose proof (norm3_square a b c). pose proof (norm3_square x y z).
  rewrite norm3_square. nra.
Qed.
Lemma norm3_scale s x y z : norm_r3 (s * x) (s * y) (s * z) = Rabs s * norm_r3 x y z.
Proof.
  apply sq_eq; [apply norm3_nonneg|apply Rmult_le_pos; [apply Rabs_pos|apply norm3_nonneg]|].
  replace (Rabs s * norm_r3 x y z * (Rabs s * norm_r3 x y z)) with ((Rabs s * Rabs s) * (norm_r3 x y z * norm_r3 x y z)) by ring.
  rewrite !norm3_square. assert (E : Rabs s * Rabs s = s * s) by (unfold Rabs; destruct (Rcase_abs s); ring). rewrite E. ring.
Qed.
Lemma norm3_zero x y z : norm_r3 x y z = 0 <-> x = 0 /\ y = 0 /\ z = 0.
Proof.
  split.
  - intros E. pose proof (norm3_square x y z) as S2. rewrite E in S2. pose proof (sqr_nonneg x). pose proof (sqr_nonneg y). pose proof (sqr_nonneg z).
    repeat split; nra.
  - intros (-> & -> & ->). unfold norm_r3. replace (0 * 0 + 0 * 0 + 0 * 0) with 0 by ring. apply sqrt_0.
Qed.

(** ** On integers *)

Lemma rtrunc_sqrt n : (0 <= n)%Z -> rtrunc (sqrt (IZR n)) = Z.sqrt n.
Proof.
  intros H. pose proof (rtrunc_pos (sqrt (IZR n)) (sqrt_pos _)) as [L U]. set (k := rtrunc (sqrt (IZR n))) in *.
  assert (S2 : sqrt (IZR n) * sqrt (IZR n) = IZR n) by (apply sqrt_sqrt; now apply (IZR_le 0)).
  assert (K : (0 <= k)%Z). { assert (-1 < k)%Z; [|lia]. apply lt_IZR. pose proof (sqrt_pos (IZR n)). lra. }
  symmetry. apply Z.sqrt_unique. assert (KR : 0 <= IZR k) by now apply (IZR_le 0). split.
  - apply le_IZR. rewrite mult_IZR. nra.
  - apply lt_IZR. rewrite mult_IZR, succ_IZR. pose proof (sqrt_pos (IZR n)). nra.
Qed.

(** * Points *)

Lemma atan2_polar r t : 0 < r -> - PI < t <= PI -> atan2 (r * sin t) (r * cos t) = t.
Proof.
  intros P T. rewrite <- (atan2_cos_sin t T) at 3. unfold atan2.
  replace (r * sin t / (r * cos t)) with (sin t / cos t).
  - destruct (Rlt_dec 0 (r * cos t)) as [a|a], (Rlt_dec 0 (cos t)) as [b|b]; try nra; try reflexivity.
    destruct (Rlt_dec (r * cos t) 0) as [c|c], (Rlt_dec (cos t) 0) as [d|d]; try nra.
    + destruct (Rle_dec 0 (r * sin t)), (Rle_dec 0 (sin t)); try nra; reflexivity.
    + destruct (Rlt_dec 0 (r * sin t)), (Rlt_dec 0 (sin t)); try nra; try reflexivity.
      destruct (Rlt_dec (r * sin t) 0), (Rlt_dec (sin t) 0); try nra; reflexivity.
  - destruct (Req_dec (cos t) 0) as [Z|Z].
    + rewrite Z, Rmult_0_r. unfold Rdiv. rewrite Rinv_0. ring.
    + field. split; lra.
Qed.
(** Polar form: every point is its norm in the direction of its angle. *)
Lemma polar x y : (x <> 0 \/ y <> 0) ->
  x = norm_r2 x y * cos (atan2 y x) /\ y = norm_r2 x y * sin (atan2 y x) /\ 0 < norm_r2 x y.
Proof.
  intros N. assert (P : 0 < x * x + y * y) by (destruct N; nra).
  assert (Q : 0 < norm_r2 x y) by now apply sqrt_lt_R0.
  assert (S2 : norm_r2 x y * norm_r2 x y = x * x + y * y) by (apply sqrt_sqrt; lra).
  set (r := norm_r2 x y) in *.
  assert (U : (x / r) * (x / r) + (y / r) * (y / r) = 1).
  { replace (x / r * (x / r) + y / r * (y / r)) with ((x * x + y * y) * / (r * r)) by (field; lra). rewrite S2. field. lra. }
  pose proof (atan2_unit _ _ U) as [C S']. pose proof (atan2_range (y / r) (x / r)) as T.
  assert (E : atan2 y x = atan2 (y / r) (x / r)).
  { rewrite <- (atan2_polar r (atan2 (y / r) (x / r)) Q T). rewrite C, S'. f_equal; field; lra. }
  rewrite E, C, S'. repeat split; try (field; lra). exact Q.
Qed.
Lemma atan2_polar_any r t : 0 < r -> same_angle (atan2 (r * sin t) (r * cos t)) t.
Proof.
  intros P. destruct (wrap_cs t) as [C S']. rewrite <- C, <- S'. pose proof (wrap_range t) as W. pose proof PI_RGT_0.
  destruct (Req_dec (wrap t) (- PI)) as [E|N].
  - rewrite E, sin_neg, cos_neg, sin_PI, Ropp_0.
    replace (r * cos PI) with (r * cos PI) by reflexivity. rewrite <- sin_PI, (atan2_polar r PI) by (lra || exact P).
    apply same_trans with (wrap t); [|apply wrap_same]. rewrite E. exists 1%Z. cbn. ring.
  - rewrite atan2_polar by (lra || exact P). apply wrap_same.
Qed.

(** * Rounding *)

(** A real that lies within half a unit of the mantissa m rounds to it. *)
Lemma rnd_eval x m e : (4503599627370496 <= m < 9007199254740992)%Z -> (-1074 <= e)%Z ->
  IZR 4503599627370496 * bpow radix2 e <= x < IZR 9007199254740992 * bpow radix2 e ->
  Rabs (x * bpow radix2 (- e) - IZR m) < / 2 -> AngleModel.rnd x = IZR m * bpow radix2 e.
Proof.
  intros M E B H. unfold AngleModel.rnd, round, scaled_mantissa, cexp.
  assert (MG : mag radix2 x = (53 + e)%Z :> Z).
  { apply mag_unique. rewrite Rabs_pos_eq.
    - replace (53 + e - 1)%Z with (52 + e)%Z by lia. rewrite !bpow_plus. change (bpow radix2 52) with (IZR 4503599627370496).
      change (bpow radix2 53) with (IZR 9007199254740992). exact B.
    - apply Rle_trans with (2 := proj1 B). apply Rmult_le_pos; [now apply IZR_le|apply bpow_ge_0]. }
  rewrite MG. assert (F : FLT_exp (-1074) 53 (53 + e) = e) by (unfold FLT_exp; lia). rewrite F.
  rewrite (Znearest_imp _ _ m H). reflexivity.
Qed.
Lemma double_format m e : (Z.abs m < 9007199254740992)%Z -> (-1074 <= e)%Z -> is_double (IZR m * bpow radix2 e).
Proof.
  intros M E. apply generic_format_FLT. apply (FLT_spec _ _ _ _ (Float radix2 m e)); [reflexivity|exact M|exact E].
Qed.
Lemma truncated_0 x : 0 <= x < 1 -> int_of_double x = FOk 0%Z.
Proof.
  intros H. unfold int_of_double. assert (E : rtrunc x = 0%Z); [|now rewrite E].
  destruct (rtrunc_pos x) as [L U]; [lra|]. assert (rtrunc x < 1)%Z by (apply lt_IZR; lra).
  assert (-1 < rtrunc x)%Z by (apply lt_IZR; lra). lia.
Qed.
