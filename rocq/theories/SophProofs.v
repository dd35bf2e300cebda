(** Specifications and lemmas for the Sophus helpers and interpolators. *)
From Verif Require Import RBase AngleModel AngleProofs PoseModel PoseProofs Pose3Model Pose3Proofs SophModel.
Open Scope R_scope.

(** * What a transform does, independently of how it is computed: p |-> q p q* + t *)

Definition imag (q : quat) : v3 := mk_v3 (qx q) (qy q) (qz q).
Definition carry (t : se3) (p : v3) : v3 := vec_add (st t) (imag (qmul (qmul (sq t) (qvec p)) (qconj (sq t)))).
Definition valid (t : se3) : Prop := qunit (sq t).

Definition rm (t : se3) : m33 := to_rotation_matrix (sq t).
Lemma carry_matrix t p : valid t -> carry t p = vec_add (st t) (mat_vec (rm t) p).
Proof. intros V. unfold carry. rewrite quat_sandwich by exact V. unfold rm. destruct (mat_vec (to_rotation_matrix (sq t)) p). reflexivity. Qed.
Lemma q_mul_qmul a b : q_mul a b = qmul a b.
Proof. unfold q_mul, qmul. f_equal; ring. Qed.
Lemma q_conj_qconj a : q_conj a = qconj a.
Proof. reflexivity. Qed.
Lemma qunit_conj a : qunit a -> qunit (qconj a).
Proof. unfold qunit, qconj. cbn. intros <-. ring. Qed.
Lemma matrix_conj q : to_rotation_matrix (qconj q) = transpose (to_rotation_matrix q).
Proof. destruct q. unfold to_rotation_matrix, qconj, transpose. cbn. f_equal; ring. Qed.
Lemma valid_mul a b : valid a -> valid b -> valid (se3_mul a b).
Proof. unfold valid, se3_mul. cbn. rewrite q_mul_qmul. apply qunit_mul. Qed.
Lemma valid_inverse a : valid a -> valid (se3_inverse a).
Proof. unfold valid. apply qunit_conj. Qed.
Lemma rm_mul a b : valid a -> valid b -> rm (se3_mul a b) = mat_mul (rm a) (rm b).
Proof. unfold rm, se3_mul. cbn. intros A B. rewrite q_mul_qmul. now apply quat_mul_matrix. Qed.
Lemma rm_inverse a : rm (se3_inverse a) = transpose (rm a).
Proof. apply matrix_conj. Qed.
Lemma rm_rot a : valid a -> is_rot3 (rm a).
Proof. apply quat_rot. Qed.
Lemma carry_mul a b p : valid a -> valid b -> carry (se3_mul a b) p = carry a (carry b p).
Proof.
  intros A B. rewrite !carry_matrix by auto using valid_mul. rewrite rm_mul, mat_vec_mul by assumption. cbn [st se3_mul].
  rewrite mat_vec_add. change (to_rotation_matrix (sq a)) with (rm a). now rewrite vec_add_assoc.
Qed.
Lemma carry_inverse_l a p : valid a -> carry (se3_inverse a) (carry a p) = p.
Proof.
  intros A. rewrite !carry_matrix by auto using valid_inverse. rewrite rm_inverse. cbn [st se3_inverse].
  change (to_rotation_matrix (q_conj (sq a))) with (rm (se3_inverse a)). rewrite rm_inverse, mat_vec_add, <- (mat_vec_mul _ _ p), rot3_orth, mat_vec_id by now apply rm_rot.
  apply vec_cancel.
Qed.
Lemma carry_inverse_r a p : valid a -> carry a (carry (se3_inverse a) p) = p.
Proof.
  intros A. rewrite !carry_matrix by auto using valid_inverse. rewrite rm_inverse. cbn [st se3_inverse].
  change (to_rotation_matrix (q_conj (sq a))) with (rm (se3_inverse a)). rewrite rm_inverse, mat_vec_add, mat_vec_scale, <- !mat_vec_mul, rot3_orth_r, !mat_vec_id by now apply rm_rot.
  apply vec_cancel_r.
Qed.

(** * The quaternion of a rotation matrix *)

Lemma rot3_facts m : is_rot3 m ->
  (dot (row0 m) (row0 m) = 1 /\ dot (row1 m) (row1 m) = 1 /\ dot (row2 m) (row2 m) = 1) /\
  (dot (row0 m) (row1 m) = 0 /\ dot (row0 m) (row2 m) = 0 /\ dot (row1 m) (row2 m) = 0) /\
  adj3 m = transpose m.
Proof.
  intros H. pose proof (rot3_orth_r m H) as O. pose proof (adj_r m (rot3_det m H)) as A. pose proof (rot3_orth m H) as L.
  assert (E : adj3 m = transpose m).
  { rewrite <- (mat_mul_id_l (adj3 m)), <- L, <- mat_mul_assoc, A, mat_mul_id_r. reflexivity. }
  split; [|split; [|exact E]]; destruct m; unfold mat_mul, transpose, identity33 in O; cbn in O; injection O as ? ? ? ? ? ? ? ? ?;
    unfold dot, row0, row1, row2; cbn; repeat split; lra.
Qed.

(** The matrix of v / (2 t) where v is a quaternion of square norm 4 t^2. *)
Lemma scaled_matrix w x y z t T : 0 < t -> t * t = T ->
  to_rotation_matrix (mk_quat (w / (2 * t)) (x / (2 * t)) (y / (2 * t)) (z / (2 * t))) =
  mk_m33 (1 - (y * y + z * z) / (2 * T)) ((x * y - w * z) / (2 * T)) ((x * z + w * y) / (2 * T))
         ((x * y + w * z) / (2 * T)) (1 - (x * x + z * z) / (2 * T)) ((y * z - w * x) / (2 * T))
         ((x * z - w * y) / (2 * T)) ((y * z + w * x) / (2 * T)) (1 - (x * x + y * y) / (2 * T)).
Proof. intros P <-. unfold to_rotation_matrix. cbn. f_equal; field; lra. Qed.
Lemma scaled_unit w x y z t T : 0 < t -> t * t = T -> w * w + x * x + y * y + z * z = 4 * T ->
  qunit (mk_quat (w / (2 * t)) (x / (2 * t)) (y / (2 * t)) (z / (2 * t))).
Proof.
  intros P E N. unfold qunit. cbn. replace (w / (2 * t) * (w / (2 * t)) + x / (2 * t) * (x / (2 * t)) + y / (2 * t) * (y / (2 * t)) + z / (2 * t) * (z / (2 * t)))
    with ((w * w + x * x + y * y + z * z) / (4 * (t * t))) by (field; lra). rewrite N, E. assert (0 < T) by (rewrite <- E; now apply Rmult_lt_0_compat). field. lra.
Qed.
Lemma div_is n d v : d <> 0 -> n = v * d -> n / d = v.
Proof. intros D ->. field. exact D. Qed.
Lemma sub_div_is n d v : d <> 0 -> n = (1 - v) * d -> 1 - n / d = v.
Proof. intros D ->. field. exact D. Qed.

Lemma q_of_matrix_ok m : is_rot3 m -> qunit (q_of_matrix m) /\ to_rotation_matrix (q_of_matrix m) = m.
Proof.
  intros H. destruct (rot3_facts m H) as ((R0 & R1 & R2) & (R3 & R4 & R5) & AD). destruct H as (C0 & C1 & C2 & C3 & C4 & C5 & _).
  destruct m as [a b c d e f g h i]. unfold dot, row0, row1, row2, col0, col1, col2, adj3, transpose in *. cbn in *.
  injection AD as A1 A2 A3 A4 A5 A6 A7 A8 A9. unfold q_of_matrix. cbn.
  assert (SQ : forall T, 0 < T -> 0 < sqrt T /\ sqrt T * sqrt T = T) by (intros T P; split; [now apply sqrt_lt_R0|apply sqrt_sqrt; lra]).
  destruct (Rlt_dec 0 (a + e + i)) as [P|P].
  { set (T := a + e + i + 1). assert (PT : 0 < T) by (unfold T; lra). assert (DT : 2 * T <> 0) by (clear - PT; lra). destruct (SQ T PT) as [St S2]. set (t := sqrt T) in *.
    assert (Q : mk_quat (t / 2) ((h - f) * (1 / 2 / t)) ((c - g) * (1 / 2 / t)) ((d - b) * (1 / 2 / t)) =
                mk_quat (T / (2 * t)) ((h - f) / (2 * t)) ((c - g) / (2 * t)) ((d - b) / (2 * t))) by (rewrite <- S2; f_equal; field; lra).
    rewrite Q. split; [apply (scaled_unit _ _ _ _ t T St S2); unfold T; clear - R0 R1 R2 R3 R4 R5 C0 C1 C2 C3 C4 C5 A1 A2 A3 A4 A5 A6 A7 A8 A9; lra|].
    rewrite (scaled_matrix _ _ _ _ t T St S2). f_equal; (apply div_is || apply sub_div_is); (exact DT || (unfold T; clear - R0 R1 R2 R3 R4 R5 C0 C1 C2 C3 C4 C5 A1 A2 A3 A4 A5 A6 A7 A8 A9; lra)). }
  assert (CASE0 : e <= a -> i <= a -> let t := sqrt (a - e - i + 1) in
     let q := mk_quat ((h - f) * (1 / 2 / t)) (t / 2) ((d + b) * (1 / 2 / t)) ((g + c) * (1 / 2 / t)) in
     qunit q /\ to_rotation_matrix q = mk_m33 a b c d e f g h i).
  { intros L1 L2. set (T := a - e - i + 1). assert (PT : 0 < T) by (unfold T; lra). assert (DT : 2 * T <> 0) by (clear - PT; lra). destruct (SQ T PT) as [St S2]. cbv zeta. set (t := sqrt T) in *.
    replace (t / 2) with (T / (2 * t)) by (rewrite <- S2; field; lra).
    replace ((h - f) * (1 / 2 / t)) with ((h - f) / (2 * t)) by (field; lra).
    replace ((d + b) * (1 / 2 / t)) with ((d + b) / (2 * t)) by (field; lra).
    replace ((g + c) * (1 / 2 / t)) with ((g + c) / (2 * t)) by (field; lra).
    split; [apply (scaled_unit _ _ _ _ t T St S2); unfold T; clear - R0 R1 R2 R3 R4 R5 C0 C1 C2 C3 C4 C5 A1 A2 A3 A4 A5 A6 A7 A8 A9; lra|].
    rewrite (scaled_matrix _ _ _ _ t T St S2). f_equal; (apply div_is || apply sub_div_is); (exact DT || (unfold T; clear - R0 R1 R2 R3 R4 R5 C0 C1 C2 C3 C4 C5 A1 A2 A3 A4 A5 A6 A7 A8 A9; lra)). }
  assert (CASE1 : a <= e -> i <= e -> let t := sqrt (e - i - a + 1) in
     let q := mk_quat ((c - g) * (1 / 2 / t)) ((b + d) * (1 / 2 / t)) (t / 2) ((h + f) * (1 / 2 / t)) in
     qunit q /\ to_rotation_matrix q = mk_m33 a b c d e f g h i).
  { intros L1 L2. set (T := e - i - a + 1). assert (PT : 0 < T) by (unfold T; lra). assert (DT : 2 * T <> 0) by (clear - PT; lra). destruct (SQ T PT) as [St S2]. cbv zeta. set (t := sqrt T) in *.
    replace (t / 2) with (T / (2 * t)) by (rewrite <- S2; field; lra).
    replace ((c - g) * (1 / 2 / t)) with ((c - g) / (2 * t)) by (field; lra).
    replace ((b + d) * (1 / 2 / t)) with ((b + d) / (2 * t)) by (field; lra).
    replace ((h + f) * (1 / 2 / t)) with ((h + f) / (2 * t)) by (field; lra).
    split; [apply (scaled_unit _ _ _ _ t T St S2); unfold T; clear - R0 R1 R2 R3 R4 R5 C0 C1 C2 C3 C4 C5 A1 A2 A3 A4 A5 A6 A7 A8 A9; lra|].
    rewrite (scaled_matrix _ _ _ _ t T St S2). f_equal; (apply div_is || apply sub_div_is); (exact DT || (unfold T; clear - R0 R1 R2 R3 R4 R5 C0 C1 C2 C3 C4 C5 A1 A2 A3 A4 A5 A6 A7 A8 A9; lra)). }
  assert (CASE2 : a <= i -> e <= i -> let t := sqrt (i - a - e + 1) in
     let q := mk_quat ((d - b) * (1 / 2 / t)) ((c + g) * (1 / 2 / t)) ((f + h) * (1 / 2 / t)) (t / 2) in
     qunit q /\ to_rotation_matrix q = mk_m33 a b c d e f g h i).
  { intros L1 L2. set (T := i - a - e + 1). assert (PT : 0 < T) by (unfold T; lra). assert (DT : 2 * T <> 0) by (clear - PT; lra). destruct (SQ T PT) as [St S2]. cbv zeta. set (t := sqrt T) in *.
    replace (t / 2) with (T / (2 * t)) by (rewrite <- S2; field; lra).
    replace ((d - b) * (1 / 2 / t)) with ((d - b) / (2 * t)) by (field; lra).
    replace ((c + g) * (1 / 2 / t)) with ((c + g) / (2 * t)) by (field; lra).
    replace ((f + h) * (1 / 2 / t)) with ((f + h) / (2 * t)) by (field; lra).
    split; [apply (scaled_unit _ _ _ _ t T St S2); unfold T; clear - R0 R1 R2 R3 R4 R5 C0 C1 C2 C3 C4 C5 A1 A2 A3 A4 A5 A6 A7 A8 A9; lra|].
    rewrite (scaled_matrix _ _ _ _ t T St S2). f_equal; (apply div_is || apply sub_div_is); (exact DT || (unfold T; clear - R0 R1 R2 R3 R4 R5 C0 C1 C2 C3 C4 C5 A1 A2 A3 A4 A5 A6 A7 A8 A9; lra)). }
  destruct (Rlt_dec a e) as [L1|L1].
  - destruct (Rlt_dec e i) as [L2|L2]; cbn [Z.eqb Pos.eqb]; [apply CASE2|apply CASE1]; lra.
  - destruct (Rlt_dec a i) as [L2|L2]; cbn [Z.eqb Pos.eqb]; [apply CASE2|apply CASE0]; lra.
Qed.
(** * The exponential and the logarithm *)

(** a + b K + c K^2, where K is the cross product with k. *)
Definition kpoly (k : v3) (a b c : R) : m33 :=
  mat_add (mat_scale a identity33) (mat_add (mat_scale b (hat k)) (mat_scale c (mat_mul (hat k) (hat k)))).
Definition kform (x y z a b c : R) : m33 :=
  mk_m33 (a - c * (y * y + z * z)) (c * (x * y) - b * z) (c * (x * z) + b * y)
         (c * (x * y) + b * z) (a - c * (x * x + z * z)) (c * (y * z) - b * x)
         (c * (x * z) - b * y) (c * (y * z) + b * x) (a - c * (x * x + y * y)).
Lemma kpoly_form x y z a b c : kpoly (mk_v3 x y z) a b c = kform x y z a b c.
Proof. unfold kpoly, kform, mat_mul, hat. cbn [vx vy vz m00 m01 m02 m10 m11 m12 m20 m21 m22]. unfold mat_add, mat_scale, identity33. cbn [m00 m01 m02 m10 m11 m12 m20 m21 m22]. f_equal; ring. Qed.
Definition unit3 (k : v3) : Prop := vx k * vx k + vy k * vy k + vz k * vz k = 1.
Lemma kpoly_mul k a b c a' b' c' : unit3 k ->
  mat_mul (kpoly k a b c) (kpoly k a' b' c') =
  kpoly k (a * a') (a * b' + b * a' - b * c' - c * b') (a * c' + c * a' + b * b' - c * c').
Proof.
  destruct k as [x y z]. unfold unit3. cbn. intros U. assert (Z2 : z * z = 1 - x * x - y * y) by lra.
  rewrite !kpoly_form. unfold kform, mat_mul. cbn [m00 m01 m02 m10 m11 m12 m20 m21 m22]. f_equal; ring [Z2].
Qed.
Lemma kpoly_add k a b c a' b' c' : mat_add (kpoly k a b c) (kpoly k a' b' c') = kpoly k (a + a') (b + b') (c + c').
Proof. destruct k as [x y z]. rewrite ?kpoly_form. unfold kform, mat_add, mat_scale, identity33. cbn [m00 m01 m02 m10 m11 m12 m20 m21 m22]. f_equal; ring. Qed.
Lemma kpoly_id k : kpoly k 1 0 0 = identity33.
Proof. destruct k as [x y z]. rewrite ?kpoly_form. unfold kform, mat_add, mat_scale, identity33. cbn [m00 m01 m02 m10 m11 m12 m20 m21 m22]. f_equal; ring. Qed.
Lemma mat_vec_mat_add a b v : mat_vec (mat_add a b) v = vec_add (mat_vec a v) (mat_vec b v).
Proof. destruct a, b, v. unfold mat_vec, mat_add, vec_add. cbn. f_equal; ring. Qed.
Lemma mat_vec_mat_scale s a v : mat_vec (mat_scale s a) v = mat_vec a (vec_scale s v).
Proof. destruct a, v. unfold mat_vec, mat_scale, vec_scale. cbn. f_equal; ring. Qed.
Lemma kpoly_scale k s a b c : mat_scale s (kpoly k a b c) = kpoly k (s * a) (s * b) (s * c).
Proof. destruct k as [x y z]. rewrite ?kpoly_form. unfold kform, mat_add, mat_scale, identity33. cbn [m00 m01 m02 m10 m11 m12 m20 m21 m22]. f_equal; ring. Qed.

(** The rotation about the unit vector k by the angle f. *)
Definition turn (k : v3) (f : R) : quat := mk_quat (cos (f / 2)) (sin (f / 2) * vx k) (sin (f / 2) * vy k) (sin (f / 2) * vz k).
Lemma half_cs f : cos (f / 2) * cos (f / 2) + sin (f / 2) * sin (f / 2) = 1.
Proof. pose proof (sin2_cos2 (f / 2)) as H. unfold Rsqr in H. lra. Qed.
Lemma sin_half f : sin f = 2 * sin (f / 2) * cos (f / 2).
Proof. rewrite <- sin_2a. f_equal. field. Qed.
Lemma cos_half f : cos f = 1 - 2 * sin (f / 2) * sin (f / 2).
Proof. rewrite <- cos_2a_sin. f_equal. field. Qed.
Lemma turn_unit k f : unit3 k -> qunit (turn k f).
Proof.
  unfold unit3, qunit, turn. cbn. intros U. pose proof (half_cs f) as H.
  transitivity (cos (f / 2) * cos (f / 2) + sin (f / 2) * sin (f / 2) * (vx k * vx k + vy k * vy k + vz k * vz k)); [ring|]. rewrite U. lra.
Qed.
Lemma turn_matrix k f : unit3 k -> to_rotation_matrix (turn k f) = kpoly k 1 (sin f) (1 - cos f).
Proof.
  intros U. rewrite (sin_half f), (cos_half f). destruct k as [x y z]. unfold unit3 in U. cbn in U. assert (Z2 : z * z = 1 - x * x - y * y) by lra.
  rewrite kpoly_form. unfold turn, to_rotation_matrix, kform. cbn [qw qx qy qz vx vy vz]. f_equal; ring [Z2].
Qed.
Lemma turn_add k f g : unit3 k -> qmul (turn k f) (turn k g) = turn k (f + g).
Proof.
  intros U. unfold turn. replace ((f + g) / 2) with (f / 2 + g / 2) by field. rewrite sin_plus, cos_plus.
  destruct k as [x y z]. unfold unit3 in U. cbn in U. assert (Z2 : z * z = 1 - x * x - y * y) by lra. unfold qmul. cbn. f_equal; ring [Z2].
Qed.
Lemma v_norm_scale s w : v_norm (vec_scale s w) = Rabs s * v_norm w.
Proof. unfold v_norm, vec_scale. cbn. apply norm3_scale. Qed.
Lemma v_norm_unit k : unit3 k -> v_norm k = 1.
Proof. unfold unit3, v_norm. intros ->. apply sqrt_1. Qed.
(** Every vector is a multiple of a unit vector. *)
Lemma direction w : exists k f, unit3 k /\ w = vec_scale f k /\ f = v_norm w.
Proof.
  destruct (Req_EM_T (v_norm w) 0) as [Z|N].
  - exists unit_z, 0. split; [unfold unit3; cbn; ring|]. split; [|auto]. unfold v_norm in Z. apply norm3_zero in Z. destruct w as [x y z]. cbn in Z.
    destruct Z as (-> & -> & ->). unfold vec_scale. cbn. f_equal; ring.
  - exists (vec_scale (/ v_norm w) w), (v_norm w). split; [|split; [|reflexivity]].
    + unfold unit3, vec_scale. cbn. assert (S2 : v_norm w * v_norm w = vx w * vx w + vy w * vy w + vz w * vz w) by apply norm3_square.
      transitivity ((vx w * vx w + vy w * vy w + vz w * vz w) / (v_norm w * v_norm w)); [field; exact N|]. rewrite <- S2. field. exact N.
    + destruct w as [x y z]. unfold vec_scale. cbn. f_equal; field; exact N.
Qed.
Lemma so3_exp_turn k f : unit3 k -> so3_exp (vec_scale f k) = turn k f.
Proof.
  intros U. unfold so3_exp, turn. rewrite v_norm_scale, (v_norm_unit k U), Rmult_1_r. cbn [vx vy vz vec_scale].
  destruct (Req_EM_T (Rabs f) 0) as [Z|N].
  - assert (F : f = 0) by (destruct (Req_dec f 0) as [E|E]; [exact E|apply Rabs_no_R0 in E; contradiction]). subst f.
    replace (0 / 2) with 0 by field. rewrite cos_0, sin_0. f_equal; field.
  - unfold Rabs in *. destruct (Rcase_abs f).
    + replace (- f / 2) with (- (f / 2)) by field. rewrite cos_neg, sin_neg. f_equal; field; lra.
    + f_equal; field; exact N.
Qed.
(** The translation of the exponential. *)
Definition slide_poly (k : v3) (f : R) : m33 := if Req_EM_T f 0 then identity33 else kpoly k 1 ((1 - cos f) / f) (1 - sin f / f).
Lemma se3_exp_turn u k f : unit3 k -> se3_exp (mk_tan3 u (vec_scale f k)) = mk_se3 (turn k f) (mat_vec (slide_poly k f) u).
Proof.
  intros U. unfold se3_exp. cbn [omg ups]. rewrite so3_exp_turn by exact U. f_equal. f_equal. rewrite v_norm_scale, (v_norm_unit k U), Rmult_1_r.
  unfold slide_poly. destruct (Req_EM_T (Rabs f) 0) as [Z|N], (Req_EM_T f 0) as [Z'|N'].
  - subst f. rewrite turn_matrix, sin_0, cos_0 by exact U. replace (1 - 1) with 0 by ring. apply kpoly_id.
  - apply Rabs_no_R0 in N'. contradiction.
  - subst f. rewrite Rabs_R0 in N. contradiction.
  - assert (E : (1 - cos (Rabs f)) / (Rabs f * Rabs f) = (1 - cos f) / (f * f) /\ (Rabs f - sin (Rabs f)) / (Rabs f * Rabs f * Rabs f) = (f - sin f) / (f * f * f)).
    { unfold Rabs. destruct (Rcase_abs f); [rewrite cos_neg, sin_neg|]; split; field; exact N'. }
    destruct E as [-> ->]. destruct k as [x y z]. rewrite kpoly_form. unfold kform, vec_scale. cbn [vx vy vz]. unfold hat, mat_mul. cbn [vx vy vz m00 m01 m02 m10 m11 m12 m20 m21 m22]. unfold mat_add, mat_scale, identity33. cbn [m00 m01 m02 m10 m11 m12 m20 m21 m22]. f_equal; field; exact N'.
Qed.
Lemma slide_poly_scaled k f s : f <> 0 -> mat_scale s (slide_poly k (s * f)) = kpoly k s ((1 - cos (s * f)) / f) (s - sin (s * f) / f).
Proof.
  intros N. unfold slide_poly. destruct (Req_EM_T (s * f) 0) as [Z|N2].
  - assert (s = 0) by (apply Rmult_integral in Z; destruct Z; [assumption|contradiction]). subst s. rewrite Rmult_0_l, cos_0, sin_0, <- (kpoly_id k), kpoly_scale. f_equal; field; exact N.
  - rewrite kpoly_scale. f_equal; field; split; auto; intros ->; apply N2; ring.
Qed.
(** One-parameter groups. *)
Lemma se3_exp_add x s t : se3_exp (tan3_scale (s + t) x) = se3_mul (se3_exp (tan3_scale s x)) (se3_exp (tan3_scale t x)).
Proof.
  destruct x as [u w]. destruct (direction w) as (k & f & U & -> & _). unfold tan3_scale. cbn [ups omg].
  assert (SC : forall a, vec_scale a (vec_scale f k) = vec_scale (a * f) k) by (intros; unfold vec_scale; cbn; f_equal; ring).
  rewrite !SC, !se3_exp_turn by exact U. unfold se3_mul. cbn [sq st]. rewrite q_mul_qmul, turn_add by exact U.
  replace ((s + t) * f) with (s * f + t * f) by ring. f_equal. rewrite <- !mat_vec_mat_scale, <- mat_vec_mul, <- mat_vec_mat_add. f_equal.
  destruct (Req_EM_T f 0) as [->|N].
  - rewrite !Rmult_0_r, Rplus_0_l. unfold slide_poly. destruct (Req_EM_T 0 0) as [_|C]; [|contradiction].
    rewrite turn_matrix, sin_0, cos_0 by exact U. replace (1 - 1) with 0 by ring. rewrite kpoly_id, mat_mul_id_l, <- (kpoly_id k), !kpoly_scale, kpoly_add. f_equal; ring.
  - rewrite <- Rmult_plus_distr_r, !slide_poly_scaled by exact N. rewrite turn_matrix by exact U. rewrite kpoly_mul, kpoly_add by exact U.
    rewrite Rmult_plus_distr_r, sin_plus, cos_plus. pose proof (sin2_cos2 (s * f)) as P. unfold Rsqr in P. f_equal; field; exact N.
Qed.
Definition same_motion (a b : se3) : Prop := rm a = rm b /\ st a = st b.
Lemma same_motion_carry a b p : valid a -> valid b -> same_motion a b -> carry a p = carry b p.
Proof. intros A B [E F]. rewrite !carry_matrix by assumption. now rewrite E, F. Qed.
Lemma se3_exp_valid x : valid (se3_exp x).
Proof. destruct x as [u w]. destruct (direction w) as (k & f & U & -> & _). rewrite se3_exp_turn by exact U. unfold valid. cbn. now apply turn_unit. Qed.

(** The logarithm of a unit quaternion. *)
Lemma so3_log_spec q : qunit q -> exists k f, unit3 k /\ so3_log_theta q = (vec_scale f k, f) /\ to_rotation_matrix (turn k f) = to_rotation_matrix q /\
  (f = 0 \/ sin (f / 2) <> 0).
Proof.
  intros Q. destruct q as [w x y z]. unfold qunit in Q. cbn in Q. unfold so3_log_theta. cbn [qw qx qy qz].
  destruct (direction (mk_v3 x y z)) as (k & n & U & E & EN). rewrite <- EN.
  assert (NN : 0 <= n) by (rewrite EN; apply norm3_nonneg).
  assert (W2 : w * w + n * n = 1). { pose proof (norm3_square x y z) as S2. rewrite EN. change (v_norm (mk_v3 x y z)) with (norm_r3 x y z). lra. }
  unfold vec_scale in E. injection E as -> -> ->. exists k.
  destruct (Req_EM_T n 0) as [->|N].
  { exists 0. split; [exact U|]. rewrite !Rmult_0_l, !Rmult_0_r. split; [unfold vec_scale; f_equal; f_equal; ring|]. split; [|now left].
    rewrite turn_matrix, sin_0, cos_0 by exact U. replace (1 - 1) with 0 by ring. rewrite kpoly_id. unfold to_rotation_matrix, identity33. cbn. f_equal; ring. }
  assert (MAT : forall f, (cos (f / 2) = w /\ sin (f / 2) = n \/ cos (f / 2) = - w /\ sin (f / 2) = - n) ->
    to_rotation_matrix (turn k f) = to_rotation_matrix (mk_quat w (n * vx k) (n * vy k) (n * vz k))).
  { intros f H. unfold turn, to_rotation_matrix. cbn. destruct H as [[-> ->]|[-> ->]]; f_equal; ring. }
  assert (FIN : forall F, (cos (F * n / 2) = w /\ sin (F * n / 2) = n \/ cos (F * n / 2) = - w /\ sin (F * n / 2) = - n) ->
    exists f, unit3 k /\ (mk_v3 (F * (n * vx k)) (F * (n * vy k)) (F * (n * vz k)), F * n) = (vec_scale f k, f) /\
      to_rotation_matrix (turn k f) = to_rotation_matrix (mk_quat w (n * vx k) (n * vy k) (n * vz k)) /\ (f = 0 \/ sin (f / 2) <> 0)).
  { intros F H. exists (F * n). split; [exact U|]. split; [unfold vec_scale; f_equal; f_equal; ring|]. split; [now apply MAT|]. right.
    destruct H as [[_ ->]|[_ ->]]; lra. }
  destruct (Req_EM_T w 0) as [->|NW].
  - destruct (Rlt_dec 0 0) as [C|_]; [lra|]. assert (n = 1) by nra. subst n. apply FIN. right.
    replace (- PI / 1 * 1 / 2) with (- (PI / 2)) by field. rewrite cos_neg, sin_neg, cos_PI2, sin_PI2. lra.
  - apply FIN. replace (2 * atan (n / w) / n * n / 2) with (atan (n / w)) by (field; exact N).
    set (a := atan (n / w)). assert (CP : 0 < cos a) by (apply cos_gt_0; pose proof (atan_bound (n / w)); unfold a; lra).
    assert (TA : sin a * w = n * cos a).
    { assert (T : tan a = n / w) by apply tan_atan. unfold tan in T. apply (Rmult_eq_compat_r (cos a * w)) in T.
      replace (sin a / cos a * (cos a * w)) with (sin a * w) in T by (field; lra). replace (n / w * (cos a * w)) with (n * cos a) in T by (field; exact NW). exact T. }
    pose proof (sin2_cos2 a) as P. unfold Rsqr in P.
    assert (C2 : cos a * cos a = w * w).
    { transitivity (cos a * cos a * (w * w + n * n)); [rewrite W2; ring|]. transitivity (w * w * (sin a * sin a + cos a * cos a)); [|rewrite P; ring].
      replace (cos a * cos a * (w * w + n * n)) with (w * w * (cos a * cos a) + (n * cos a) * (n * cos a)) by ring. rewrite <- TA. ring. }
    destruct (Rlt_dec 0 w) as [PW|PW].
    + left. assert (cos a = w) by nra. split; [assumption|]. apply (Rmult_eq_reg_r w); [|exact NW]. rewrite TA. f_equal. assumption.
    + right. assert (cos a = - w) by nra. split; [assumption|]. apply (Rmult_eq_reg_r w); [|exact NW]. rewrite TA, H. ring.
Qed.
Lemma se3_exp_log x : valid x -> same_motion (se3_exp (se3_log x)) x.
Proof.
  intros V. destruct x as [q t]. unfold valid in V. cbn in V. destruct (so3_log_spec q V) as (k & f & U & E & M & S0).
  unfold se3_log. cbn [sq st]. rewrite E. rewrite se3_exp_turn by exact U. split; [exact M|]. cbn [st].
  rewrite <- mat_vec_mul. rewrite <- (mat_vec_id t) at 2. f_equal. unfold slide_poly. destruct (Req_EM_T f 0) as [->|N].
  - rewrite mat_mul_id_l. destruct k as [x y z]. unfold vec_scale. cbn [vx vy vz]. unfold hat, mat_mul. cbn [vx vy vz m00 m01 m02 m10 m11 m12 m20 m21 m22]. unfold mat_add, mat_scale, identity33. cbn [m00 m01 m02 m10 m11 m12 m20 m21 m22]. f_equal; field.
  - destruct S0 as [S0|S0]; [contradiction|].
    replace (mat_add identity33 _) with (kpoly k 1 (- (f / 2)) (1 - f / (2 * tan (f / 2)))).
    + rewrite kpoly_mul by exact U. rewrite <- (kpoly_id k). rewrite (sin_half f), (cos_half f). pose proof (half_cs f) as H. unfold tan.
      assert (C2 : cos (f / 2) * cos (f / 2) = 1 - sin (f / 2) * sin (f / 2)) by lra.
      assert (G : f / (2 * (sin (f / 2) / cos (f / 2))) = f * cos (f / 2) / (2 * sin (f / 2))).
      { destruct (Req_dec (cos (f / 2)) 0) as [Z|Z]; [rewrite Z; unfold Rdiv; rewrite Rinv_0, !Rmult_0_r, Rinv_0, Rmult_0_l; ring|field; auto]. }
      rewrite G. set (s := sin (f / 2)) in *. set (c := cos (f / 2)) in *. f_equal.
      * ring.
      * field_simplify_eq; [|auto]. ring [C2].
      * field_simplify_eq; [|auto]. ring [C2].
    + destruct k as [x y z]. rewrite kpoly_form. unfold kform, vec_scale. cbn [vx vy vz]. unfold hat, mat_mul. cbn [vx vy vz m00 m01 m02 m10 m11 m12 m20 m21 m22]. unfold mat_add, mat_scale, identity33. cbn [m00 m01 m02 m10 m11 m12 m20 m21 m22].
      set (h := f / (2 * tan (f / 2))). f_equal; field; exact N.
Qed.
(** * Rotations of the plane *)

Definition zmat (c s : R) : m33 := mk_m33 c (- s) 0 s c 0 0 0 1.
Lemma unit_z_unit : unit3 unit_z.
Proof. unfold unit3. cbn. ring. Qed.
Lemma zmat_rot c s : c * c + s * s = 1 -> is_rot3 (zmat c s).
Proof. intros U. unfold is_rot3, zmat, dot, cross, col0, col1, col2. cbn. repeat split; try ring; lra. Qed.
Lemma cs1 a : cos a * cos a + sin a * sin a = 1.
Proof. pose proof (sin2_cos2 a) as H. unfold Rsqr in H. lra. Qed.
Lemma angle_axis_z a : m_of_angle_axis a unit_z = zmat (cos a) (sin a).
Proof. unfold m_of_angle_axis, unit_z, zmat. cbn [vx vy vz]. f_equal; ring. Qed.
Lemma turn_z a : to_rotation_matrix (turn unit_z a) = zmat (cos a) (sin a).
Proof. rewrite turn_matrix by apply unit_z_unit. unfold unit_z. rewrite kpoly_form. unfold kform, zmat. f_equal; ring. Qed.
Lemma zmat_vec c s p : mat_vec (zmat c s) p = mk_v3 (c * vx p - s * vy p) (s * vx p + c * vy p) (vz p).
Proof. destruct p as [x y z]. unfold mat_vec, zmat. cbn [vx vy vz m00 m01 m02 m10 m11 m12 m20 m21 m22]. f_equal; ring. Qed.
Lemma zmat_transpose c s : transpose (zmat c s) = zmat c (- s).
Proof. unfold transpose, zmat. cbn. f_equal; ring. Qed.

Lemma to_pose3d_spec x y h : valid (to_pose3d (mk_v3 x y h)) /\ rm (to_pose3d (mk_v3 x y h)) = zmat (cos h) (sin h) /\ st (to_pose3d (mk_v3 x y h)) = mk_v3 x y 0.
Proof.
  unfold to_pose3d. cbn [vx vy vz].
  assert (E : q_mul (q_mul (q_of_angle_axis h unit_z) (q_of_angle_axis 0 unit_y)) (q_of_angle_axis 0 unit_x) = turn unit_z h).
  { unfold q_of_angle_axis. replace (0 / 2) with 0 by field. rewrite cos_0, sin_0. unfold q_mul, turn, unit_x, unit_y, unit_z. cbn [qw qx qy qz vx vy vz]. f_equal; ring. }
  rewrite E, turn_z. unfold se3_of_matrix, valid, rm. cbn [sq st]. destruct (q_of_matrix_ok _ (zmat_rot _ _ (cs1 h))) as [Q M]. auto.
Qed.

(** A transform that keeps heights is a rotation about the vertical and a horizontal shift. *)
Definition level (t : se3) : Prop := forall p, vz (carry t p) = vz p.
Lemma level_form t : valid t -> level t -> exists c s, c * c + s * s = 1 /\ rm t = zmat c s /\ vz (st t) = 0.
Proof.
  intros V L. assert (Z0 : vz (st t) = 0).
  { pose proof (L zero3) as H. rewrite carry_matrix in H by exact V. unfold mat_vec, vec_add, zero3 in H. cbn in H. rewrite !Rmult_0_r in H. lra. }
  pose proof (L (mk_v3 1 0 0)) as H1. pose proof (L (mk_v3 0 1 0)) as H2. pose proof (L (mk_v3 0 0 1)) as H3.
  rewrite !carry_matrix in * by exact V. pose proof (rm_rot t V) as RT. destruct (rm t) as [a b c d e f g h i].
  unfold mat_vec, vec_add in *. cbn [vx vy vz m00 m01 m02 m10 m11 m12 m20 m21 m22] in *. rewrite Z0 in *.
  assert (g = 0) by lra. assert (h = 0) by lra. assert (i = 1) by lra. subst g h i. clear H1 H2 H3 L.
  destruct (rot3_facts _ RT) as (_ & _ & AD). destruct RT as (C0 & C1 & C2 & _). unfold dot, col0, col1, col2 in *. cbn in C0, C1, C2.
  unfold adj3, transpose in AD. cbn in AD. injection AD as A1 A2 A3 A4 A5 A6 A7 A8 A9.
  assert (c = 0) by nra. assert (f = 0) by nra. subst c f. exists a, d. split; [lra|]. split; [|reflexivity]. unfold zmat. f_equal; lra.
Qed.
Lemma z_carry t c s p : valid t -> rm t = zmat c s -> carry t p =
  mk_v3 (vx (st t) + (c * vx p - s * vy p)) (vy (st t) + (s * vx p + c * vy p)) (vz (st t) + vz p).
Proof. intros V E. rewrite carry_matrix, E, zmat_vec by exact V. reflexivity. Qed.

(** Two quaternions of one rotation differ by their sign at most. *)
Definition qneg (q : quat) : quat := mk_quat (- qw q) (- qx q) (- qy q) (- qz q).
Lemma double_cover a b : qunit a -> qunit b -> to_rotation_matrix a = to_rotation_matrix b -> a = b \/ a = qneg b.
Proof.
  destruct a as [w x y z], b as [w' x' y' z']. unfold qunit, to_rotation_matrix, qneg. cbn. intros A B E. injection E as E1 E2 E3 E4 E5 E6 E7 E8 E9.
  assert (WW : w * w = w' * w') by lra. assert (XX : x * x = x' * x') by lra. assert (YY : y * y = y' * y') by lra. assert (ZZ : z * z = z' * z') by lra.
  assert (WX : w * x = w' * x') by lra. assert (WY : w * y = w' * y') by lra. assert (WZ : w * z = w' * z') by lra.
  assert (XY : x * y = x' * y') by lra. assert (XZ : x * z = x' * z') by lra. assert (YZ : y * z = y' * z') by lra.
  set (d := w * w' + x * x' + y * y' + z * z').
  assert (D2 : d * d = 1).
  { transitivity ((w*w)*(w'*w') + (x*x)*(x'*x') + (y*y)*(y'*y') + (z*z)*(z'*z') + 2*((w*x)*(w'*x') + (w*y)*(w'*y') + (w*z)*(w'*z') + (x*y)*(x'*y') + (x*z)*(x'*z') + (y*z)*(y'*z'))); [unfold d; ring|].
    rewrite <- WX, <- WY, <- WZ, <- XY, <- XZ, <- YZ, <- WW, <- XX, <- YY, <- ZZ. transitivity ((w * w + x * x + y * y + z * z) * (w * w + x * x + y * y + z * z)); [ring|]. rewrite A. ring. }
  assert (D : d = 1 \/ d = -1).
  { destruct (Req_dec d 1) as [H|H]; [now left|right]. apply (Rmult_eq_reg_l (d - 1)); [|lra]. lra. }
  assert (SQ0 : forall p q r s : R, p * p + q * q + r * r + s * s = 0 -> p = 0 /\ q = 0 /\ r = 0 /\ s = 0).
  { intros p q r s H. pose proof (sqr_nonneg p). pose proof (sqr_nonneg q). pose proof (sqr_nonneg r). pose proof (sqr_nonneg s).
    repeat split; apply Rsqr_0_uniq; unfold Rsqr; lra. }
  destruct D as [D|D]; [left|right].
  - destruct (SQ0 (w - w') (x - x') (y - y') (z - z')) as (? & ? & ? & ?).
    { transitivity ((w * w + x * x + y * y + z * z) + (w' * w' + x' * x' + y' * y' + z' * z') - 2 * d); [unfold d; ring|]. lra. }
    f_equal; lra.
  - destruct (SQ0 (w + w') (x + x') (y + y') (z + z')) as (? & ? & ? & ?).
    { transitivity ((w * w + x * x + y * y + z * z) + (w' * w' + x' * x' + y' * y' + z' * z') + 2 * d); [unfold d; ring|]. lra. }
    f_equal; lra.
Qed.
Lemma q_normalize_unit q : qunit q -> q_normalize q = q.
Proof. destruct q. unfold qunit, q_normalize. cbn. intros ->. rewrite sqrt_1. f_equal; field. Qed.

(** * SE2 *)

Lemma se2_exp_log z : zc z * zc z + zs z * zs z = 1 -> se2_exp (se2_log z) = z.
Proof.
  destruct z as [c s x y]. cbn [zc zs]. intros U. destruct (atan2_unit c s U) as [C S']. unfold se2_exp, se2_log, so2_log. cbn [zc zs zx zy vx vy vz].
  rewrite C, S'. destruct (Req_EM_T (atan2 s c) 0) as [Z|N].
  - rewrite Z in *. rewrite cos_0 in C. rewrite sin_0 in S'. subst c s. destruct (Req_EM_T (1 - 1) 0) as [_|D]; [|lra]. f_equal; field.
  - destruct (Req_EM_T (c - 1) 0) as [Z|N1].
    + exfalso. assert (c = 1) by lra. subst c. assert (s = 0) by nra. subst s. apply N. unfold atan2. destruct (Rlt_dec 0 1); [|lra].
      replace (0 / 1) with 0 by field. apply atan_0.
    + set (t := atan2 s c) in *. assert (S2 : s * s = 1 - c * c) by lra. f_equal; field_simplify_eq; try (split; lra); ring [S2].
Qed.
(** The composition of planar motions. *)
Definition se2_then (a b : se2) : se2 :=
  mk_se2 (zc a * zc b - zs a * zs b) (zs a * zc b + zc a * zs b) (zx a + (zc a * zx b - zs a * zy b)) (zy a + (zs a * zx b + zc a * zy b)).
Lemma se2_exp_add x s t : se2_exp (vec_scale (s + t) x) = se2_then (se2_exp (vec_scale s x)) (se2_exp (vec_scale t x)).
Proof.
  destruct x as [u v f]. unfold se2_exp, vec_scale, se2_then. cbn [vx vy vz zc zs zx zy].
  rewrite Rmult_plus_distr_r, sin_plus, cos_plus. destruct (Req_EM_T f 0) as [->|N].
  - rewrite !Rmult_0_r, !Rplus_0_l, sin_0, cos_0. destruct (Req_EM_T 0 0) as [_|C]; [|contradiction]. f_equal; ring.
  - assert (G : forall a, (if Req_EM_T (a * f) 0 then 1 else sin (a * f) / (a * f)) * a = sin (a * f) / f /\ (if Req_EM_T (a * f) 0 then 0 else (1 - cos (a * f)) / (a * f)) * a = (1 - cos (a * f)) / f).
    { intros a. destruct (Req_EM_T (a * f) 0) as [Z|N2].
      - assert (a = 0) by (apply Rmult_integral in Z; destruct Z; [assumption|contradiction]). subst a. rewrite Rmult_0_l, sin_0, cos_0. split; field; exact N.
      - split; field; split; auto; intros ->; apply N2; ring. }
    destruct (G s) as [G1 G2]. destruct (G t) as [G3 G4]. destruct (G (s + t)) as [G5 G6]. rewrite Rmult_plus_distr_r in G5, G6. rewrite sin_plus in G5. rewrite cos_plus in G6.
    set (P := if Req_EM_T (s * f) 0 then 1 else _) in *. set (Q := if Req_EM_T (s * f) 0 then 0 else _) in *.
    set (P' := if Req_EM_T (t * f) 0 then 1 else _) in *. set (Q' := if Req_EM_T (t * f) 0 then 0 else _) in *.
    set (P2 := if Req_EM_T (s * f + t * f) 0 then 1 else _) in *. set (Q2 := if Req_EM_T (s * f + t * f) 0 then 0 else _) in *.
    set (c := cos (s * f)) in *. set (c' := cos (t * f)) in *. set (s1 := sin (s * f)) in *. set (s2 := sin (t * f)) in *.
    f_equal.
    + transitivity ((P2 * (s + t)) * u - (Q2 * (s + t)) * v); [ring|].
      transitivity ((P * s) * u - (Q * s) * v + (c * ((P' * t) * u - (Q' * t) * v) - s1 * ((Q' * t) * u + (P' * t) * v))); [|ring].
      rewrite G1, G2, G3, G4, G5, G6. field. exact N.
    + transitivity ((Q2 * (s + t)) * u + (P2 * (s + t)) * v); [ring|].
      transitivity ((Q * s) * u + (P * s) * v + (s1 * ((P' * t) * u - (Q' * t) * v) + c * ((Q' * t) * u + (P' * t) * v))); [|ring].
      rewrite G1, G2, G3, G4, G5, G6. field. exact N.
Qed.
Lemma se2_exp_unit x : zc (se2_exp x) * zc (se2_exp x) + zs (se2_exp x) * zs (se2_exp x) = 1.
Proof. unfold se2_exp. cbn. apply cs1. Qed.

(** What a planar motion does to a point in space. *)
Definition plane_move (z : se2) (p : v3) : v3 := mk_v3 (zx z + (zc z * vx p - zs z * vy p)) (zy z + (zs z * vx p + zc z * vy p)) (vz p).
Lemma plane_move_then a b p : plane_move (se2_then a b) p = plane_move a (plane_move b p).
Proof. unfold plane_move, se2_then. cbn [zc zs zx zy vx vy vz]. f_equal; ring. Qed.

(** The angle of the logarithm of a rotation about the vertical. *)
Lemma log_z q c s : qunit q -> to_rotation_matrix q = zmat c s -> cos (vz (fst (so3_log_theta q))) = c /\ sin (vz (fst (so3_log_theta q))) = s.
Proof.
  intros Q E. destruct (so3_log_spec q Q) as (k & f & U & L & M & F). rewrite L. cbn [fst]. rewrite E in M. rewrite turn_matrix in M by exact U.
  destruct k as [x y z]. rewrite kpoly_form in M. unfold kform, zmat in M. injection M as M0 M1 M2 M3 M4 M5 M6 M7 M8. unfold unit3 in U. cbn [vx vy vz vec_scale] in *.
  assert (CASES : f = 0 \/ (x = 0 /\ y = 0)).
  { destruct (Req_dec (1 - cos f) 0) as [Z|N].
    - left. destruct F as [F|F]; [exact F|]. rewrite cos_half in Z. exfalso. apply F. apply Rsqr_0_uniq. unfold Rsqr. lra.
    - right. assert (W : x * x + y * y = 0). { apply (Rmult_eq_reg_l (1 - cos f)); [|exact N]. lra. }
      pose proof (sqr_nonneg x). pose proof (sqr_nonneg y). split; apply Rsqr_0_uniq; unfold Rsqr; lra. }
  destruct CASES as [E0|[E1 E2]].
  - subst f. rewrite Rmult_0_l, cos_0, sin_0 in *. lra.
  - subst x y. assert (Z2 : z * z = 1) by lra. assert (Z : z = 1 \/ z = -1).
    { destruct (Req_dec z 1) as [H|H]; [now left|right]. apply (Rmult_eq_reg_l (z - 1)); [|lra]. lra. }
    destruct Z as [->| ->].
    + rewrite Rmult_1_r. split; lra.
    + replace (f * -1) with (- f) by ring. rewrite cos_neg, sin_neg. split; lra.
Qed.

(** * The planar interpolator *)

Lemma planar_at_move p t q : valid (pl_a p) -> carry (planar_at p t) q = plane_move (se2_exp (vec_scale t (pl_tan p))) (carry (pl_a p) q).
Proof.
  intros V. unfold planar_at. pose proof (se2_exp_unit (vec_scale t (pl_tan p))) as U. generalize dependent (se2_exp (vec_scale t (pl_tan p))). intros z U.
  assert (U' : zc (se2_inverse z) * zc (se2_inverse z) + zs (se2_inverse z) * zs (se2_inverse z) = 1) by (rewrite <- U; unfold se2_inverse; cbn [zc zs]; ring).
  set (a := so2_log (se2_inverse z)). destruct (atan2_unit _ _ U') as [C S']. fold (so2_log (se2_inverse z)) in C, S'. fold a in C, S'. cbn [zc zs se2_inverse] in C, S'.
  rewrite angle_axis_z. set (D := se3_of_matrix _ _). destruct (q_of_matrix_ok _ (zmat_rot _ _ (cs1 a))) as [QV QM].
  assert (VD : valid D) by exact QV. rewrite carry_mul by auto using valid_inverse.
  assert (RD : rm (se3_inverse D) = zmat (zc z) (zs z)).
  { rewrite rm_inverse. unfold rm, D. cbn [sq se3_of_matrix]. rewrite QM, zmat_transpose, C, S'. f_equal. ring. }
  rewrite (z_carry _ _ _ _ (valid_inverse _ VD) RD). unfold plane_move. unfold rm in RD. cbn [se3_inverse sq] in RD.
  cbn [se3_inverse st]. rewrite RD, zmat_vec. unfold D. cbn [se3_of_matrix st vec_scale vx vy vz se2_inverse zx zy].
  assert (E1 : -1 * (zc z * - (zc z * zx z + zs z * zy z) - zs z * - (- zs z * zx z + zc z * zy z)) = zx z) by (transitivity (zx z * (zc z * zc z + zs z * zs z)); [ring|rewrite U; ring]).
  assert (E2 : -1 * (zs z * - (zc z * zx z + zs z * zy z) + zc z * - (- zs z * zx z + zc z * zy z)) = zy z) by (transitivity (zy z * (zc z * zc z + zs z * zs z)); [ring|rewrite U; ring]).
  rewrite E1, E2. f_equal. ring.
Qed.
Lemma plane_move_0 x q : plane_move (se2_exp (vec_scale 0 x)) q = q.
Proof.
  destruct x as [u v f], q as [a b c]. unfold plane_move, se2_exp, vec_scale. cbn [vx vy vz]. rewrite !Rmult_0_l, cos_0, sin_0.
  destruct (Req_EM_T 0 0); cbn; f_equal; ring.
Qed.
Lemma vec_scale_1 x : vec_scale 1 x = x.
Proof. destruct x. unfold vec_scale. cbn. f_equal; ring. Qed.
Lemma FOk_inj {A} (x y : A) : FOk x = FOk y -> x = y.
Proof. intros H. now injection H. Qed.
Lemma planar_end debug a b p q : valid a -> valid b -> level (se3_mul b (se3_inverse a)) -> planar_make debug a b = FOk p ->
  carry (planar_at p 1) q = carry b q.
Proof.
  intros VA VB L E. unfold planar_make in E. destruct (debug && _)%bool; [discriminate|]. apply FOk_inj in E. subst p.
  set (rel := se3_mul b (se3_inverse a)) in *. assert (VR : valid rel) by (apply valid_mul; auto using valid_inverse).
  destruct (level_form rel VR L) as (c & s & U & M & Z0). rewrite planar_at_move by exact VA. cbn [pl_a pl_tan]. rewrite vec_scale_1.
  assert (MI : to_rotation_matrix (sq (se3_inverse rel)) = zmat c (- s)).
  { change (rm (se3_inverse rel) = zmat c (- s)). rewrite rm_inverse, M. apply zmat_transpose. }
  destruct (log_z _ _ _ (valid_inverse _ VR) MI) as [C S']. rewrite se2_exp_log.
  2:{ unfold se2_inverse, se2_make. cbn [zc zs]. rewrite C, S'. lra. }
  unfold se2_inverse, se2_make. cbn [zc zs zx zy]. rewrite C, S'. cbn [se3_inverse st]. cbn [se3_inverse sq] in MI. rewrite MI, zmat_vec.
  unfold plane_move. cbn [zc zs zx zy vec_scale vx vy vz].
  assert (B : carry b q = carry rel (carry a q)).
  { unfold rel. rewrite carry_mul by auto using valid_inverse. now rewrite carry_inverse_l. }
  rewrite B, (z_carry rel c s _ VR M), Z0. set (x := vx (st rel)). set (y := vy (st rel)). f_equal.
  - transitivity (x * (c * c + s * s) + (c * vx (carry a q) - s * vy (carry a q))); [ring|rewrite U; ring].
  - transitivity (y * (c * c + s * s) + (s * vx (carry a q) + c * vy (carry a q))); [ring|rewrite U; ring].
  - ring.
Qed.

(** * The general and the sliding interpolator *)

Lemma tan3_scale_1 x : tan3_scale 1 x = x.
Proof. destruct x. unfold tan3_scale. cbn. now rewrite !vec_scale_1. Qed.
Lemma carry_exp_0 x q : carry (se3_exp (tan3_scale 0 x)) q = q.
Proof.
  destruct x as [u w]. unfold tan3_scale. cbn [ups omg]. replace (vec_scale 0 w) with (vec_scale 0 unit_z) by (unfold vec_scale; cbn; f_equal; ring).
  rewrite carry_matrix by apply se3_exp_valid. rewrite se3_exp_turn by apply unit_z_unit. unfold rm. cbn [sq st]. rewrite turn_z, sin_0, cos_0, zmat_vec.
  unfold slide_poly. destruct (Req_EM_T 0 0) as [_|C]; [|contradiction]. rewrite mat_vec_id. destruct u, q. unfold vec_add, vec_scale. cbn. f_equal; ring.
Qed.
Lemma interp_start a b q : valid a -> carry (interp_at (interp_make a b) 0) q = carry a q.
Proof. intros A. unfold interp_at. cbn [i_tan i_a interp_make]. rewrite carry_mul by (auto using se3_exp_valid). apply carry_exp_0. Qed.
Lemma interp_end a b q : valid a -> valid b -> carry (interp_at (interp_make a b) 1) q = carry b q.
Proof.
  intros A B. unfold interp_at. cbn [i_tan i_a interp_make]. rewrite carry_mul by (auto using se3_exp_valid). rewrite tan3_scale_1.
  set (rel := se3_mul b (se3_inverse a)). assert (VR : valid rel) by (apply valid_mul; auto using valid_inverse).
  rewrite (same_motion_carry _ rel) by (auto using se3_exp_valid, se3_exp_log). unfold rel. rewrite carry_mul by auto using valid_inverse. now rewrite carry_inverse_l.
Qed.
Lemma interp_valid i t : valid (i_a i) -> valid (interp_at i t).
Proof. intros A. unfold interp_at. apply valid_mul; [apply se3_exp_valid|exact A]. Qed.
Lemma interp_steady i s t q : valid (i_a i) -> carry (interp_at i (s + t)) q = carry (se3_exp (tan3_scale s (i_tan i))) (carry (interp_at i t) q).
Proof. intros A. unfold interp_at. rewrite se3_exp_add. rewrite !carry_mul by auto using se3_exp_valid, valid_mul. reflexivity. Qed.

Lemma carry_zero t : valid t -> carry t zero3 = st t.
Proof. intros V. rewrite carry_matrix by exact V. destruct (rm t), (st t). unfold mat_vec, vec_add, zero3. cbn. f_equal; ring. Qed.
Lemma carry_diff t p q : valid t -> vec_add (carry t p) (vec_scale (-1) (carry t q)) = mat_vec (rm t) (vec_add p (vec_scale (-1) q)).
Proof. intros V. rewrite !carry_matrix by exact V. destruct (rm t), (st t), p, q. unfold mat_vec, vec_add, vec_scale. cbn. f_equal; ring. Qed.
Lemma sliding_valid s t : valid (i_a (sl_interp s)) -> valid (sliding_at s t).
Proof. intros A. unfold sliding_at. apply valid_inverse. unfold valid. cbn [sq]. apply (valid_inverse _ (interp_valid _ t A)). Qed.
Lemma sliding_rm s t : rm (sliding_at s t) = rm (interp_at (sl_interp s) t).
Proof. unfold sliding_at. rewrite rm_inverse. unfold rm at 1. cbn [sq se3_inverse]. change (q_conj ?x) with (qconj x). rewrite matrix_conj, transpose_invol. reflexivity. Qed.
Lemma sliding_origin a b t : valid a -> valid b -> carry (sliding_at (sliding_make a b) t)
  (vec_add (carry (se3_inverse a) zero3) (vec_scale t (vec_add (carry (se3_inverse b) zero3) (vec_scale (-1) (carry (se3_inverse a) zero3))))) = zero3.
Proof.
  intros A B. rewrite !carry_zero by (apply valid_inverse; assumption). unfold sliding_at. cbn [sl_a sl_b sl_interp sliding_make].
  set (o := vec_add (st (se3_inverse a)) _).
  assert (VQ : valid (mk_se3 (sq (se3_inverse (interp_at (interp_make a b) t))) o)) by exact (valid_inverse _ (interp_valid (interp_make a b) t A)).
  pose proof (carry_zero _ VQ) as E. cbn [st] in E. rewrite <- E at 2. now apply carry_inverse_l.
Qed.
(** A transform is determined by its rotation and the point it sends to the origin. *)
Lemma carry_by_origin a b o p : valid a -> valid b -> rm a = rm b -> carry a o = zero3 -> carry b o = zero3 -> carry a p = carry b p.
Proof.
  intros A B R A0 B0. pose proof (carry_diff a p o A) as E. pose proof (carry_diff b p o B) as F. rewrite A0 in E. rewrite B0 in F. rewrite R in E. rewrite <- F in E.
  destruct (carry a p), (carry b p). unfold vec_add, vec_scale, zero3 in E. cbn in E. injection E as E1 E2 E3. f_equal; lra.
Qed.
Lemma rm_of_carry a b : valid a -> valid b -> (forall p, carry a p = carry b p) -> rm a = rm b.
Proof.
  intros A B H. apply mat_vec_inj. intros v. pose proof (carry_diff a v zero3 A) as E. rewrite !H, (carry_diff b v zero3 B) in E.
  replace (vec_add v (vec_scale (-1) zero3)) with v in E by (destruct v; unfold vec_add, vec_scale, zero3; cbn; f_equal; ring). now symmetry.
Qed.
(** Where the origin of one frame lies in another. *)
Lemma relative_origin a b o : valid a -> valid b -> carry a o = o -> carry b o = zero3 -> st (se3_inverse (se3_mul b (se3_inverse a))) = o.
Proof.
  intros A B OA OB. set (rel := se3_mul b (se3_inverse a)). assert (VR : valid rel) by (apply valid_mul; auto using valid_inverse).
  rewrite <- carry_zero by now apply valid_inverse. assert (E : carry rel o = zero3).
  { unfold rel. rewrite carry_mul by auto using valid_inverse. rewrite <- OA at 1. rewrite carry_inverse_l by exact A. exact OB. }
  rewrite <- E. now apply carry_inverse_l.
Qed.
