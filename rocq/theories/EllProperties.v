(** Properties of covariance ellipsoids in three dimensions (C258). *)
From Verif Require Import RBase EllModel.
Open Scope R_scope.

(** A symmetric matrix [a b c; b d e; c e f], as it acts on a vector. *)
Record sym3 : Type := Sym { ma : R; mb : R; mc : R; md : R; me : R; mf : R }.
Definition app3 (M : sym3) (v : vec3) : vec3 :=
  V3 (ma M * c0 v + mb M * c1 v + mc M * c2 v) (mb M * c0 v + md M * c1 v + me M * c2 v) (mc M * c0 v + me M * c1 v + mf M * c2 v).
Definition scale (k : R) (v : vec3) : vec3 := V3 (k * c0 v) (k * c1 v) (k * c2 v).
Definition ip (u v : vec3) : R := c0 u * c0 v + c1 u * c1 v + c2 u * c2 v.
Definition det3 (u v w : vec3) : R :=
  c0 u * (c1 v * c2 w - c2 v * c1 w) - c0 v * (c1 u * c2 w - c2 u * c1 w) + c0 w * (c1 u * c2 v - c2 u * c1 v).
(** Positive definite: what the documentation asks of M. *)
Definition posdef (M : sym3) : Prop := forall v, v <> V3 0 0 0 -> 0 < ip v (app3 M v).
(** What a solver owes: eigenvectors to the eigenvalues, linearly independent. *)
Definition solved (M : sym3) (values : R * R * R) (vectors : vec3 * vec3 * vec3) : Prop :=
  let '(l0, l1, l2) := values in let '(v0, v1, v2) := vectors in
  app3 M v0 = scale l0 v0 /\ app3 M v1 = scale l1 v1 /\ app3 M v2 = scale l2 v2 /\ det3 v0 v1 v2 <> 0.

Lemma ip_scale k u v : ip u (scale k v) = k * ip u v. Proof. unfold ip, scale; cbn; ring. Qed.
Lemma ip_pos v : v <> V3 0 0 0 -> 0 < ip v v.
Proof.
  intros H. unfold ip. destruct v as [x y z]; cbn.
  destruct (Req_dec x 0) as [->|Hx]; [destruct (Req_dec y 0) as [->|Hy]; [destruct (Req_dec z 0) as [->|Hz]; [contradiction|]|]|]; nra.
Qed.
Lemma det_nonzero u v w : det3 u v w <> 0 -> u <> V3 0 0 0 /\ v <> V3 0 0 0 /\ w <> V3 0 0 0.
Proof. intros H. repeat split; intros ->; apply H; unfold det3; cbn; ring. Qed.
Lemma eigen_pos M l v : posdef M -> app3 M v = scale l v -> v <> V3 0 0 0 -> 0 < l.
Proof.
  intros P E N. pose proof (P v N) as H. rewrite E, ip_scale in H. pose proof (ip_pos v N) as H2.
  destruct (Rlt_dec 0 l); [assumption|]. nra.
Qed.
Lemma normalize3_ok v : v <> V3 0 0 0 -> exists k, 0 < k /\ normalize3 v = FOk (scale k v) /\ ip (scale k v) (scale k v) = 1.
Proof.
  intros N. pose proof (ip_pos v N) as H. unfold normalize3. change (dot3 v v) with (ip v v). destruct (Rlt_dec 0 (ip v v)); [|contradiction].
  pose proof (sqrt_lt_R0 _ H) as HS. rewrite fsqrt_ok by lra. cbn [fbind]. rewrite !fdiv_ok by lra. cbn [fbind].
  exists (/ sqrt (ip v v)). split; [apply Rinv_0_lt_compat, HS|]. split.
  - f_equal. unfold scale. f_equal; unfold Rdiv; ring.
  - replace (ip (scale (/ sqrt (ip v v)) v) (scale (/ sqrt (ip v v)) v)) with (ip v v * / (sqrt (ip v v) * sqrt (ip v v))).
    + rewrite sqrt_sqrt by lra. field. lra.
    + rewrite Rinv_mult. unfold ip at 1 4 5. unfold scale. cbn. unfold ip. ring.
Qed.
Lemma eigen_scale M l k v : app3 M v = scale l v -> app3 M (scale k v) = scale l (scale k v).
Proof. unfold app3, scale. intros H. injection H as A B C. cbn. f_equal; [transitivity (k * (l * c0 v)); [rewrite <- A|] | transitivity (k * (l * c1 v)); [rewrite <- B|] | transitivity (k * (l * c2 v)); [rewrite <- C|]]; ring. Qed.
Lemma det_scale a b c u v w : det3 (scale a u) (scale b v) (scale c w) = a * b * c * det3 u v w.
Proof. unfold det3, scale; cbn; ring. Qed.
Lemma det_swap u v w : det3 v u w = - det3 u v w. Proof. unfold det3; ring. Qed.
Lemma triple u v w : dot3 (cross3 u v) w = det3 u v w. Proof. unfold dot3, cross3, det3; cbn; ring. Qed.

(** * C258 *)
(** For every symmetric positive definite matrix and whatever eigenvectors the solver finds: the lengths are positive, axis i is a unit eigenvector whose
    eigenvalue is the square of length i, and the axes form a right-handed system. *)
Theorem C258_right_handed : forall M values vectors, posdef M -> solved M values vectors ->
  exists l0 l1 l2 u0 u1 u2, ell_compute values vectors true = FOk (mk_ell (l0, l1, l2) (u0, u1, u2)) /\
    0 < l0 /\ 0 < l1 /\ 0 < l2 /\
    app3 M u0 = scale (l0 * l0) u0 /\ app3 M u1 = scale (l1 * l1) u1 /\ app3 M u2 = scale (l2 * l2) u2 /\
    ip u0 u0 = 1 /\ ip u1 u1 = 1 /\ ip u2 u2 = 1 /\ 0 < det3 u0 u1 u2.
Proof.
  intros M [[l0 l1] l2] [[v0 v1] v2] P (E0 & E1 & E2 & D). destruct (det_nonzero _ _ _ D) as (N0 & N1 & N2).
  pose proof (eigen_pos _ _ _ P E0 N0). pose proof (eigen_pos _ _ _ P E1 N1). pose proof (eigen_pos _ _ _ P E2 N2).
  destruct (normalize3_ok v0 N0) as (k0 & K0 & Q0 & U0). destruct (normalize3_ok v1 N1) as (k1 & K1 & Q1 & U1). destruct (normalize3_ok v2 N2) as (k2 & K2 & Q2 & U2).
  unfold ell_compute. rewrite !fsqrt_ok by lra. cbn [fbind]. rewrite Q0, Q1, Q2. cbn [fbind]. rewrite triple, det_scale.
  assert (PK : 0 < k0 * k1 * k2) by (repeat apply Rmult_lt_0_compat; assumption).
  pose proof (eigen_scale _ _ k0 _ E0). pose proof (eigen_scale _ _ k1 _ E1). pose proof (eigen_scale _ _ k2 _ E2).
  destruct (Rlt_dec _ 0) as [L|L].
  - eexists _, _, _, _, _, _. split; [reflexivity|]. rewrite !sqrt_sqrt by lra. rewrite det_swap, det_scale.
    repeat split; try (apply sqrt_lt_R0; assumption); try assumption. lra.
  - eexists _, _, _, _, _, _. split; [reflexivity|]. rewrite !sqrt_sqrt by lra. rewrite det_scale.
    repeat split; try (apply sqrt_lt_R0; assumption); try assumption.
    assert (k0 * k1 * k2 * det3 v0 v1 v2 <> 0) by (apply Rmult_integral_contrapositive_currified; lra). lra.
Qed.
Print Assumptions C258_right_handed.

(** If no two eigenvalues are equal the axes are perpendicular, and axes and lengths determine the matrix: entry (i, j) of M is the sum over the axes of
    the squared length times the product of components i and j. *)
Definition ortho (u0 u1 u2 : vec3) : Prop := ip u0 u1 = 0 /\ ip u0 u2 = 0 /\ ip u1 u2 = 0.
Definition rebuilt (p0 p1 p2 : R) (u0 u1 u2 : vec3) : sym3 :=
  let e (f g : vec3 -> R) := p0 * (f u0 * g u0) + p1 * (f u1 * g u1) + p2 * (f u2 * g u2) in
  Sym (e c0 c0) (e c0 c1) (e c0 c2) (e c1 c1) (e c1 c2) (e c2 c2).
Lemma eigen_perp M a b u v : app3 M u = scale a u -> app3 M v = scale b v -> a <> b -> ip u v = 0.
Proof.
  intros A B N.
  assert (S : ip (app3 M u) v = ip u (app3 M v)) by (unfold ip, app3; cbn; ring).
  rewrite A, B, ip_scale in S. assert (ip (scale a u) v = a * ip u v) by (unfold ip, scale; cbn; ring). rewrite H in S.
  assert ((a - b) * ip u v = 0) by lra. apply Rmult_integral in H0. destruct H0; [lra|assumption].
Qed.
Lemma frame u v w : ip u u = 1 -> ip v v = 1 -> ip w w = 1 -> ortho u v w -> 0 < det3 u v w -> w = cross3 u v.
Proof.
  intros A B C (D & E & F) P.
  assert (G : det3 u v w * det3 u v w = 1).
  { replace (det3 u v w * det3 u v w) with (ip u u * (ip v v * ip w w - ip v w * ip v w) - ip u v * (ip u v * ip w w - ip v w * ip u w) + ip u w * (ip u v * ip v w - ip v v * ip u w)) by (unfold det3, ip; ring).
    rewrite A, B, C, D, E, F. ring. }
  assert (G1 : det3 u v w = 1) by nra.
  assert (L : ip (cross3 u v) (cross3 u v) = 1).
  { replace (ip (cross3 u v) (cross3 u v)) with (ip u u * ip v v - ip u v * ip u v) by (unfold ip, cross3; cbn; ring). rewrite A, B, D. ring. }
  assert (Q : (c0 w - c0 (cross3 u v)) * (c0 w - c0 (cross3 u v)) + (c1 w - c1 (cross3 u v)) * (c1 w - c1 (cross3 u v)) + (c2 w - c2 (cross3 u v)) * (c2 w - c2 (cross3 u v)) = 0).
  { transitivity (ip w w + ip (cross3 u v) (cross3 u v) - 2 * dot3 (cross3 u v) w); [unfold ip, dot3; ring|]. rewrite C, L, triple, G1. ring. }
  destruct w as [x y z], (cross3 u v) as [x' y' z']; cbn in Q.
  pose proof (Rle_0_sqr (x - x')) as S1. pose proof (Rle_0_sqr (y - y')) as S2. pose proof (Rle_0_sqr (z - z')) as S3. unfold Rsqr in *.
  assert (Z : forall t, t * t = 0 -> t = 0) by (intros t Ht; destruct (Rmult_integral _ _ Ht); assumption).
  f_equal; [assert (x - x' = 0) | assert (y - y' = 0) | assert (z - z' = 0)]; try lra; apply Z; lra.
Qed.
Lemma rows_same u1 u2 u3 v1 v2 v3 : u1 * u1 + u2 * u2 + u3 * u3 = 1 -> v1 * v1 + v2 * v2 + v3 * v3 = 1 -> u1 * v1 + u2 * v2 + u3 * v3 = 0 ->
  u1 * u1 + v1 * v1 + (u2 * v3 - u3 * v2) * (u2 * v3 - u3 * v2) = 1.
Proof.
  intros A B C. replace ((u2 * v3 - u3 * v2) * (u2 * v3 - u3 * v2)) with ((u2 * u2 + u3 * u3) * (v2 * v2 + v3 * v3) - (u2 * v2 + u3 * v3) * (u2 * v2 + u3 * v3)) by ring.
  replace (u2 * u2 + u3 * u3) with (1 - u1 * u1) by lra. replace (v2 * v2 + v3 * v3) with (1 - v1 * v1) by lra. replace (u2 * v2 + u3 * v3) with (- (u1 * v1)) by lra. ring.
Qed.
Lemma rows_perp u1 u2 u3 v1 v2 v3 : u1 * u1 + u2 * u2 + u3 * u3 = 1 -> v1 * v1 + v2 * v2 + v3 * v3 = 1 -> u1 * v1 + u2 * v2 + u3 * v3 = 0 ->
  u1 * u2 + v1 * v2 + (u2 * v3 - u3 * v2) * (u3 * v1 - u1 * v3) = 0.
Proof.
  intros A B C.
  replace ((u2 * v3 - u3 * v2) * (u3 * v1 - u1 * v3)) with ((u3 * v3) * (u2 * v1 + u1 * v2) - u1 * u2 * (v3 * v3) - v1 * v2 * (u3 * u3)) by ring.
  replace (u3 * v3) with (- (u1 * v1 + u2 * v2)) by lra. replace (v3 * v3) with (1 - v1 * v1 - v2 * v2) by lra. replace (u3 * u3) with (1 - u1 * u1 - u2 * u2) by lra. ring.
Qed.
Theorem C258_axes_partial : forall M l0 l1 l2 vectors, posdef M -> solved M (l0, l1, l2) vectors -> l0 <> l1 -> l0 <> l2 -> l1 <> l2 ->
  exists p0 p1 p2 u0 u1 u2, ell_compute (l0, l1, l2) vectors true = FOk (mk_ell (p0, p1, p2) (u0, u1, u2)) /\
    ortho u0 u1 u2 /\ det3 u0 u1 u2 = 1 /\ M = rebuilt (p0 * p0) (p1 * p1) (p2 * p2) u0 u1 u2.
Proof.
  intros M l0 l1 l2 [[v0 v1] v2] P S D01 D02 D12.
  destruct (C258_right_handed _ _ _ P S) as (p0 & p1 & p2 & u0 & u1 & u2 & HC & P0 & P1 & P2 & E0 & E1 & E2 & U0 & U1 & U2 & DP).
  exists p0, p1, p2, u0, u1, u2. split; [exact HC|].
  assert (DIFF : p0 * p0 <> p1 * p1 /\ p0 * p0 <> p2 * p2 /\ p1 * p1 <> p2 * p2).
  { destruct S as (X0 & X1 & X2 & D). destruct (det_nonzero _ _ _ D) as (N0 & N1 & N2).
    pose proof (eigen_pos _ _ _ P X0 N0). pose proof (eigen_pos _ _ _ P X1 N1). pose proof (eigen_pos _ _ _ P X2 N2).
    destruct (normalize3_ok v0 N0) as (k0 & K0 & Q0 & _). destruct (normalize3_ok v1 N1) as (k1 & K1 & Q1 & _). destruct (normalize3_ok v2 N2) as (k2 & K2 & Q2 & _).
    unfold ell_compute in HC. rewrite !fsqrt_ok in HC by lra. cbn [fbind] in HC. rewrite Q0, Q1, Q2 in HC. cbn [fbind] in HC.
    destruct (Rlt_dec _ 0); injection HC as <- <- <- <- <- <-; rewrite !sqrt_sqrt by lra; auto. }
  destruct DIFF as (F01 & F02 & F12).
  assert (O : ortho u0 u1 u2) by (repeat split; eapply eigen_perp; eassumption).
  split; [exact O|]. pose proof (frame _ _ _ U0 U1 U2 O DP) as W.
  split.
  { rewrite <- triple, <- W. exact U2. }
  destruct O as (O01 & _ & _). clear HC S U2 DP.
  unfold ip in U0, U1, O01. destruct u0 as [a1 a2 a3], u1 as [b1 b2 b3]. cbn in U0, U1, O01. subst u2. unfold cross3 in *. cbn [c0 c1 c2] in *.
  pose proof (rows_same a1 a2 a3 b1 b2 b3 U0 U1 O01) as R11.
  pose proof (rows_same a2 a3 a1 b2 b3 b1 ltac:(lra) ltac:(lra) ltac:(lra)) as R22.
  pose proof (rows_same a3 a1 a2 b3 b1 b2 ltac:(lra) ltac:(lra) ltac:(lra)) as R33.
  pose proof (rows_perp a1 a2 a3 b1 b2 b3 U0 U1 O01) as R12.
  pose proof (rows_perp a2 a3 a1 b2 b3 b1 ltac:(lra) ltac:(lra) ltac:(lra)) as R23.
  pose proof (rows_perp a3 a1 a2 b3 b1 b2 ltac:(lra) ltac:(lra) ltac:(lra)) as R31.
  remember (a2 * b3 - a3 * b2) as w1. remember (a3 * b1 - a1 * b3) as w2. remember (a1 * b2 - a2 * b1) as w3. clear Heqw1 Heqw2 Heqw3.
  destruct M as [A B C D E F]. unfold app3, scale in E0, E1, E2. cbn in E0, E1, E2.
  injection E0 as X1 X2 X3. injection E1 as Y1 Y2 Y3. injection E2 as Z1 Z2 Z3.
  unfold rebuilt. cbn.
  f_equal.
  - transitivity (A * (a1 * a1 + b1 * b1 + w1 * w1) + B * (a1 * a2 + b1 * b2 + w1 * w2) + C * (a3 * a1 + b3 * b1 + w3 * w1)); [rewrite R11, R12, R31; ring|].
    replace (p0 * p0 * (a1 * a1)) with (a1 * (A * a1 + B * a2 + C * a3)) by (rewrite X1; ring). replace (p1 * p1 * (b1 * b1)) with (b1 * (A * b1 + B * b2 + C * b3)) by (rewrite Y1; ring).
    replace (p2 * p2 * (w1 * w1)) with (w1 * (A * w1 + B * w2 + C * w3)) by (rewrite Z1; ring). ring.
  - transitivity (A * (a1 * a2 + b1 * b2 + w1 * w2) + B * (a2 * a2 + b2 * b2 + w2 * w2) + C * (a2 * a3 + b2 * b3 + w2 * w3)); [rewrite R22, R12, R23; ring|].
    replace (p0 * p0 * (a1 * a2)) with (a2 * (A * a1 + B * a2 + C * a3)) by (rewrite X1; ring). replace (p1 * p1 * (b1 * b2)) with (b2 * (A * b1 + B * b2 + C * b3)) by (rewrite Y1; ring).
    replace (p2 * p2 * (w1 * w2)) with (w2 * (A * w1 + B * w2 + C * w3)) by (rewrite Z1; ring). ring.
  - transitivity (A * (a3 * a1 + b3 * b1 + w3 * w1) + B * (a2 * a3 + b2 * b3 + w2 * w3) + C * (a3 * a3 + b3 * b3 + w3 * w3)); [rewrite R33, R31, R23; ring|].
    replace (p0 * p0 * (a1 * a3)) with (a3 * (A * a1 + B * a2 + C * a3)) by (rewrite X1; ring). replace (p1 * p1 * (b1 * b3)) with (b3 * (A * b1 + B * b2 + C * b3)) by (rewrite Y1; ring).
    replace (p2 * p2 * (w1 * w3)) with (w3 * (A * w1 + B * w2 + C * w3)) by (rewrite Z1; ring). ring.
  - transitivity (B * (a1 * a2 + b1 * b2 + w1 * w2) + D * (a2 * a2 + b2 * b2 + w2 * w2) + E * (a2 * a3 + b2 * b3 + w2 * w3)); [rewrite R22, R12, R23; ring|].
    replace (p0 * p0 * (a2 * a2)) with (a2 * (B * a1 + D * a2 + E * a3)) by (rewrite X2; ring). replace (p1 * p1 * (b2 * b2)) with (b2 * (B * b1 + D * b2 + E * b3)) by (rewrite Y2; ring).
    replace (p2 * p2 * (w2 * w2)) with (w2 * (B * w1 + D * w2 + E * w3)) by (rewrite Z2; ring). ring.
  - transitivity (B * (a3 * a1 + b3 * b1 + w3 * w1) + D * (a2 * a3 + b2 * b3 + w2 * w3) + E * (a3 * a3 + b3 * b3 + w3 * w3)); [rewrite R33, R31, R23; ring|].
    replace (p0 * p0 * (a2 * a3)) with (a3 * (B * a1 + D * a2 + E * a3)) by (rewrite X2; ring). replace (p1 * p1 * (b2 * b3)) with (b3 * (B * b1 + D * b2 + E * b3)) by (rewrite Y2; ring).
    replace (p2 * p2 * (w2 * w3)) with (w3 * (B * w1 + D * w2 + E * w3)) by (rewrite Z2; ring). ring.
  - transitivity (C * (a3 * a1 + b3 * b1 + w3 * w1) + E * (a2 * a3 + b2 * b3 + w2 * w3) + F * (a3 * a3 + b3 * b3 + w3 * w3)); [rewrite R33, R31, R23; ring|].
    replace (p0 * p0 * (a3 * a3)) with (a3 * (C * a1 + E * a2 + F * a3)) by (rewrite X3; ring). replace (p1 * p1 * (b3 * b3)) with (b3 * (C * b1 + E * b2 + F * b3)) by (rewrite Y3; ring).
    replace (p2 * p2 * (w3 * w3)) with (w3 * (C * w1 + E * w2 + F * w3)) by (rewrite Z3; ring). ring.
Qed.
Print Assumptions C258_axes_partial.
(** With equal eigenvalues nothing makes the axes perpendicular: a solver for matrices that need not be symmetric may find any independent vectors. *)
Theorem C258_equal_refuted : exists M values vectors, posdef M /\ solved M values vectors /\
  forall p u0 u1 u2, ell_compute values vectors true = FOk (mk_ell p (u0, u1, u2)) -> ~ ortho u0 u1 u2.
Proof.
  exists (Sym 1 0 0 1 0 1), (1, 1, 1), (V3 1 0 0, V3 1 1 0, V3 0 0 1). split; [|split].
  - intros v N. pose proof (ip_pos v N) as H. unfold ip, app3 in *. cbn in *. nra.
  - unfold solved, app3, scale, det3; cbn. repeat split; try (f_equal; ring). lra.
  - intros p u0 u1 u2. assert (N0 : V3 1 0 0 <> V3 0 0 0) by (intros H; injection H; lra). assert (N1 : V3 1 1 0 <> V3 0 0 0) by (intros H; injection H; lra).
    assert (N2 : V3 0 0 1 <> V3 0 0 0) by (intros H; injection H; lra).
    destruct (normalize3_ok _ N0) as (k0 & K0 & Q0 & _). destruct (normalize3_ok _ N1) as (k1 & K1 & Q1 & _). destruct (normalize3_ok _ N2) as (k2 & K2 & Q2 & _).
    unfold ell_compute. rewrite !fsqrt_ok by lra. cbn [fbind]. rewrite Q0, Q1, Q2. cbn [fbind].
    assert (PK : 0 < k0 * k1) by (apply Rmult_lt_0_compat; assumption).
    destruct (Rlt_dec _ 0); intros H; injection H as <- <- <- <-; intros (A & _); unfold ip, scale in A; cbn in A; nra.
Qed.
Print Assumptions C258_equal_refuted.
(** Without sorting, the axes are whatever the solver found, of any length. *)
Theorem C258_unsorted : forall M l0 l1 l2 vectors, posdef M -> solved M (l0, l1, l2) vectors ->
  exists p0 p1 p2, ell_compute (l0, l1, l2) vectors false = FOk (mk_ell (p0, p1, p2) vectors) /\ p0 * p0 = l0 /\ p1 * p1 = l1 /\ p2 * p2 = l2 /\ 0 < p0 /\ 0 < p1 /\ 0 < p2.
Proof.
  intros M l0 l1 l2 [[v0 v1] v2] P (E0 & E1 & E2 & D). destruct (det_nonzero _ _ _ D) as (N0 & N1 & N2).
  pose proof (eigen_pos _ _ _ P E0 N0). pose proof (eigen_pos _ _ _ P E1 N1). pose proof (eigen_pos _ _ _ P E2 N2).
  unfold ell_compute. rewrite !fsqrt_ok by lra. cbn [fbind]. eexists _, _, _. split; [reflexivity|]. rewrite !sqrt_sqrt by lra. repeat split; apply sqrt_lt_R0; assumption.
Qed.
Print Assumptions C258_unsorted.
(** A matrix that is not positive definite has no lengths. *)
Theorem C258_indefinite : forall l0 l1 l2 vectors sort, l0 < 0 \/ l1 < 0 \/ l2 < 0 -> ell_compute (l0, l1, l2) vectors sort = FNonFinite.
Proof.
  intros l0 l1 l2 [[v0 v1] v2] sort H. unfold ell_compute, fsqrt.
  destruct (Rlt_dec l0 0); [reflexivity|]. cbn [fbind]. destruct (Rlt_dec l1 0); [reflexivity|]. cbn [fbind]. destruct (Rlt_dec l2 0); [reflexivity|]. lra.
Qed.
Print Assumptions C258_indefinite.
(** A default constructed ellipsoid is the one of the identity. *)
Theorem C258_default : ell_compute (1, 1, 1) (V3 1 0 0, V3 0 1 0, V3 0 0 1) true = FOk ell_new.
Proof.
  assert (X : forall v, ip v v = 1 -> normalize3 v = FOk v).
  { intros v H. unfold normalize3. change (dot3 v v) with (ip v v). rewrite H. destruct (Rlt_dec 0 1); [|lra]. rewrite fsqrt_ok by lra. cbn [fbind]. rewrite sqrt_1, !fdiv_ok by lra. cbn [fbind].
    destruct v as [x y z]. cbn. unfold Rdiv. rewrite Rinv_1, !Rmult_1_r. reflexivity. }
  unfold ell_compute. rewrite !fsqrt_ok by lra. cbn [fbind]. rewrite !X by (unfold ip; cbn; ring). cbn [fbind]. rewrite sqrt_1.
  destruct (Rlt_dec _ 0) as [L|]; [unfold dot3, cross3 in L; cbn in L; lra|reflexivity].
Qed.
Print Assumptions C258_default.
(** A left-handed answer for a matrix with three different eigenvalues. *)
Example C258_case : posdef (Sym 2 1 0 2 0 5) /\ solved (Sym 2 1 0 2 0 5) (3, 1, 5) (V3 1 1 0, V3 1 (-1) 0, V3 0 0 7) /\ det3 (V3 1 1 0) (V3 1 (-1) 0) (V3 0 0 7) < 0.
Proof.
  split; [|split].
  - intros [x y z] N. assert (H := ip_pos _ N). unfold ip, app3 in *. cbn in *. nra.
  - unfold solved, app3, scale, det3; cbn. repeat split; try (f_equal; ring). lra.
  - unfold det3; cbn. lra.
Qed.
