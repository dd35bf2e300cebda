(** Properties of the statistics: C62-C64, C148-C150. *)
From Coq Require Import SpecFloat.
From Verif Require Import RBase AngleModel AngleProofs StatModel StatProofs.
From Verif Require Pose3Proofs.
Open Scope R_scope.

(** * C62: running statistics *)

Theorem C62_running_equals_batch : forall calls, exists s,
  stats_run stats_new calls = FOk s /\
  stats_size s = count (samples [] calls) /\
  stats_mean s = FOk (sample_mean (samples [] calls)) /\
  stats_variance s = FOk (sample_variance (samples [] calls)).
Proof.
  intros calls. destruct (run_inv calls [] stats_new) as (s & E & I).
  - unfold stats_inv, stats_new, count. cbn. split; [reflexivity|]. split; [contradiction|lia].
  - exists s. split; [exact E|]. now apply inv_queries.
Qed.
Print Assumptions C62_running_equals_batch.
(** Samples 7, clear, 1, 2, 6: mean 3 and variance 7. *)
Example C62_after_clear :
  let l := samples [] [Push 7; Clear; Push 1; Push 2; Push 6] in sample_mean l = 3 /\ sample_variance l = 7.
Proof. cbn. unfold sample_variance, sample_mean, count. cbn. split; field. Qed.

(** * C148: the sample counter in floating point *)

Theorem C148_counter_exactly : forall k,
  float_count float_rnd k = IZR (Z.min (Z.of_nat k) (2 ^ 24)) /\
  float_count double_rnd k = IZR (Z.min (Z.of_nat k) (2 ^ 53)).
Proof. intros k. split; apply count_up; lia. Qed.
Print Assumptions C148_counter_exactly.

Theorem C148_counter_refuted : exists k, float_count float_rnd k <> IZR (Z.of_nat k) /\
  forall k', (k <= k')%nat -> float_count float_rnd k' = float_count float_rnd k.
Proof.
  destruct (Z_of_nat_complete (2 ^ 24 + 1)) as [k K]; [lia|]. exists k. split.
  - rewrite (proj1 (C148_counter_exactly k)). intros H. apply eq_IZR in H. lia.
  - intros k' L. rewrite !(proj1 (C148_counter_exactly _)). f_equal. lia.
Qed.
Print Assumptions C148_counter_refuted.

(** * C63: covariance ellipses *)

Theorem C63_eigen_decomposition : forall a b d, 0 <= a -> 0 <= d -> b * b <= a * d ->
  exists e, ellipse_compute a b b d = FOk e /\
    0 <= len1 e <= len0 e /\
    eigen a b d (len0 e * len0 e) (ax0 e) /\ eigen a b d (len1 e * len1 e) (ax1 e) /\
    dot (ax0 e) (ax0 e) = 1 /\ dot (ax1 e) (ax1 e) = 1 /\ dot (ax0 e) (ax1 e) = 0.
Proof.
  intros a b d A D H. destruct (compute_spec a b d A D H) as (e & E & L & _ & _ & V0 & V1 & U0 & U1 & O). exists e. auto 8.
Qed.
Print Assumptions C63_eigen_decomposition.
(** A covariance matrix with correlation. *)
Example C63_hypotheses : 0 <= 2 /\ 0 <= 3 /\ 1 * 1 <= 2 * 3.
Proof. lra. Qed.

(** Every point of the drawn ellipse (lengths along the axes) is a point of the ellipse of the matrix. *)
Theorem C63_axes_draw_the_ellipse : forall a b d, 0 < a -> 0 < d -> b * b < a * d ->
  exists e, ellipse_compute a b b d = FOk e /\ forall t,
    on_ellipse a b d (len0 e * cos t * fst (ax0 e) + len1 e * sin t * fst (ax1 e))
                     (len0 e * cos t * snd (ax0 e) + len1 e * sin t * snd (ax1 e)).
Proof.
  intros a b d A D H. destruct (compute_spec a b d) as (e & E & L & TR & DT & [V0 V0'] & [V1 V1'] & U0 & U1 & O); [lra..|].
  exists e. split; [exact E|]. intros t. unfold on_ellipse, dot in *.
  set (c := cos t). set (s := sin t). assert (CS : c * c + s * s = 1) by (pose proof (sin2_cos2 t) as X; unfold Rsqr in X; fold c s in X; lra).
  destruct (ax0 e) as [x0 y0]. destruct (ax1 e) as [x1 y1]. cbn [fst snd] in *. set (l0 := len0 e) in *. set (l1 := len1 e) in *.
  (* adj(M) maps an eigenvector of one eigenvalue to the other eigenvalue times it *)
  assert (W0 : d * x0 - b * y0 = l1 * l1 * x0). { transitivity ((a + d) * x0 - (a * x0 + b * y0)); [ring|]. rewrite V0, <- TR. ring. }
  assert (W0' : - b * x0 + a * y0 = l1 * l1 * y0). { transitivity ((a + d) * y0 - (b * x0 + d * y0)); [ring|]. rewrite V0', <- TR. ring. }
  assert (W1 : d * x1 - b * y1 = l0 * l0 * x1). { transitivity ((a + d) * x1 - (a * x1 + b * y1)); [ring|]. rewrite V1, <- TR. ring. }
  assert (W1' : - b * x1 + a * y1 = l0 * l0 * y1). { transitivity ((a + d) * y1 - (b * x1 + d * y1)); [ring|]. rewrite V1', <- TR. ring. }
  set (p := l0 * c * x0 + l1 * s * x1). set (q := l0 * c * y0 + l1 * s * y1).
  assert (Q1 : d * p - b * q = l0 * c * (l1 * l1 * x0) + l1 * s * (l0 * l0 * x1)) by (rewrite <- W0, <- W1; unfold p, q; ring).
  assert (Q2 : - b * p + a * q = l0 * c * (l1 * l1 * y0) + l1 * s * (l0 * l0 * y1)) by (rewrite <- W0', <- W1'; unfold p, q; ring).
  transitivity (p * (d * p - b * q) + q * (- b * p + a * q)); [ring|]. rewrite Q1, Q2, <- DT. unfold p, q.
  transitivity (l0 * l0 * (l1 * l1) * (c * c * (x0 * x0 + y0 * y0) + s * s * (x1 * x1 + y1 * y1))
     + l0 * l1 * c * s * (l0 * l0 + l1 * l1) * (x0 * x1 + y0 * y1)); [ring|].
  rewrite U0, U1, O. transitivity (l0 * l0 * (l1 * l1) * (c * c + s * s)); [ring|]. rewrite CS. ring.
Qed.
Print Assumptions C63_axes_draw_the_ellipse.

(** * C64: the intercept with the x axis *)

Theorem C64_x_intercept : forall a b d e, 0 < a -> 0 < d -> b * b < a * d ->
  ellipse_compute a b b d = FOk e -> fst (ax0 e) <> 0 ->
  exists i0 i1, ellipse_intercepts e = FOk (i0, i1) /\ 0 < i0 /\ on_ellipse a b d i0 0.
Proof. exact intercept_x. Qed.
Print Assumptions C64_x_intercept.
(** The major axis has a horizontal component for every correlated covariance and every one that is wider than high. *)
Example C64_hypotheses : forall a d, 0 < d -> d < a -> exists e, ellipse_compute a 0 0 d = FOk e /\ fst (ax0 e) <> 0.
Proof. intros a d D H. rewrite diag_compute by lra. eexists. split; [reflexivity|]. cbn. lra. Qed.

(** * C149: the intercept with the y axis *)

Theorem C149_y_intercept_refuted : exists a b d e i0 i1, 0 < a /\ 0 < d /\ b * b < a * d /\
  ellipse_compute a b b d = FOk e /\ ellipse_intercepts e = FOk (i0, i1) /\ ~ on_ellipse a b d 0 i1.
Proof.
  exists 4, 0, 1. do 3 eexists. split; [lra|]. split; [lra|]. split; [lra|]. rewrite diag_compute by lra. split; [reflexivity|].
  rewrite diag_intercepts by lra. split; [reflexivity|]. unfold on_ellipse. lra.
Qed.
Print Assumptions C149_y_intercept_refuted.

(** For every uncorrelated covariance that is wider than high the result is 0, never the height of the ellipse. *)
Theorem C149_uncorrelated_is_zero : forall a d, 0 < d -> d < a -> exists e,
  ellipse_compute a 0 0 d = FOk e /\ ellipse_intercepts e = FOk (sqrt a, 0) /\ on_ellipse a 0 d 0 (sqrt d).
Proof.
  intros a d D H. rewrite diag_compute by lra. eexists. split; [reflexivity|]. rewrite diag_intercepts by lra. split; [reflexivity|].
  unfold on_ellipse. rewrite sqrt_sqrt by lra. ring.
Qed.
Print Assumptions C149_uncorrelated_is_zero.

(** * C150: the axes in doubles *)

(** Variances 1 and 2 with covariance 2^-60: both computed axes point along the x axis (their dot product is below
    -127/128), although the axes of every covariance matrix are orthogonal. *)
Theorem C150_axes_in_doubles_refuted : exists a b d x0 y0 x1 y1,
  SFltb (S754_zero false) a = true /\ SFltb (S754_zero false) d = true /\ SFltb (ml b b) (ml a d) = true /\
  axes_bits a b b d = ((x0, y0), (x1, y1)) /\
  SFltb (ad (ml x0 x1) (ml y0 y1)) (SFopp (f64 127 (-7))) = true.
Proof.
  exists (f64 1 0), (f64 1 (-60)), (f64 2 0). do 4 eexists. split; [reflexivity|]. split; [reflexivity|]. split; [reflexivity|].
  split; [vm_compute; reflexivity|vm_compute; reflexivity].
Qed.
Print Assumptions C150_axes_in_doubles_refuted.
(** Without correlation the computed axes are exactly the coordinate axes, whatever the variances, the longer one first. *)
Theorem C150_uncorrelated_partial : forall a d s s', exists x0 y0 x1 y1,
  axes_bits a (S754_zero s) (S754_zero s') d = ((x0, y0), (x1, y1)) /\ ad (ml x0 x1) (ml y0 y1) = S754_zero false /\
  (SFltb d a = true -> x0 = f64 1 0 /\ y1 = f64 1 0) /\ (SFltb d a = false -> y0 = f64 1 0 /\ x1 = f64 1 0).
Proof.
  intros a d s s'. unfold axes_bits. replace (nonzero (S754_zero s')) with false by (destruct s'; reflexivity). replace (nonzero (S754_zero s)) with false by (destruct s; reflexivity).
  cbn iota zeta. destruct (SFltb d a); do 4 eexists; (split; [vm_compute; reflexivity|]); (split; [vm_compute; reflexivity|]); split; intros; (discriminate || (split; vm_compute; reflexivity)).
Qed.
Print Assumptions C150_uncorrelated_partial.

Lemma atan2_vector x y : 0 < x * x + y * y -> cos (atan2 y x) * sqrt (x * x + y * y) = x /\ sin (atan2 y x) * sqrt (x * x + y * y) = y.
Proof.
  intros P. set (n := sqrt _). assert (NP : 0 < n) by (apply sqrt_lt_R0; exact P). assert (NN : n * n = x * x + y * y) by (apply sqrt_sqrt; lra).
  assert (U : x / n * (x / n) + y / n * (y / n) = 1). { transitivity ((x * x + y * y) / (n * n)); [field; lra|]. rewrite NN. field. lra. }
  destruct (atan2_unit _ _ U) as [C S']. pose proof (Pose3Proofs.atan2_polar n (atan2 (y / n) (x / n)) NP (atan2_range _ _)) as H. rewrite C, S' in H.
  replace (n * (y / n)) with y in H by (field; lra). replace (n * (x / n)) with x in H by (field; lra). rewrite H, C, S'. split; field; lra.
Qed.
Lemma wide_axis a b d e : 0 < a -> 0 < d -> b * b < a * d -> b <> 0 \/ d < a -> ellipse_compute a b b d = FOk e -> fst (ax0 e) <> 0.
Proof.
  intros A D DET W E Z. destruct (compute_spec a b d) as (e' & E' & L & TR & DT & EV & _ & U & _); [lra..|].
  rewrite E in E'. injection E' as <-. destruct (ax0 e) as [c s]. cbn [fst snd] in *. unfold eigen, dot in *. cbn [fst snd] in *. destruct EV as [EV1 EV2]. subst c.
  assert (S2 : s * s = 1) by lra. assert (SN : s <> 0) by (intros ->; lra).
  assert (B : b = 0) by (apply Rmult_eq_reg_r with s; [lra|exact SN]). destruct W as [W|W]; [contradiction|].
  assert (LD : d = len0 e * len0 e) by (apply Rmult_eq_reg_r with s; [lra|exact SN]).
  assert (len1 e * len1 e <= len0 e * len0 e) by (apply Rmult_le_compat; lra). lra.
Qed.
(** C149, exactly: for covariances whose longer axis is not vertical, the second intercept is right if and only if both variances are equal and the
    correlation is positive (the longer axis is the diagonal). *)
Theorem C149_exactly : forall a b d, 0 < a -> 0 < d -> b * b < a * d -> b <> 0 \/ d < a ->
  exists e i0 i1, ellipse_compute a b b d = FOk e /\ ellipse_intercepts e = FOk (i0, i1) /\ (on_ellipse a b d 0 i1 <-> a = d /\ 0 < b).
Proof.
  intros a b d A D DET W. destruct (compute_spec a b d) as (e & E & L & TR & DT & EV & _ & U & _); [lra..|].
  pose proof (wide_axis a b d e A D DET W E) as NZ. exists e. unfold ellipse_intercepts, ellipse_rotation, dot in *.
  destruct (ax0 e) as [c s]. cbn [fst snd] in *. unfold eigen in EV. cbn [fst snd] in EV. destruct EV as [EV1 EV2].
  set (l0 := len0 e) in *. set (l1 := len1 e) in *.
  assert (P : 0 < l0 * l0 * (l1 * l1)) by lra. assert (L1 : l1 <> 0) by (intros Z; rewrite Z in P; lra). assert (L0 : l0 <> 0) by (intros Z; rewrite Z in P; lra).
  destruct (atan2_unit c s U) as [CA SA]. set (al := atan2 s c) in *. rewrite fdiv_ok by exact L1. cbn [fbind]. unfold ftan. rewrite CA, SA, fdiv_ok by exact NZ. cbn [fbind].
  do 2 eexists. split; [exact E|]. split; [reflexivity|].
  assert (QP : 0 < l0 / l1) by (apply Rdiv_lt_0_compat; lra).
  assert (N2 : 0 < s / c * (s / c) + l0 / l1 * (l0 / l1)) by (pose proof (Rle_0_sqr (s / c)) as X; unfold Rsqr in X; pose proof (Rmult_lt_0_compat _ _ QP QP); lra).
  destruct (atan2_vector (s / c) (l0 / l1) N2) as [CC SS]. set (n := sqrt _) in *. assert (NP : 0 < n) by (apply sqrt_lt_R0; exact N2).
  assert (NN : n * n = s / c * (s / c) + l0 / l1 * (l0 / l1)) by (apply sqrt_sqrt; lra).
  set (ct := cos (atan2 (l0 / l1) (s / c))) in *. set (st := sin (atan2 (l0 / l1) (s / c))) in *.
  assert (I1 : (l0 * ct * s + l1 * st * s) * n = l0 * s * (s + c) / c).
  { transitivity (l0 * s * (ct * n) + l1 * s * (st * n)); [ring|]. rewrite CC, SS. field. auto. }
  set (i := l0 * ct * s + l1 * st * s) in *.
  assert (DD : a = l0 * l0 * (c * c) + l1 * l1 * (s * s)).
  { assert (X : a * (c * c) = l0 * l0 * (c * c) - b * (c * s)). { transitivity ((a * c + b * s) * c - b * (c * s)); [ring|]. rewrite EV1. ring. }
    assert (Y : d * (s * s) = l0 * l0 * (s * s) - b * (c * s)). { transitivity ((b * c + d * s) * s - b * (c * s)); [ring|]. rewrite EV2. ring. }
    assert (Z : a * (s * s) = (l0 * l0 + l1 * l1) * (s * s) - d * (s * s)) by (rewrite TR; ring). rewrite Y in Z.
    transitivity (a * (c * c + s * s)); [rewrite U; ring|]. rewrite Rmult_plus_distr_l, X, Z. ring. }
  assert (ND : n * n * (l1 * l1 * (c * c)) = a) by (rewrite NN, DD; field; auto).
  assert (AI : a * (i * i) = l0 * l0 * (l1 * l1) * (s * s * ((s + c) * (s + c)))).
  { rewrite <- ND. transitivity (l1 * l1 * (c * c) * (i * n) * (i * n)); [ring|]. rewrite I1. field. exact NZ. }
  assert (ON : on_ellipse a b d 0 (Rabs i) <-> s = c).
  { unfold on_ellipse. rewrite <- (Rabs_mult i i), (Rabs_pos_eq (i * i)) by apply Rle_0_sqr. rewrite <- DT.
    replace (d * (0 * 0) - 2 * b * (0 * Rabs i) + a * (i * i)) with (a * (i * i)) by ring. rewrite AI. split.
    - intros H. assert (H1 : s * s * ((s + c) * (s + c)) = 1) by (apply Rmult_eq_reg_l with (l0 * l0 * (l1 * l1)); lra).
      assert (H2 : (s * (s + c) - 1) * (s * (s + c) + 1) = 0) by lra. apply Rmult_integral in H2 as [H2|H2].
      + assert (H3 : c * (s - c) = 0) by lra. apply Rmult_integral in H3 as [H3|H3]; [contradiction|lra].
      + exfalso. assert (0 < c * c) by (apply Rlt_0_sqr; exact NZ). pose proof (Rle_0_sqr (s + c / 4)) as X. unfold Rsqr in X. nra.
    - intros ->. replace (c * c * ((c + c) * (c + c))) with ((c * c + c * c) * (c * c + c * c)) by ring. rewrite U. ring. }
  rewrite ON. assert (SQ : l1 * l1 <= l0 * l0) by (apply Rmult_le_compat; lra). split.
  - intros ->. assert (EA : a = d) by (apply Rmult_eq_reg_r with c; [lra|exact NZ]). split; [exact EA|].
    destruct W as [W|W]; [|lra]. assert (a + b = l0 * l0) by (apply Rmult_eq_reg_r with c; [lra|exact NZ]). lra.
  - intros [<- BP]. destruct (Req_dec s c) as [|NE]; [assumption|]. exfalso.
    assert (H : (a - b) = l0 * l0) by (apply Rmult_eq_reg_r with (c - s); [lra|lra]). lra.
Qed.
Print Assumptions C149_exactly.
Example C149_exactly_nonvacuous : 0 < 2 /\ 1 * 1 < 2 * 2 /\ 1 <> 0 /\ (2 = 2 /\ 0 < 1) /\ 1 * 1 < 3 * 2 /\ ~ (3 = 2 /\ 0 < 1).
Proof. repeat split; try lra. Qed.
