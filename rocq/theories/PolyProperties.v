(** Properties of the polynomials, the triangle behind them, segments and fuzzy comparison. *)
From Verif Require Import RBase PolyModel SegModel PascalProofs PolyProofs RootsProofs.
Open Scope R_scope.

(** * C45: Pascal's triangle *)

Lemma zfact_fact n : zfact n = Z.of_nat (fact n).
Proof. induction n as [|n IH]; [reflexivity|]. cbn [zfact]. rewrite IH. change (fact (S n)) with (S n * fact n)%nat. lia. Qed.

(** The rows are contiguous, row i has N + 1 - i entries inside the storage, and entry j of row i is the number c
    with c i! j! = (i + j)!. *)
Theorem C45_triangle_holds_binomials : forall n, (n <= 33)%nat ->
  exists t, pascal n = Ok t /\ (2 * Zlen t = Z.of_nat ((n + 1) * (n + 2)))%Z
    /\ forall i, (i <= n)%nat ->
         (0 <= pascal_begin n i /\ pascal_end n i = pascal_begin n i + (Z.of_nat n + 1 - Z.of_nat i)
          /\ pascal_end n i <= Zlen t /\ pascal_begin n (S i) = pascal_end n i)%Z
         /\ forall j, (j <= n - i)%nat ->
              exists c, zget t (pascal_begin n i + Z.of_nat j) = Some c
                /\ (c * Z.of_nat (fact i) * Z.of_nat (fact j) = Z.of_nat (fact (i + j)))%Z.
Proof.
  intros n N. exists (rows n (S n)). split; [now apply pascal_ok|].
  pose proof (rows_len n (S n) ltac:(lia)) as RL. pose proof (pascal_begin_closed n (S n) ltac:(lia)) as RC.
  split; [rewrite RL, RC; nia|]. intros i I. split.
  - pose proof (pascal_begin_closed n i ltac:(lia)) as C1. pose proof (pascal_begin_closed n (S i) ltac:(lia)) as C2.
    unfold pascal_end. split; [nia|]. split; [cbn [pascal_begin]; lia|]. split; [|lia]. rewrite RL. nia.
  - intros j J. exists (bin i j). split; [apply rows_get; lia|]. rewrite <- !zfact_fact. apply bin_fact.
Qed.
Print Assumptions C45_triangle_holds_binomials.
Example C45_degree_seven : exists t, pascal 7 = Ok t /\ zget t (pascal_begin 7 2 + 3) = Some 10%Z /\ zget t (pascal_begin 7 4 + 3) = Some 35%Z.
Proof. eexists. split; [vm_compute; reflexivity|]. split; reflexivity. Qed.

(** * C136: high degrees *)

(** From degree 34 on, building the triangle (which a shift does) overflows int. *)
Theorem C136_triangle_of_any_degree_refuted :
  (forall n, (34 <= n)%nat -> pascal n = UB)
  /\ (forall p s, (35 <= length p)%nat -> shift_horizontal p s = FUB).
Proof.
  assert (P : forall n, (34 <= n)%nat -> pascal n = UB).
  { intros n N. unfold pascal. do 6 (destruct n as [|n]; [lia|]). now apply pascal_generic_ub. }
  split; auto. intros p s L. unfold shift_horizontal. destruct p as [|a [|b p]]; cbn [length] in L; try lia.
  rewrite P; [reflexivity|cbn [length]; lia].
Qed.
Print Assumptions C136_triangle_of_any_degree_refuted.

(** * C46: evaluation, derivative, shift *)

Theorem C46_evaluation_is_the_sum : forall p x, p <> [] ->
  eval p x = sum_f_R0 (fun i => nth i p 0 * x ^ i) (length p - 1).
Proof. intros p x N. rewrite eval_horner. now apply horner_sum. Qed.
Print Assumptions C46_evaluation_is_the_sum.

Theorem C46_derivative_is_the_derivative : forall p x, p <> [] ->
  derivable_pt_lim (eval p) x (eval (deriv p) x)
  /\ derivable_pt_lim (eval p) x (deriv_at p x)
  /\ derivable_pt_lim (deriv_at p) x (dderiv_at p x)
  /\ Zlen (deriv p) = Z.max 1 (Zlen p - 1).
Proof.
  intros p x N.
  assert (D1 : forall q y, q <> [] -> deriv_at q y = eval (deriv q) y).
  { intros q y Q. unfold deriv_at. destruct q as [|c [|d q]]; [congruence|cbn; lra|].
    replace (1 <? Zlen (c :: d :: q))%Z with true; [reflexivity|]. rewrite !Zlen_cons. pose proof (Zlen_nonneg q). lia. }
  assert (D2 : forall y, dderiv_at p y = eval (deriv (deriv p)) y).
  { intros y. unfold dderiv_at. destruct p as [|c [|d [|e p]]]; [congruence|cbn; lra|cbn; lra|].
    replace (2 <? Zlen (c :: d :: e :: p))%Z with true; [reflexivity|]. rewrite !Zlen_cons. pose proof (Zlen_nonneg p). lia. }
  rewrite D1, D2 by auto. split; [apply eval_derive|]. split; [apply eval_derive|]. split; [|now apply deriv_len].
  pose proof (eval_derive (deriv p) x) as H. intros eps E. destruct (H eps E) as [d Hd]. exists d. intros h H1 H2. rewrite !D1 by auto. auto.
Qed.
Print Assumptions C46_derivative_is_the_derivative.

Theorem C46_shift_moves_the_graph : forall p s, p <> [] -> (length p <= 34)%nat ->
  exists p', shift_horizontal p s = FOk p' /\ length p' = length p /\ forall x, eval p' x = eval p (x - s).
Proof. exact shift_eval. Qed.
Print Assumptions C46_shift_moves_the_graph.

(** C136, exactly: the triangle and the shift overflow from degree 34 on and never below. *)
Theorem C136_overflow_exactly :
  (forall n, pascal n = UB <-> (34 <= n)%nat)
  /\ (forall p s, p <> [] -> (shift_horizontal p s = FUB <-> (35 <= length p)%nat)).
Proof.
  destruct C136_triangle_of_any_degree_refuted as [P S1]. split.
  - intros n. split; [|apply P]. intros E. destruct (le_lt_dec 34 n) as [|H]; [assumption|].
    destruct (C45_triangle_holds_binomials n ltac:(lia)) as (t & T & _). congruence.
  - intros p s N. split; [|apply S1]. intros E. destruct (le_lt_dec 35 (length p)) as [|H]; [assumption|].
    destruct (C46_shift_moves_the_graph p s N ltac:(lia)) as (q & Q & _). congruence.
Qed.
Print Assumptions C136_overflow_exactly.
Example C46_quartic : shift_horizontal [1; 2; 0; 0; 3] 1 = FOk (taylor 1 [1; 2; 0; 0; 3]) /\ eval [1; 2; 0; 0; 3] 2 = 53.
Proof. split; [apply shift_ok; [discriminate|cbn; lia]|cbn; lra]. Qed.

(** * C47: blueprints *)

Theorem C47_linear : forall x0 y0 x1 y1, x0 <> x1 ->
  exists p, linear_interpolation x0 y0 x1 y1 = FOk p /\ length p = 2%nat /\ eval p x0 = y0 /\ eval p x1 = y1.
Proof.
  intros x0 y0 x1 y1 N. unfold linear_interpolation. rewrite fdiv_ok by lra. cbn [fbind]. eexists; split; [reflexivity|].
  split; [reflexivity|]. rewrite !eval_horner. cbn [horner]. split; field; lra.
Qed.
Print Assumptions C47_linear.

Theorem C47_point_slope : forall x0 y0 m, eval (point_slope x0 y0 m) x0 = y0 /\ forall x, deriv_at (point_slope x0 y0 m) x = m.
Proof.
  intros x0 y0 m. split; [rewrite eval_horner; unfold point_slope; cbn [horner]; ring|].
  intros x. unfold deriv_at, point_slope. change (Zlen [y0 - m * x0; m]) with 2%Z. cbn. ring.
Qed.
Print Assumptions C47_point_slope.

Lemma deriv_at_eval p x : (2 <= length p)%nat -> deriv_at p x = eval (deriv p) x.
Proof. intros L. unfold deriv_at. replace (1 <? Zlen p)%Z with true; [reflexivity|]. unfold Zlen. lia. Qed.
Lemma dderiv_at_eval p x : (3 <= length p)%nat -> dderiv_at p x = eval (deriv (deriv p)) x.
Proof. intros L. unfold dderiv_at. replace (2 <? Zlen p)%Z with true; [reflexivity|]. unfold Zlen. lia. Qed.

Ltac nz := repeat apply Rmult_integral_contrapositive_currified; lra.

Theorem C47_cubic_with_slopes : forall x0 y0 v0 x1 y1 v1, x0 <> x1 ->
  exists p, cubic_derivative x0 y0 v0 x1 y1 v1 = FOk p /\ length p = 4%nat
    /\ eval p x0 = y0 /\ eval p x1 = y1 /\ deriv_at p x0 = v0 /\ deriv_at p x1 = v1.
Proof.
  intros x0 y0 v0 x1 y1 v1 N. unfold cubic_derivative. rewrite !fdiv_ok by nz. cbn [fbind].
  match goal with |- context [shift_nonzero ?p _] => destruct (shift_nonzero_ok p x0 ltac:(discriminate) ltac:(cbn; lia)) as (p' & E & L & H0 & H1 & H2) end.
  exists p'. split; auto. split; [exact L|]. rewrite !deriv_at_eval by (rewrite L; cbn; lia). rewrite !H0, !H1.
  rewrite !eval_horner. cbn [deriv deriv_loop horner]. simpl IZR. repeat split; field; lra.
Qed.
Print Assumptions C47_cubic_with_slopes.

Theorem C47_cubic_with_accelerations : forall x0 y0 a0 x1 y1 a1, x0 <> x1 ->
  exists p, cubic_second_derivative x0 y0 a0 x1 y1 a1 = FOk p /\ length p = 4%nat
    /\ eval p x0 = y0 /\ eval p x1 = y1 /\ dderiv_at p x0 = a0 /\ dderiv_at p x1 = a1.
Proof.
  intros x0 y0 v0 x1 y1 v1 N. unfold cubic_second_derivative. rewrite !fdiv_ok by nz. cbn [fbind]. rewrite !fdiv_ok by nz. cbn [fbind].
  match goal with |- context [shift_nonzero ?p _] => destruct (shift_nonzero_ok p x0 ltac:(discriminate) ltac:(cbn; lia)) as (p' & E & L & H0 & H1 & H2) end.
  exists p'. split; auto. split; [exact L|]. rewrite !dderiv_at_eval by (rewrite L; cbn; lia). rewrite !H0, !H2.
  rewrite !eval_horner. cbn [deriv deriv_loop horner]. simpl IZR. repeat split; field; lra.
Qed.
Print Assumptions C47_cubic_with_accelerations.

Theorem C47_quintic : forall x0 y0 v0 a0 x1 y1 v1 a1, x0 <> x1 ->
  exists p, quintic x0 y0 v0 a0 x1 y1 v1 a1 = FOk p /\ length p = 6%nat
    /\ eval p x0 = y0 /\ eval p x1 = y1 /\ deriv_at p x0 = v0 /\ deriv_at p x1 = v1 /\ dderiv_at p x0 = a0 /\ dderiv_at p x1 = a1.
Proof.
  intros x0 y0 v0 a0 x1 y1 v1 a1 N. unfold quintic. rewrite !fdiv_ok by nz. cbn [fbind].
  match goal with |- context [shift_nonzero ?p _] => destruct (shift_nonzero_ok p x0 ltac:(discriminate) ltac:(cbn; lia)) as (p' & E & L & H0 & H1 & H2) end.
  exists p'. split; auto. split; [exact L|]. rewrite !deriv_at_eval, !dderiv_at_eval by (rewrite L; cbn; lia). rewrite !H0, !H1, !H2.
  rewrite !eval_horner. cbn [deriv deriv_loop horner]. simpl IZR. repeat split; field; lra.
Qed.
Print Assumptions C47_quintic.

(** Equal abscissae: infinities or NaN among the coefficients, nothing is reported. *)
Theorem C47_equal_abscissae_not_finite : forall x y0 y1 v0 v1 a0 a1,
  linear_interpolation x y0 x y1 = FNonFinite /\ cubic_derivative x y0 v0 x y1 v1 = FNonFinite
  /\ cubic_second_derivative x y0 a0 x y1 a1 = FNonFinite /\ quintic x y0 v0 a0 x y1 v1 a1 = FNonFinite.
Proof.
  intros. assert (Z : forall n d, d = 0 -> fdiv n d = FNonFinite) by (intros n d E; unfold fdiv; destruct (Req_EM_T d 0); [reflexivity|contradiction]).
  repeat split; unfold linear_interpolation, cubic_derivative, cubic_second_derivative, quintic; rewrite Z by ring; reflexivity.
Qed.
Print Assumptions C47_equal_abscissae_not_finite.
Example C47_unit : exists p, quintic 1 0 0 0 2 1 0 0 = FOk p /\ eval p 2 = 1 /\ deriv_at p 2 = 0.
Proof. destruct (C47_quintic 1 0 0 0 2 1 0 0 ltac:(lra)) as (p & E & _ & _ & A & _ & B & _). eauto. Qed.

(** * C48: synthetic division *)

Theorem C48_division : forall c0 c1 c2 c3 f x,
  (let '(q, r) := divide_quadratic c0 c1 c2 f in
   length q = 2%nat /\ eval [c0; c1; c2] x = (x - f) * eval q x + r /\ r = eval [c0; c1; c2] f)
  /\ (let '(q, r) := divide_cubic c0 c1 c2 c3 f in
      length q = 3%nat /\ eval [c0; c1; c2; c3] x = (x - f) * eval q x + r /\ r = eval [c0; c1; c2; c3] f).
Proof. intros. cbn. repeat split; ring. Qed.
Print Assumptions C48_division.

(** * C49: roots *)

Theorem C49_linear_roots : forall c0 c1, c1 <> 0 -> exists l, roots_linear c0 c1 = FOk l /\ NoDup l /\ forall x, In x l <-> eval [c0; c1] x = 0.
Proof. exact roots_linear_ok. Qed.
Print Assumptions C49_linear_roots.
Theorem C49_quadratic_roots : forall c0 c1 c2, c2 <> 0 ->
  exists l, roots_quadratic c0 c1 c2 = FOk l /\ NoDup l /\ forall x, In x l <-> eval [c0; c1; c2] x = 0.
Proof. exact roots_quadratic_ok. Qed.
Print Assumptions C49_quadratic_roots.
(** A quadratic whose leading coefficient is zero is treated as linear. *)
Theorem C49_degenerate_quadratic : forall c0 c1, c1 <> 0 ->
  exists l, roots_quadratic c0 c1 0 = FOk l /\ NoDup l /\ forall x, In x l <-> eval [c0; c1; 0] x = 0.
Proof.
  intros c0 c1 N. destruct (roots_linear_ok c0 c1 N) as (l & E & D & H). exists l. unfold roots_quadratic.
  destruct (Req_EM_T 0 0) as [_|X]; [|congruence]. split; auto. split; auto. intros x. rewrite H, !eval_horner. cbn [horner]. split; lra.
Qed.
Print Assumptions C49_degenerate_quadratic.
(** Writing the cubic as c3 ((x - m)^3 + p (x - m) + q), the excluded case is q = 0 < p. *)
Theorem C49_cubic_roots : forall c0 c1 c2 c3 m p q, c3 <> 0 ->
  (forall x, eval [c0; c1; c2; c3] x = c3 * ((x - m) ^ 3 + p * (x - m) + q)) -> ~ (q = 0 /\ 0 < p) ->
  exists l, roots_cubic c0 c1 c2 c3 = FOk l /\ NoDup l /\ forall x, In x l <-> eval [c0; c1; c2; c3] x = 0.
Proof.
  intros c0 c1 c2 c3 m p q N E X. apply roots_cubic_ok; auto.
  assert (U : dep_p c3 c2 c1 = p /\ dep_q c3 c2 c1 c0 = q); [|destruct U as [-> ->]; auto].
  assert (F : forall x, (x - m) ^ 3 + p * (x - m) + q = dep (dep_p c3 c2 c1) (dep_q c3 c2 c1 c0) (x - - c2 / (3 * c3))).
  { intros x. apply Rmult_eq_reg_l with c3; auto. rewrite <- E. now apply cubic_dep. }
  set (p' := dep_p c3 c2 c1) in *. set (q' := dep_q c3 c2 c1 c0) in *. set (k := - c2 / (3 * c3)) in *. unfold dep in F.
  pose proof (F 0) as F0. pose proof (F 1) as F1. pose proof (F (-1)) as F2.
  assert (M : m = k) by lra. subst m. assert (PE : p' = p) by lra. split; [exact PE|]. rewrite PE in F0. lra.
Qed.
Print Assumptions C49_cubic_roots.
Example C49_three_roots : exists l, roots_cubic (-6) 11 (-6) 1 = FOk l /\ NoDup l /\ forall x, In x l <-> eval [-6; 11; -6; 1] x = 0.
Proof. apply (C49_cubic_roots (-6) 11 (-6) 1 2 (-1) 0); [lra| |lra]. intros x. cbn. ring. Qed.
(** Casus irreducibilis: x^3 - 3 x + 1. *)
Example C49_irreducible : exists l, roots_cubic 1 (-3) 0 1 = FOk l /\ NoDup l /\ forall x, In x l <-> eval [1; -3; 0; 1] x = 0.
Proof. apply (C49_cubic_roots 1 (-3) 0 1 0 (-3) 1); [lra| |lra]. intros x. cbn. ring. Qed.

(** * C135: cubics that are symmetric about their only root *)

(** x^3 + x has the root 0, but the outcome contains NaN; so does every cubic c3 (t^3 + p t) with p > 0, t = x - m. *)
Theorem C135_cubic_roots_finite_refuted :
  exists c0 c1 c2 c3, c3 <> 0 /\ eval [c0; c1; c2; c3] 0 = 0 /\ roots_cubic c0 c1 c2 c3 = FNonFinite.
Proof.
  exists 0, 1, 0, 1. split; [lra|]. split; [cbn; lra|]. apply roots_cubic_nan; unfold dep_p, dep_q; lra.
Qed.
Print Assumptions C135_cubic_roots_finite_refuted.

(** * C140: a cubic with zero leading coefficient *)

Theorem C140_cubic_degrades_refuted : forall c0 c1 c2, roots_cubic c0 c1 c2 0 = FNonFinite.
Proof.
  intros. unfold roots_cubic. unfold fdiv at 1. destruct (Req_EM_T (3 * 0 * 0) 0) as [_|X]; [reflexivity|exfalso; apply X; ring].
Qed.
Print Assumptions C140_cubic_degrades_refuted.

(** * C50: extrema *)

Theorem C50_linear_extrema : forall x0 x1 c0 c1, x0 <= x1 ->
  (exists x, x0 <= x <= x1 /\ eval [c0; c1] x = maximum_linear x0 x1 [c0; c1])
  /\ (exists x, x0 <= x <= x1 /\ eval [c0; c1] x = minimum_linear x0 x1 [c0; c1])
  /\ forall x, x0 <= x <= x1 -> minimum_linear x0 x1 [c0; c1] <= eval [c0; c1] x <= maximum_linear x0 x1 [c0; c1].
Proof.
  intros x0 x1 c0 c1 L. destruct (extremum_linear_spec 1 bigger x0 x1 c0 c1 (or_introl eq_refl) picks_bigger L) as [A1 B1].
  destruct (extremum_linear_spec (-1) smaller x0 x1 c0 c1 (or_intror eq_refl) picks_smaller L) as [A2 B2].
  split; [exact A1|]. split; [exact A2|]. intros x X. specialize (B1 x X). specialize (B2 x X). unfold maximum_linear, minimum_linear. lra.
Qed.
Print Assumptions C50_linear_extrema.
Theorem C50_cubic_extrema : forall x0 x1 c0 c1 c2 c3, x0 <= x1 ->
  (exists x, x0 <= x <= x1 /\ eval [c0; c1; c2; c3] x = maximum_cubic x0 x1 c0 c1 c2 c3)
  /\ (exists x, x0 <= x <= x1 /\ eval [c0; c1; c2; c3] x = minimum_cubic x0 x1 c0 c1 c2 c3)
  /\ forall x, x0 <= x <= x1 -> minimum_cubic x0 x1 c0 c1 c2 c3 <= eval [c0; c1; c2; c3] x <= maximum_cubic x0 x1 c0 c1 c2 c3.
Proof.
  intros x0 x1 c0 c1 c2 c3 L. destruct (maximum_cubic_spec x0 x1 c0 c1 c2 c3 L) as [A1 B1]. destruct (minimum_cubic_spec x0 x1 c0 c1 c2 c3 L) as [A2 B2].
  split; [exact A1|]. split; [exact A2|]. intros x X. split; auto.
Qed.
Print Assumptions C50_cubic_extrema.
(** 3 x - x^3 on [-3/2, 3/2]: the maximum 2 is inside. *)
Example C50_interior : maximum_cubic (-3/2) (3/2) 0 3 0 (-1) = 2.
Proof.
  destruct (C50_cubic_extrema (-3/2) (3/2) 0 3 0 (-1) ltac:(lra)) as ((x & X & E) & _ & B). specialize (B 1 ltac:(lra)).
  rewrite !eval_horner in *. cbn [horner] in *.
  assert (P : 0 <= (x - 1) * (x - 1) * (x + 2)) by (apply Rmult_le_pos; [apply Rle_0_sqr|lra]). lra.
Qed.

(** * C51: intersection *)

Theorem C51_intersection_is_on_both_lines : forall f0 f1 g0 g1 failed,
  match intersection f0 f1 g0 g1 failed with
  | (_, FOk (x, y)) => y = eval [f0; f1] x /\ y = eval [g0; g1] x
      /\ forall x' y', y' = eval [f0; f1] x' -> y' = eval [g0; g1] x' -> x' = x
  | (st, FThrow e) => st = true /\ e = OutOfRangeError /\ Rabs (f1 - g1) <= Rmin (Rabs f1) (Rabs g1) * / 10 ^ 12
  | _ => False
  end.
Proof.
  intros. unfold intersection. destruct (is_approx f1 g1 double_precision) eqn:A.
  - split; auto. split; auto. unfold is_approx in A. destruct (Rle_dec _ _) as [L|L]; [exact L|discriminate].
  - assert (N : g1 - f1 <> 0).
    { intros E. assert (g1 = f1) by lra. subst g1. unfold is_approx in A. destruct (Rle_dec _ _) as [L|L]; [discriminate|]. apply L.
      replace (f1 - f1) with 0 by ring. rewrite Rabs_R0, Rmin_left by lra. apply Rmult_le_pos; [apply Rabs_pos|]. unfold double_precision.
      apply Rlt_le, Rinv_0_lt_compat. apply pow_lt. lra. }
    rewrite fdiv_ok by auto. cbn [fbind]. split; auto. rewrite !eval_horner. cbn [horner]. split; [field; auto|].
    intros x' y' E1 E2. rewrite !eval_horner in *. cbn [horner] in *. apply Rmult_eq_reg_r with (g1 - f1); auto. rewrite div_mul by auto. nra.
Qed.
Print Assumptions C51_intersection_is_on_both_lines.
Example C51_diagonals : intersection 0 1 2 (-1) false = (false, FOk ((0 - 2) / (-1 - 1), eval [0; 1] ((0 - 2) / (-1 - 1)))).
Proof.
  unfold intersection. replace (is_approx 1 (-1) double_precision) with false.
  - rewrite fdiv_ok by lra. reflexivity.
  - unfold is_approx. destruct (Rle_dec _ _) as [L|L]; auto. exfalso. rewrite Rabs_R1, (Rabs_left (-1)), Rmin_left in L by lra.
    replace (1 - -1) with 2 in L by ring. rewrite Rabs_pos_eq in L by lra. unfold double_precision in L.
    assert (/ 10 ^ 12 < 1); [|lra]. rewrite <- Rinv_1. apply Rinv_lt_contravar; rewrite ?Rmult_1_l; [apply pow_lt|apply Rlt_pow_R1; [|lia]]; lra.
Qed.

(** * C137: the failure flag *)

(** After one failure the object reports failure for ever: a later successful intersection leaves the flag set. *)
Theorem C137_failure_flag_reset_refuted : forall f0 f1 g0 g1 x y, snd (intersection f0 f1 g0 g1 true) = FOk (x, y) ->
  fst (intersection f0 f1 g0 g1 true) = true.
Proof. intros. unfold intersection in *. destruct (is_approx f1 g1 double_precision); reflexivity. Qed.
Print Assumptions C137_failure_flag_reset_refuted.
Example C137_not_vacuous : exists p, intersection 0 1 2 (-1) true = (true, FOk p).
Proof.
  pose proof C51_diagonals as D. unfold intersection in *. destruct (is_approx 1 (-1) double_precision); [discriminate|].
  rewrite fdiv_ok by lra. eexists. reflexivity.
Qed.

(** * C65: fuzzy comparison *)

Theorem C65_laws : forall x y prec, 0 <= prec < 1 ->
  is_approx x x prec = true
  /\ is_approx x y prec = is_approx y x prec
  /\ (x * y < 0 -> is_approx x y prec = false)
  /\ (x <> 0 -> is_approx x 0 prec = false)
  /\ (x <= y -> is_approx_or_less x y prec = true)
  /\ (is_approx x y prec = true -> is_approx_or_less x y prec = true /\ is_approx_or_less y x prec = true)
  /\ (is_approx_or_less x y prec = true -> is_approx_or_less y x prec = true -> is_approx x y prec = true).
Proof.
  intros x y prec P. assert (S : forall a b, is_approx a b prec = is_approx b a prec).
  { intros a b. unfold is_approx. rewrite (Rabs_minus_sym a b), (Rmin_comm (Rabs a)). reflexivity. }
  assert (RF : forall a, is_approx a a prec = true).
  { intros a. unfold is_approx. destruct (Rle_dec _ _) as [L|L]; auto. exfalso. apply L. replace (a - a) with 0 by ring. rewrite Rabs_R0, Rmin_left by lra.
    apply Rmult_le_pos; [apply Rabs_pos|lra]. }
  split; [apply RF|]. split; [apply S|]. split; [|split; [|split; [|split]]].
  - intros O. unfold is_approx. destruct (Rle_dec _ _) as [L|L]; auto. exfalso.
    assert (B : Rmin (Rabs x) (Rabs y) * prec <= Rmin (Rabs x) (Rabs y)).
    { assert (0 <= Rmin (Rabs x) (Rabs y)) by (apply Rmin_glb; apply Rabs_pos). nra. }
    pose proof (Rmin_l (Rabs x) (Rabs y)) as M. pose proof (Rle_abs (x - y)) as A1. pose proof (Rle_abs (- (x - y))) as A2. rewrite Rabs_Ropp in A2.
    destruct (Rle_lt_dec 0 x) as [X|X]; [rewrite (Rabs_pos_eq x) in * by lra|rewrite (Rabs_left x) in * by lra]; nra.
  - intros X. unfold is_approx. destruct (Rle_dec _ _) as [L|L]; auto. exfalso. rewrite Rabs_R0, Rminus_0_r, Rmin_right in L by apply Rabs_pos.
    pose proof (Rabs_pos_lt x X). lra.
  - intros L. unfold is_approx_or_less. destruct (Rle_dec x y); [reflexivity|contradiction].
  - intros A. unfold is_approx_or_less. rewrite (S y x), A, !Bool.orb_true_r. auto.
  - unfold is_approx_or_less. rewrite (S y x). destruct (is_approx x y prec) eqn:A; auto. rewrite !Bool.orb_false_r.
    destruct (Rle_dec x y), (Rle_dec y x); auto; try discriminate. intros _ _. assert (E : x = y) by lra. rewrite E, RF in A. discriminate.
Qed.
Print Assumptions C65_laws.

(** Approximate equality in the ordinary sense: relative error. *)
Theorem C65_meaning : forall x y prec, 0 <= prec -> (is_approx x y prec = true <-> Rabs (x - y) <= prec * Rabs x /\ Rabs (x - y) <= prec * Rabs y).
Proof.
  intros x y prec P. unfold is_approx. destruct (Rle_dec _ _) as [L|L].
  - split; auto. intros _. pose proof (Rmin_l (Rabs x) (Rabs y)). pose proof (Rmin_r (Rabs x) (Rabs y)). split; nra.
  - split; [discriminate|]. intros [A B]. exfalso. apply L. unfold Rmin. destruct (Rle_dec _ _); lra.
Qed.
Print Assumptions C65_meaning.
Example C65_close : is_approx 1000 1001 (1 / 100) = true.
Proof. apply C65_meaning; [lra|]. replace (1000 - 1001) with (-1) by ring. rewrite (Rabs_left (-1)), !Rabs_pos_eq by lra. lra. Qed.

Theorem C65_integers : forall x y, is_approx_int x y = true <-> x = y.
Proof. intros x y. unfold is_approx_int. apply Z.eqb_eq. Qed.
Print Assumptions C65_integers.

(** * C161: signs and cube roots *)
Theorem C161_signs : forall x, IZR (sign x) * Rabs x = x /\ IZR (psign x) * Rabs x = x /\ IZR (nsign x) * Rabs x = x /\
  (sign x = 0%Z <-> x = 0) /\ (sign x = 1 \/ sign x = 0 \/ sign x = -1)%Z /\
  (psign x = 1 \/ psign x = -1)%Z /\ (nsign x = 1 \/ nsign x = -1)%Z /\ psign 0 = 1%Z /\ nsign 0 = (-1)%Z.
Proof.
  intros x. unfold sign, psign, nsign.
  destruct (Rlt_dec 0 0); [lra|]. destruct (Rle_dec 0 0); [|lra].
  destruct (Rlt_dec 0 x) as [P|P].
  - destruct (Rle_dec 0 x); [|lra]. rewrite Rabs_pos_eq by lra. repeat split; auto; try lra; try lia.
  - destruct (Rlt_dec x 0) as [N|N].
    + destruct (Rle_dec 0 x); [lra|]. rewrite Rabs_left by lra. repeat split; auto; try lra; try lia.
    + assert (x = 0) as -> by lra. destruct (Rle_dec 0 0); [|lra]. rewrite Rabs_R0. repeat split; auto; try lra; try lia.
Qed.
Print Assumptions C161_signs.
(** The cube root is the inverse of cubing on all reals. *)
Theorem C161_cube_root : forall x y, cube_root x ^ 3 = x /\ (y ^ 3 = x -> cube_root x = y).
Proof.
  intros x y. pose proof (cube_root_cube x) as H. split; [rewrite <- H at 2; ring|]. intros E.
  set (r := cube_root x) in *. assert (K : (r - y) * (r * r + r * y + y * y) = 0).
  { replace ((r - y) * (r * r + r * y + y * y)) with (r * r * r - y ^ 3) by ring. lra. }
  apply Rmult_integral in K as [K|K]; [lra|].
  assert (Q : (r + y / 2) * (r + y / 2) + 3 / 4 * (y * y) = 0) by lra.
  pose proof (Rle_0_sqr (r + y / 2)) as S1. pose proof (Rle_0_sqr y) as S2. unfold Rsqr in S1, S2.
  assert (Y : y * y = 0) by lra. apply Rmult_integral in Y. assert (y = 0) as -> by tauto.
  assert (Z : r * r = 0) by lra. apply Rmult_integral in Z. tauto.
Qed.
Print Assumptions C161_cube_root.
Example C161_case : cube_root (-8) = -2.
Proof. apply C161_cube_root. ring. Qed.

(** * C138: mixed comparison *)

(** An integer on the left that is approximately equal to a double need not be approximately equal-or-less. *)
Theorem C138_mixed_comparison_consistent_refuted : exists x y prec,
  is_approx_mixed x y prec double_precision = true /\ is_approx_or_less_mixed x y = false.
Proof.
  exists 1000%Z, 999, (1 / 100). unfold is_approx_mixed, is_approx_or_less_mixed. split.
  - destruct (Req_EM_T (1 / 100) 0); [lra|]. destruct (Rle_dec _ _) as [L|L]; auto. exfalso. apply L. replace (1000 - 999) with 1 by ring.
    rewrite Rabs_R1, !Rabs_pos_eq, Rmin_right by lra. lra.
  - destruct (Rle_dec 1000 999); [lra|reflexivity].
Qed.
Print Assumptions C138_mixed_comparison_consistent_refuted.
(** For whole numbers on the right, and precisions too fine to confuse two integers of that size, the comparisons do agree. *)
Theorem C138_whole_partial : forall x k prec, (prec = 0 \/ 0 < prec) -> Rabs (IZR x) * (if Req_EM_T prec 0 then / 10 ^ 12 else prec) < 1 ->
  is_approx_mixed x (IZR k) prec double_precision = true -> is_approx_or_less_mixed x (IZR k) = true /\ x = k.
Proof.
  intros x k prec P B H. assert (E : x = k).
  { unfold is_approx_mixed, double_precision in H. cbn zeta in H. set (p := if Req_EM_T prec 0 then / 10 ^ 12 else prec) in *.
    assert (P0 : 0 < p) by (unfold p; destruct (Req_EM_T prec 0); [apply Rinv_0_lt_compat; apply pow_lt; lra|tauto]).
    destruct (Rle_dec (Rabs (IZR x - IZR k)) (Rmin (Rabs (IZR x)) (Rabs (IZR k)) * p)) as [L|]; [|discriminate].
    assert (M : Rmin (Rabs (IZR x)) (Rabs (IZR k)) * p <= Rabs (IZR x) * p) by (apply Rmult_le_compat_r; [lra|apply Rmin_l]).
    assert (LT : Rabs (IZR x - IZR k) < 1) by lra. rewrite <- minus_IZR, <- abs_IZR in LT. apply lt_IZR in LT. lia. }
  split; [|exact E]. subst k. unfold is_approx_or_less_mixed. destruct (Rle_dec (IZR x) (IZR x)); [reflexivity|lra].
Qed.
Print Assumptions C138_whole_partial.
Example C138_whole_case : is_approx_mixed 999 (IZR 999) 0 double_precision = true /\ Rabs (IZR 999) * / 10 ^ 12 < 1.
Proof.
  split.
  - unfold is_approx_mixed, double_precision. destruct (Req_EM_T 0 0); [|lra]. destruct (Rle_dec _ _) as [|N]; [reflexivity|]. exfalso. apply N.
    replace (999 - 999) with 0 by ring. rewrite Rabs_R0. apply Rmult_le_pos; [apply Rmin_glb; apply Rabs_pos|]. apply Rlt_le, Rinv_0_lt_compat, pow_lt. lra.
  - rewrite Rabs_pos_eq by lra. apply (Rmult_lt_reg_r (10 ^ 12)); [apply pow_lt; lra|]. rewrite Rmult_assoc, Rinv_l by (apply pow_nonzero; lra). lra.
Qed.


(** * C56: distance from a segment *)

Theorem C56_distance_is_the_minimum : forall x1 y1 x2 y2 x y,
  let d := squared_distance x1 y1 x2 y2 x y in
  let on t := (x - (x1 + t * (x2 - x1))) * (x - (x1 + t * (x2 - x1))) + (y - (y1 + t * (y2 - y1))) * (y - (y1 + t * (y2 - y1))) in
  (exists t, 0 <= t <= 1 /\ d = on t) /\ forall t, 0 <= t <= 1 -> d <= on t.
Proof.
  intros x1 y1 x2 y2 x y. cbn zeta. unfold squared_distance. set (dx := x2 - x1). set (dy := y2 - y1).
  replace (x2) with (x1 + dx) by (unfold dx; ring). replace (y2) with (y1 + dy) by (unfold dy; ring).
  set (u := x - x1). set (v := y - y1). replace x with (x1 + u) by (unfold u; ring). replace y with (y1 + v) by (unfold v; ring).
  set (len := dx * dx + dy * dy). set (dot := u * dx + v * dy).
  assert (ON : forall t, (x1 + u - (x1 + t * dx)) * (x1 + u - (x1 + t * dx)) + (y1 + v - (y1 + t * dy)) * (y1 + v - (y1 + t * dy))
               = u * u + v * v - 2 * t * dot + t * t * len) by (intros t; unfold dot, len; ring).
  setoid_rewrite ON. assert (LP : 0 <= len) by (unfold len; pose proof (Rle_0_sqr dx); pose proof (Rle_0_sqr dy); unfold Rsqr in *; lra).
  destruct (Req_EM_T len 0) as [L0|L0].
  - destruct (Rlt_dec (-1) 0) as [_|X]; [|lra]. assert (DX : dx = 0 /\ dy = 0).
    { unfold len in L0. pose proof (Rle_0_sqr dx). pose proof (Rle_0_sqr dy). unfold Rsqr in *. split; apply sq_zero; lra. }
    assert (D0 : dot = 0) by (unfold dot; destruct DX as [-> ->]; ring). rewrite D0, L0. split.
    + exists 0. split; [lra|ring].
    + intros t _. apply Req_le. ring.
  - assert (LG : 0 < len) by lra. set (t0 := dot / len). assert (TD : dot = t0 * len) by (unfold t0; field; lra). rewrite TD.
    destruct (Rlt_dec t0 0) as [N|N]; [|destruct (Rlt_dec 1 t0) as [M|M]].
    + split; [exists 0; split; [lra|ring]|]. intros t T. assert (0 <= t * len * (t - 2 * t0)) by (repeat apply Rmult_le_pos; lra). nra.
    + split; [exists 1; split; [lra|]|].
      * transitivity ((u - dx) * (u - dx) + (v - dy) * (v - dy)); [ring|]. replace (t0 * len) with dot. unfold dot, len. ring.
      * intros t T. replace ((x1 + u - (x1 + dx)) * (x1 + u - (x1 + dx)) + (y1 + v - (y1 + dy)) * (y1 + v - (y1 + dy)))
          with (u * u + v * v - 2 * (t0 * len) + len) by (rewrite <- TD; unfold dot, len; ring).
        assert (0 <= (1 - t) * len * (2 * t0 - t - 1)) by (repeat apply Rmult_le_pos; lra). nra.
    + rewrite ON, TD. split; [exists t0; split; [lra|ring]|]. intros t T.
      assert (0 <= len * ((t - t0) * (t - t0))) by (apply Rmult_le_pos; [lra|apply Rle_0_sqr]). nra.
Qed.
Print Assumptions C56_distance_is_the_minimum.
Example C56_beyond_the_end : squared_distance 0 0 1 0 3 4 = 20.
Proof. unfold squared_distance. destruct (Req_EM_T _ 0); [lra|]. destruct (Rlt_dec _ 0); [lra|]. destruct (Rlt_dec 1 _); lra. Qed.

(** * C57: coefficients of the line through a segment *)

Theorem C57_coefficients_vanish_at_the_ends : forall x1 y1 x2 y2, x1 <> x2 ->
  let '(a, b, c) := segment_coefficients x1 y1 x2 y2 in
  a * x1 + b * y1 + c = 0 /\ a * x2 + b * y2 + c = 0 /\ (a <> 0 \/ b <> 0).
Proof.
  intros x1 y1 x2 y2 N. unfold segment_coefficients. destruct (Req_EM_T x2 x1) as [E|E]; [congruence|].
  split; [field; lra|]. split; [field; lra|]. right. lra.
Qed.
Print Assumptions C57_coefficients_vanish_at_the_ends.
Example C57_diagonal : let '(a, b, c) := segment_coefficients 0 1 1 2 in a = -1 /\ b = 1 /\ c = -1.
Proof. unfold segment_coefficients. destruct (Req_EM_T 1 0); [lra|]. repeat split; lra. Qed.

(** * C139: vertical segments *)

(** The published coefficients 1, 0, x1 of a vertical segment describe the mirrored line x = - x1. *)
Theorem C139_vertical_coefficients_refuted : forall x1 y1 y2, x1 <> 0 ->
  let '(a, b, c) := segment_coefficients x1 y1 x1 y2 in a * x1 + b * y1 + c <> 0 /\ a * x1 + b * y2 + c <> 0.
Proof. intros x1 y1 y2 N. unfold segment_coefficients. destruct (Req_EM_T x1 x1) as [_|X]; [|congruence]. split; lra. Qed.
Print Assumptions C139_vertical_coefficients_refuted.

(** What remains of C135: exactly those cubics. *)
Theorem C135_exactly_partial : forall c0 c1 c2 c3 m p q, c3 <> 0 ->
  (forall x, eval [c0; c1; c2; c3] x = c3 * ((x - m) ^ 3 + p * (x - m) + q)) ->
  (roots_cubic c0 c1 c2 c3 = FNonFinite <-> q = 0 /\ 0 < p).
Proof.
  intros c0 c1 c2 c3 m p q N E.
  assert (U : dep_p c3 c2 c1 = p /\ dep_q c3 c2 c1 c0 = q).
  { assert (F : forall x, (x - m) ^ 3 + p * (x - m) + q = dep (dep_p c3 c2 c1) (dep_q c3 c2 c1 c0) (x - - c2 / (3 * c3))).
    { intros x. apply Rmult_eq_reg_l with c3; auto. rewrite <- E. now apply cubic_dep. }
    set (p' := dep_p c3 c2 c1) in *. set (q' := dep_q c3 c2 c1 c0) in *. set (k := - c2 / (3 * c3)) in *. unfold dep in F.
    pose proof (F 0) as F0. pose proof (F 1) as F1. pose proof (F (-1)) as F2.
    assert (M : m = k) by lra. subst m. assert (PE : p' = p) by lra. split; [exact PE|]. rewrite PE in F0. lra. }
  destruct U as [U1 U2]. split.
  - intros R. destruct (Req_dec q 0) as [Q|Q]; [destruct (Rlt_dec 0 p) as [P|P]; [tauto|]|];
    (destruct (roots_cubic_ok c0 c1 c2 c3 N) as (l & L & _); [rewrite U1, U2; tauto|]; rewrite L in R; discriminate).
  - intros [Q P]. apply roots_cubic_nan; [exact N|rewrite U2; exact Q|rewrite U1; exact P].
Qed.
Print Assumptions C135_exactly_partial.

(** What remains of C137: the flag tells whether any intersection so far has failed. *)
Fixpoint intersections (l : list (R * R * (R * R))) (failed : bool) : bool * list (fres (R * R)) :=
  match l with
  | [] => (failed, [])
  | (f, g) :: l' => let '(b, r) := intersection (fst f) (snd f) (fst g) (snd g) failed in let '(b', rs) := intersections l' b in (b', r :: rs)
  end.
Theorem C137_flag_partial : forall l, let '(b, rs) := intersections l false in (b = true <-> exists e, In (FThrow e) rs).
Proof.
  assert (G : forall l b0, let '(b, rs) := intersections l b0 in (b = true <-> b0 = true \/ exists e, In (FThrow e) rs)).
  { induction l as [|[[f0 f1] [g0 g1]] l IH]; intros b0; cbn [intersections fst snd]; [split; [tauto|intros [H|[e []]]; exact H]|].
    unfold intersection. destruct (is_approx f1 g1 double_precision).
    - specialize (IH true). destruct (intersections l true) as [b rs]. rewrite IH. split; [|tauto]. intros _. right. exists OutOfRangeError. now left.
    - specialize (IH b0). destruct (intersections l b0) as [b rs]. rewrite IH. split.
      + intros [H|[e H]]; [tauto|right; exists e; now right].
      + intros [H|[e [H|H]]]; [tauto| |right; eauto]. unfold fdiv in H. destruct (Req_EM_T (g1 - f1) 0); discriminate H. }
  intros l. specialize (G l false). destruct (intersections l false) as [b rs]. rewrite G. split; [intros [H|H]; [discriminate|exact H]|tauto].
Qed.
Print Assumptions C137_flag_partial.
Example C137_case : fst (intersections [((0, 1), (1, 1)); ((0, 1), (2, -1))] false) = true.
Proof.
  pose proof (C137_flag_partial [((0, 1), (1, 1)); ((0, 1), (2, -1))]) as H. cbn [intersections fst snd] in *. unfold intersection in *.
  replace (is_approx 1 1 double_precision) with true in *; [destruct (is_approx 1 (-1) double_precision); reflexivity|].
  symmetry. unfold is_approx, double_precision. destruct (Rle_dec _ _) as [L|L]; [reflexivity|]. exfalso. apply L. replace (1 - 1) with 0 by ring. rewrite Rabs_R0.
  apply Rmult_le_pos; [apply Rmin_glb; apply Rabs_pos|]. left. apply Rinv_0_lt_compat, pow_lt. lra.
Qed.

(** What remains of C139: the line described is the mirrored one, so that the coefficients are right exactly on the y axis. *)
Theorem C139_vertical_partial : forall x1 y1 y2 x y, let '(a, b, c) := segment_coefficients x1 y1 x1 y2 in
  (a * x + b * y + c = 0 <-> x = - x1) /\ (a * x1 + b * y1 + c = 0 /\ a * x1 + b * y2 + c = 0 <-> x1 = 0).
Proof. intros x1 y1 y2 x y. unfold segment_coefficients. destruct (Req_EM_T x1 x1) as [_|X]; [|congruence]. repeat split; lra. Qed.
Print Assumptions C139_vertical_partial.

(** C140, exactly: no roots are found for a cubic without a cubic term, nor for one whose only root is its inflection point; for all others they are. *)
Theorem C140_exactly : forall c0 c1 c2 c3,
  roots_cubic c0 c1 c2 c3 = FNonFinite <->
  c3 = 0 \/ exists m s, 0 < s /\ forall x, eval [c0; c1; c2; c3] x = c3 * (x - m) * ((x - m) ^ 2 + s).
Proof.
  intros c0 c1 c2 c3. destruct (Req_EM_T c3 0) as [->|N].
  - split; [now left|]. intros _. apply C140_cubic_degrades_refuted.
  - assert (F : forall x, eval [c0; c1; c2; c3] x = c3 * ((x - - c2 / (3 * c3)) ^ 3 + dep_p c3 c2 c1 * (x - - c2 / (3 * c3)) + dep_q c3 c2 c1 c0)).
    { intros x. unfold dep_p, dep_q. cbn. field. exact N. }
    split.
    + intros E. right. exists (- c2 / (3 * c3)), (dep_p c3 c2 c1).
      destruct (Req_EM_T (dep_q c3 c2 c1 c0) 0) as [Q|Q]; [destruct (Rlt_dec 0 (dep_p c3 c2 c1)) as [P|P]|].
      * split; [exact P|]. intros x. rewrite F, Q. ring.
      * destruct (roots_cubic_ok c0 c1 c2 c3 N ltac:(tauto)) as (l & L & _). congruence.
      * destruct (roots_cubic_ok c0 c1 c2 c3 N ltac:(tauto)) as (l & L & _). congruence.
    + intros [X|(m & s & S0 & E)]; [contradiction|].
      assert (U : dep_p c3 c2 c1 = s /\ dep_q c3 c2 c1 c0 = 0).
      { pose proof (E 0) as E0. pose proof (E 1) as E1. pose proof (E (-1)) as E2. pose proof (E 2) as E3. cbn in E0, E1, E2, E3.
        assert (A2 : c2 = -3 * c3 * m) by lra. assert (A1 : c1 = 3 * c3 * m * m + c3 * s) by (subst c2; lra).
        assert (A0 : c0 = - c3 * m * m * m - c3 * m * s) by lra. subst c2 c1 c0. unfold dep_p, dep_q. split; field; exact N. }
      destruct U as [U1 U2]. apply roots_cubic_nan; auto. rewrite U1. exact S0.
Qed.
Print Assumptions C140_exactly.
Example C140_inflection : roots_cubic (-2) 3 (-2) 1 <> FNonFinite /\ roots_cubic 0 1 0 1 = FNonFinite.
Proof.
  split.
  - intros E. apply C140_exactly in E as [E|(m & s & S0 & E)]; [lra|]. pose proof (E 0) as E0. pose proof (E 1) as E1. pose proof (E (-1)) as E2. pose proof (E 2) as E3. cbn in E0, E1, E2, E3.
    assert (A2 : 2 = 3 * m) by lra. assert (m = 2 / 3) by lra. subst m. nra.
  - apply C140_exactly. right. exists 0, 1. split; [lra|]. intros x. cbn. ring.
Qed.

(** (x - 1)^3 + 2 (x - 1), with one real root, which is at the turning point of the second derivative. *)
Example C135_case : forall x, eval [-3; 5; -3; 1] x = 1 * ((x - 1) ^ 3 + 2 * (x - 1) + 0).
Proof. intros x. unfold eval. cbn. ring. Qed.
