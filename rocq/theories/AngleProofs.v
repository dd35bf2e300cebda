From Flocq Require Import Core.
From Coq Require Import SpecFloat.
From Verif Require Import RBase AngleModel.
Open Scope R_scope.

(** Two angles denote the same direction. *)
Definition same_angle (a b : R) : Prop := exists k : Z, a = b + 2 * IZR k * PI.

Lemma same_refl a : same_angle a a.
Proof. exists 0%Z. lra. Qed.
Lemma same_sym a b : same_angle a b -> same_angle b a.
Proof. intros [k H]. exists (- k)%Z. rewrite opp_IZR. lra. Qed.
Lemma same_trans a b c : same_angle a b -> same_angle b c -> same_angle a c.
Proof. intros [k H] [j J]. exists (k + j)%Z. rewrite plus_IZR. lra. Qed.
Lemma same_plus a b c d : same_angle a b -> same_angle c d -> same_angle (a + c) (b + d).
Proof. intros [k H] [j J]. exists (k + j)%Z. rewrite plus_IZR. lra. Qed.
Lemma same_opp a b : same_angle a b -> same_angle (- a) (- b).
Proof. intros [k H]. exists (- k)%Z. rewrite opp_IZR. lra. Qed.

Lemma cos_shift x k : cos (x + 2 * IZR k * PI) = cos x /\ sin (x + 2 * IZR k * PI) = sin x.
Proof.
  destruct (Z_le_gt_dec 0 k) as [P|P].
  - rewrite <- (Z2Nat.id k P), <- INR_IZR_INZ. split; [apply cos_period|apply sin_period].
  - set (n := Z.to_nat (- k)). assert (E : IZR k = - INR n).
    { unfold n. rewrite INR_IZR_INZ, Z2Nat.id, opp_IZR; [lra|lia]. }
    rewrite E. rewrite <- (cos_period (x + 2 * - INR n * PI) n), <- (sin_period (x + 2 * - INR n * PI) n).
    replace (x + 2 * - INR n * PI + 2 * INR n * PI) with x by lra. auto.
Qed.

Lemma same_cos a b : same_angle a b -> cos a = cos b /\ sin a = sin b.
Proof. intros [k ->]. apply cos_shift. Qed.

Lemma wrap_range a : - PI <= wrap a <= PI.
Proof.
  pose proof PI_RGT_0. unfold wrap. rdec; try lra.
  - pose proof (fmod_neg (a - PI) (2 * PI) ltac:(lra) ltac:(lra)). lra.
  - pose proof (fmod_pos (a + PI) (2 * PI) ltac:(lra) ltac:(lra)). lra.
Qed.

Lemma wrap_same a : same_angle (wrap a) a.
Proof.
  pose proof PI_RGT_0.
  assert (N : same_angle (fmod (a - PI) (2 * PI) + PI) a).
  { exists (- rtrunc ((a - PI) / (2 * PI)))%Z. unfold fmod. rewrite opp_IZR. lra. }
  assert (P : same_angle (fmod (a + PI) (2 * PI) - PI) a).
  { exists (- rtrunc ((a + PI) / (2 * PI)))%Z. unfold fmod. rewrite opp_IZR. lra. }
  unfold wrap. rdec; auto using same_refl.
Qed.

Lemma wrap_id a : - PI <= a <= PI -> wrap a = a.
Proof. intros H. unfold wrap. rdec; lra. Qed.

Lemma wrap_wrap a : wrap (wrap a) = wrap a.
Proof. apply wrap_id, wrap_range. Qed.

(** In the open interval the representative is unique. *)
Lemma same_unique a b : same_angle a b -> - PI < a < PI -> - PI <= b <= PI -> a = b.
Proof.
  intros [k E] A B. pose proof PI_RGT_0.
  assert (-1 < IZR k < 1). { split; nra. }
  assert (k = 0%Z). { destruct H0 as [L U]. apply (lt_IZR (-1) k) in L. apply (lt_IZR k 1) in U. lia. }
  subst. lra.
Qed.

(** * atan2 *)

Lemma atan2_range y x : - PI < atan2 y x <= PI.
Proof.
  pose proof PI_RGT_0. unfold atan2. pose proof (atan_bound (y / x)) as B. rdec; try lra.
  - assert (atan (y / x) <= 0); [|lra]. rewrite <- atan_0. assert (y / x <= 0) by (unfold Rdiv; assert (/ x < 0) by (now apply Rinv_lt_0_compat); nra).
    destruct H0; [left; now apply atan_increasing|right; congruence].
  - assert (0 < atan (y / x)); [|lra]. rewrite <- atan_0. apply atan_increasing. unfold Rdiv. assert (/ x < 0) by (now apply Rinv_lt_0_compat). nra.
Qed.

Lemma sqrt_unit c s : c <> 0 -> c * c + s * s = 1 -> sqrt (1 + (s / c)²) = / Rabs c.
Proof.
  intros N E. replace (1 + (s / c)²) with ((/ Rabs c)²).
  - apply sqrt_Rsqr. left. apply Rinv_0_lt_compat. now apply Rabs_pos_lt.
  - rewrite Rsqr_inv'. rewrite <- Rsqr_abs. unfold Rsqr. field_simplify_eq; auto. lra.
Qed.

Lemma atan2_unit c s : c * c + s * s = 1 -> cos (atan2 s c) = c /\ sin (atan2 s c) = s.
Proof.
  intros E. unfold atan2.
  assert (P : c <> 0 -> cos (atan (s / c)) = Rabs c /\ sin (atan (s / c)) = s / c * Rabs c).
  { intros N. rewrite cos_atan, sin_atan, sqrt_unit by auto. assert (Rabs c <> 0) by now apply Rabs_no_R0. split; field; auto. }
  destruct (Rlt_dec 0 c) as [C|C].
  { destruct P as [-> ->]; [lra|]. rewrite Rabs_right by lra. split; [lra|field; lra]. }
  destruct (Rlt_dec c 0) as [D|D].
  { destruct P as [A B]; [lra|]. rewrite Rabs_left in A, B by lra.
    destruct (Rle_dec 0 s).
    - rewrite neg_cos, neg_sin, A, B. split; [lra|field; lra].
    - replace (atan (s / c) - PI) with (- (- atan (s / c) + PI)) by lra. rewrite cos_neg, sin_neg, neg_cos, neg_sin, cos_neg, sin_neg, A, B.
      split; [lra|field; lra]. }
  assert (c = 0) by lra. subst c. assert (s * s = 1) by lra.
  destruct (Rlt_dec 0 s); [|destruct (Rlt_dec s 0)].
  - rewrite cos_PI2, sin_PI2. split; nra.
  - rewrite cos_neg, sin_neg, cos_PI2, sin_PI2. split; nra.
  - assert (s = 0) by lra. subst. lra.
Qed.

Lemma cos_sin_unique a b : - PI < a <= PI -> - PI < b <= PI -> cos a = cos b -> sin a = sin b -> a = b.
Proof.
  intros A B C S. pose proof PI_RGT_0.
  assert (E : cos (a - b) = 1). { rewrite cos_minus, C, S. pose proof (sin2_cos2 b). unfold Rsqr in *. lra. }
  assert (E2 : sin (a - b) = 0). { rewrite sin_minus, C, S. lra. }
  destruct (sin_eq_0_0 _ E2) as [k K].
  assert (-2 < IZR k < 2) by (split; nra). destruct H0 as [L U]. apply (lt_IZR (-2) k) in L. apply (lt_IZR k 2) in U.
  assert (KK : (k = 0 \/ k = 1 \/ k = -1)%Z) by lia. destruct KK as [KK|[KK|KK]]; subst k; [lra| |]; exfalso; rewrite K in E.
  - rewrite Rmult_1_l, cos_PI in E. lra.
  - replace (-1 * PI) with (- PI) in E by lra. rewrite cos_neg, cos_PI in E. lra.
Qed.

Lemma atan2_cos_sin v : - PI < v <= PI -> atan2 (sin v) (cos v) = v.
Proof.
  intros H. pose proof (sin2_cos2 v) as E. unfold Rsqr in E. destruct (atan2_unit (cos v) (sin v)) as [A B]; [lra|].
  apply cos_sin_unique; auto. apply atan2_range.
Qed.

(** * Doubles *)

Lemma pi_d_format : is_double pi_d.
Proof.
  replace pi_d with (F2R (Float radix2 7074237752028440 (-51))).
  - apply generic_format_FLT. exists (Float radix2 7074237752028440 (-51)); auto; simpl; lia.
  - unfold F2R, pi_d. cbn [Fnum Fexp]. f_equal. rewrite pow_IZR. reflexivity.
Qed.

Lemma pi_d_pos : 3 < pi_d.
Proof. unfold pi_d. lra. Qed.

Lemma two_pi_d : rnd (2 * pi_d) = 2 * pi_d.
Proof.
  apply round_generic; [apply valid_rnd_N|].
  replace (2 * pi_d) with (F2R (Float radix2 7074237752028440 (-50))).
  - apply generic_format_FLT. exists (Float radix2 7074237752028440 (-50)); auto; simpl; lia.
  - unfold F2R, pi_d. cbn [Fnum Fexp]. replace (bpow radix2 (-50)) with (2 * / 2 ^ 51); [ring|].
    change (bpow radix2 (-50)) with (/ IZR (2 ^ Z.of_nat 50)). rewrite <- pow_IZR.
    change 51%nat with (S 50). rewrite <- tech_pow_Rmult. field.
Qed.

Lemma rnd_le_format x y : is_double y -> x <= y -> rnd x <= y.
Proof. intros F H. apply round_le_generic; auto; try (now apply FLT_exp_valid); apply valid_rnd_N. Qed.
Lemma rnd_ge_format x y : is_double y -> y <= x -> y <= rnd x.
Proof. intros F H. apply round_ge_generic; auto; try (now apply FLT_exp_valid); apply valid_rnd_N. Qed.

Lemma opp_format x : is_double x -> is_double (- x).
Proof. apply generic_format_opp. Qed.

Lemma wrap_d_range a : is_double a -> - pi_d <= wrap_d a <= pi_d.
Proof.
  intros F. pose proof pi_d_pos. pose proof pi_d_format as FP. pose proof (opp_format _ FP) as FN. pose proof two_pi_d as TP.
  assert (F2 : is_double (2 * pi_d)).
  { rewrite <- TP. apply generic_format_round; [apply FLT_exp_valid; easy|apply valid_rnd_N]. }
  pose proof (opp_format _ F2) as F2N.
  unfold wrap_d. rewrite TP. rdec; try lra.
  - pose proof (fmod_neg (rnd (a - pi_d)) (2 * pi_d) ltac:(lra)) as M.
    assert (rnd (a - pi_d) <= - (2 * pi_d)) by (apply rnd_le_format; auto; lra). specialize (M ltac:(lra)).
    split; [apply rnd_ge_format|apply rnd_le_format]; auto; lra.
  - pose proof (fmod_pos (rnd (a + pi_d)) (2 * pi_d) ltac:(lra)) as M.
    assert (2 * pi_d <= rnd (a + pi_d)) by (apply rnd_ge_format; auto; lra). specialize (M ltac:(lra)).
    split; [apply rnd_ge_format|apply rnd_le_format]; auto; lra.
Qed.

Lemma wrap_d_id a : - pi_d <= a <= pi_d -> wrap_d a = a.
Proof. intros H. unfold wrap_d. rdec; lra. Qed.
