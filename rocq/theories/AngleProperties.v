(** Properties of angles. *)
From Coq Require Import SpecFloat.
From Flocq Require Import Core Relative.
From Verif Require Import RBase AngleModel AngleProofs ConstProofs AngleError.
Open Scope R_scope.

(** * C44: wrapping *)

Theorem C44_wrap_is_equivalent_and_in_range : forall a,
  - PI <= wrap a <= PI /\ exists k : Z, wrap a = a + 2 * IZR k * PI.
Proof. intros a. split; [apply wrap_range|apply wrap_same]. Qed.
Print Assumptions C44_wrap_is_equivalent_and_in_range.

Theorem C44_wrap_idempotent : forall a, wrap (wrap a) = wrap a /\ (- PI <= a <= PI -> wrap a = a).
Proof. intros a. split; [apply wrap_wrap|apply wrap_id]. Qed.
Print Assumptions C44_wrap_idempotent.

(** Every operation of the class leaves a wrapped angle that is equivalent to the exact result. *)
Theorem C44_arithmetic_is_wrapped : forall v a,
  (- PI <= plus v a <= PI /\ same_angle (plus v a) (v + a))
  /\ (- PI <= minus v a <= PI /\ same_angle (minus v a) (v - a))
  /\ (- PI <= times_scalar v a <= PI /\ same_angle (times_scalar v a) (a * v))
  /\ plus_assign v a = plus v a /\ minus_assign v a = minus v a /\ times_assign v a = times_scalar v a
  /\ assign v a = mk_angle a
  /\ plus v a = plus a v /\ same_angle (minus (plus v a) a) v.
Proof.
  intros v a. unfold plus, minus, times_scalar, plus_assign, minus_assign, times_assign, assign, mk_angle.
  rewrite !wrap_wrap, (Rmult_comm v a), (Rplus_comm a v).
  split; [split; [apply wrap_range|apply wrap_same]|].
  split; [split; [apply wrap_range|apply wrap_same]|].
  split; [split; [apply wrap_range|apply wrap_same]|].
  repeat (split; [reflexivity|]).
  eapply same_trans; [apply wrap_same|]. pose proof (wrap_same (v + a)) as H.
  pose proof (same_plus _ _ _ _ H (same_refl (- a))) as J. replace (v + a + - a) with v in J by lra.
  exact J.
Qed.
Print Assumptions C44_arithmetic_is_wrapped.

(** With every operation rounded to double, the result is still in range and wrapping is still idempotent. *)
Theorem C44_double_range_and_idempotent : forall a, is_double a ->
  - pi_d <= wrap_d a <= pi_d /\ wrap_d (wrap_d a) = wrap_d a.
Proof. intros a F. pose proof (wrap_d_range a F). split; auto. now apply wrap_d_id. Qed.
Print Assumptions C44_double_range_and_idempotent.

(** How far the rounded result is from an angle equivalent to the argument: less than one part in 2^52 of the argument, and eight such parts. *)
Theorem C44_double_error : forall a, exists k : Z, Rabs (wrap_d a - (a + 2 * IZR k * PI)) <= (Rabs a + 8) * / 2 ^ 52.
Proof. exact wrap_d_error. Qed.
Print Assumptions C44_double_error.

Example C44_five_pi_half : wrap (5 * PI / 2) = PI / 2.
Proof.
  symmetry. pose proof PI_RGT_0. apply same_unique; [|lra|apply wrap_range].
  apply same_sym. eapply same_trans; [apply wrap_same|]. exists 1%Z. lra.
Qed.
Example C44_is_double : is_double pi_d. Proof. exact pi_d_format. Qed.

(** * C132: angles in single precision *)

(** The float nearest to pi is wrapped to a float below -pi, and wrapping again gives the first value back. *)
Theorem C132_float_wrap_refuted : exists a,
  SFleb (SFopp pi64) (to_double (wrap_f a)) = false
  /\ wrap_f (wrap_f a) <> wrap_f a /\ wrap_f (wrap_f a) = a.
Proof. exists (S754_finite false 13176795 (-22)). split; [vm_compute; reflexivity|]. split; [vm_compute; discriminate|vm_compute; reflexivity]. Qed.
Print Assumptions C132_float_wrap_refuted.

(** * C133: rotation matrices *)

Definition matmul (a b : R * R * R * R) : R * R * R * R :=
  let '(a00, a01, a10, a11) := a in let '(b00, b01, b10, b11) := b in
  (a00 * b00 + a01 * b10, a00 * b01 + a01 * b11, a10 * b00 + a11 * b10, a10 * b01 + a11 * b11).

Theorem C133_rotation_matrix_round_trip : forall v, - PI < v <= PI ->
  let '(m00, _, m10, _) := rotation_matrix v in from_matrix m00 m10 = v.
Proof. intros v H. cbn. now apply atan2_cos_sin. Qed.
Print Assumptions C133_rotation_matrix_round_trip.

Theorem C133_angle_of_rotation : forall c s, c * c + s * s = 1 ->
  - PI < from_matrix c s <= PI /\ rotation_matrix (from_matrix c s) = (c, - s, s, c).
Proof.
  intros c s E. split; [apply atan2_range|]. unfold rotation_matrix, from_matrix. destruct (atan2_unit c s E) as [-> ->]. reflexivity.
Qed.
Print Assumptions C133_angle_of_rotation.

Theorem C133_rotations_compose : forall a b,
  matmul (rotation_matrix a) (rotation_matrix b) = rotation_matrix (plus a b).
Proof.
  intros a b. unfold plus, mk_angle. rewrite wrap_wrap.
  destruct (same_cos _ _ (wrap_same (a + b))) as [C S]. unfold rotation_matrix, matmul. rewrite C, S, cos_plus, sin_plus.
  repeat (f_equal; try lra).
Qed.
Print Assumptions C133_rotations_compose.

Example C133_quarter : from_matrix 0 1 = PI / 2.
Proof. unfold from_matrix, atan2. rdec; lra. Qed.

(** * C134: degrees *)

Theorem C134_degrees_round_trip : forall d r,
  degrees_to_radians (radians_to_degrees r) = r /\ radians_to_degrees (degrees_to_radians d) = d
  /\ -180 <= radians_to_degrees (from_degrees d) <= 180
  /\ exists k : Z, radians_to_degrees (from_degrees d) = d + 360 * IZR k.
Proof.
  intros d r. pose proof PI_RGT_0. unfold degrees_to_radians, radians_to_degrees, from_degrees, mk_angle, degrees_to_radians.
  split; [field; lra|]. split; [field; lra|]. destruct (wrap_range (d * (PI / 180))) as [A B].
  assert (P : 0 < 180 / PI) by (apply Rmult_lt_0_compat; [lra|now apply Rinv_0_lt_compat]).
  split.
  - assert (E : PI * (180 / PI) = 180) by (field; lra).
    split; [assert (- PI * (180 / PI) <= wrap (d * (PI / 180)) * (180 / PI)) by (apply Rmult_le_compat_r; lra)
           |assert (wrap (d * (PI / 180)) * (180 / PI) <= PI * (180 / PI)) by (apply Rmult_le_compat_r; lra)]; lra.
  - destruct (wrap_same (d * (PI / 180))) as [k K]. exists k. rewrite K. field. lra.
Qed.
Print Assumptions C134_degrees_round_trip.

(** What remains of C132. [pi_s] is the float nearest to pi; it is above the double nearest to pi. *)
Definition pi_s : R := 13176795 * / 2 ^ 22.
Lemma pi_s_F : pi_s = F2R (Float radix2 13176795 (-22)).
Proof. unfold F2R, pi_s. cbn [Fnum Fexp]. f_equal. rewrite pow_IZR. reflexivity. Qed.
Lemma pi_s_format : is_float pi_s.
Proof. rewrite pi_s_F. apply generic_format_FLT. exists (Float radix2 13176795 (-22)); auto; simpl; lia. Qed.
Lemma two_pi_s_format : is_float (2 * pi_s).
Proof.
  replace (2 * pi_s) with (F2R (Float radix2 13176795 (-21))).
  - apply generic_format_FLT. exists (Float radix2 13176795 (-21)); auto; simpl; lia.
  - rewrite pi_s_F. unfold F2R. cbn [Fnum Fexp]. change (-21)%Z with (-22 + 1)%Z. rewrite bpow_plus. change (bpow radix2 1) with 2. ring.
Qed.
Lemma pi_s_near : 0 < pi_s - pi_d < / 2 ^ 23.
Proof. unfold pi_s, pi_d. lra. Qed.
Lemma pi_s_big : 3 < pi_s < 4.
Proof. unfold pi_s. lra. Qed.
Lemma fexp_s : Valid_exp (FLT_exp (-149) 24). Proof. now apply FLT_exp_valid. Qed.
Lemma pi_s_ulp : ulp radix2 (FLT_exp (-149) 24) pi_s = / 2 ^ 22.
Proof.
  pose proof pi_s_big. rewrite ulp_neq_0 by lra. unfold cexp. replace (mag radix2 pi_s : Z) with 2%Z.
  - change (bpow radix2 (FLT_exp (-149) 24 2)) with (/ IZR (2 ^ Z.of_nat 22)). now rewrite <- pow_IZR.
  - symmetry. apply mag_unique_pos. cbn. lra.
Qed.
Lemma pi_s_succ : succ radix2 (FLT_exp (-149) 24) pi_s = pi_s + / 2 ^ 22.
Proof. pose proof pi_s_big. rewrite succ_eq_pos by lra. now rewrite pi_s_ulp. Qed.
Lemma pi_s_pred : pred radix2 (FLT_exp (-149) 24) pi_s = pi_s - / 2 ^ 22.
Proof.
  pose proof pi_s_big. pose proof fexp_s. rewrite pred_eq_pos by lra. unfold pred_pos. rewrite Req_bool_false; [now rewrite pi_s_ulp|].
  replace (mag radix2 pi_s : Z) with 2%Z; [cbn; lra|]. symmetry. apply mag_unique_pos. cbn. lra.
Qed.
Lemma rnf_le x y : is_float y -> x <= y -> rnf x <= y.
Proof. intros F H. apply round_le_generic; auto; try (now apply FLT_exp_valid); apply valid_rnd_N. Qed.
Lemma rnf_ge x y : is_float y -> y <= x -> y <= rnf x.
Proof. intros F H. apply round_ge_generic; auto; try (now apply FLT_exp_valid); apply valid_rnd_N. Qed.
Lemma fopp x : is_float x -> is_float (- x). Proof. apply generic_format_opp. Qed.
Lemma rnf_top x : x <= 2 * pi_s - pi_d -> rnf x <= pi_s.
Proof. intros H. pose proof pi_s_near. pose proof fexp_s. apply round_N_le_midp; [auto|exact pi_s_format|]. rewrite pi_s_succ. lra. Qed.
Lemma rnf_bottom x : - (2 * pi_s - pi_d) <= x -> - pi_s <= rnf x.
Proof. intros H. pose proof pi_s_near. pose proof fexp_s. apply round_N_ge_midp; [auto|apply fopp; exact pi_s_format|]. rewrite pred_opp, pi_s_succ. lra. Qed.
Lemma corner_format : is_double (2 * pi_s - pi_d).
Proof.
  replace (2 * pi_s - pi_d) with (F2R (Float radix2 (13176795 * 2 ^ 30 - 7074237752028440) (-51))).
  - apply generic_format_FLT. exists (Float radix2 (13176795 * 2 ^ 30 - 7074237752028440) (-51)); auto; [vm_compute; reflexivity|cbn; lia].
  - unfold F2R, pi_s, pi_d. cbn [Fnum Fexp]. change (bpow radix2 (-51)) with (/ IZR (2 ^ Z.of_nat 51)). rewrite <- pow_IZR. rewrite minus_IZR, mult_IZR. lra.
Qed.

(** The result is never beyond the float nearest to pi, and wrapping it again changes it only if it is that float or its negative. *)
Theorem C132_single_precision_partial : forall a, is_float a ->
  - pi_s <= wrap_s a <= pi_s /\ (wrap_s (wrap_s a) = wrap_s a \/ wrap_s a = pi_s \/ wrap_s a = - pi_s).
Proof.
  intros a F. pose proof pi_s_near as NR. pose proof pi_s_big as BG. pose proof pi_d_pos. pose proof pi_s_format as FS. pose proof two_pi_s_format as F2. pose proof corner_format as FC. pose proof pi_d_format as FD.
  set (m := rnf (rnd (2 * pi_d))). assert (M2 : 0 < m <= 2 * pi_s).
  { unfold m. split; [|apply rnf_le; auto; apply Rle_trans with (2 * pi_d); [rewrite two_pi_d; lra|lra]]. apply Rlt_le_trans with pi_s; [lra|]. apply rnf_ge; auto. rewrite two_pi_d. lra. }
  assert (R : - pi_s <= wrap_s a <= pi_s /\ is_float (wrap_s a)).
  { assert (FR : forall x, is_float (rnf x)) by (intros; apply generic_format_round; [apply fexp_s|apply valid_rnd_N]).
    assert (NEG : a < - pi_d -> - pi_s <= rnf (rnd (fmod (rnf (rnd (a - pi_d))) m + pi_d)) <= pi_s).
    { intros L. assert (X : rnf (rnd (a - pi_d)) <= - pi_s).
      { apply rnf_le; [now apply fopp|]. apply Rle_trans with (- (2 * pi_d)); [|lra]. apply rnd_le_format; [|lra]. apply opp_format. rewrite <- two_pi_d. apply generic_format_round; [now apply FLT_exp_valid|apply valid_rnd_N]. }
      pose proof (fmod_neg (rnf (rnd (a - pi_d))) m ltac:(lra) ltac:(lra)) as B. split.
      - apply rnf_bottom. apply rnd_ge_format; [now apply opp_format|lra].
      - apply rnf_le; auto. apply Rle_trans with pi_d; [|lra]. apply rnd_le_format; auto. lra. }
    assert (POS : pi_d < a -> - pi_s <= rnf (rnd (fmod (rnf (rnd (a + pi_d))) m - pi_d)) <= pi_s).
    { intros L. assert (X : 0 <= rnf (rnd (a + pi_d))).
      { apply rnf_ge; [apply generic_format_0|]. apply rnd_ge_format; [apply generic_format_0|lra]. }
      pose proof (fmod_pos (rnf (rnd (a + pi_d))) m ltac:(lra) ltac:(lra)) as B. split.
      - apply rnf_ge; [now apply fopp|]. apply Rle_trans with (- pi_d); [lra|]. apply rnd_ge_format; [now apply opp_format|lra].
      - apply rnf_top. apply rnd_le_format; auto. lra. }
    unfold wrap_s. fold m. destruct (Rle_dec a pi_d); [destruct (Rle_dec (- pi_d) a); [split; [lra|exact F]|]|]; (destruct (Rlt_dec a 0); try lra); (split; [|apply FR]); auto; [apply NEG; lra|apply POS; lra]. }
  destruct R as [R FW]. split; [exact R|]. set (w := wrap_s a) in *.
  destruct (Req_dec w pi_s) as [E|E]; [tauto|]. destruct (Req_dec w (- pi_s)) as [E'|E']; [tauto|]. left.
  assert (U : forall z, is_float z -> z < pi_s -> z <= pi_d).
  { intros z FZ LZ. pose proof fexp_s. apply (pred_ge_gt radix2 (FLT_exp (-149) 24)) in LZ; auto. rewrite pi_s_pred in LZ. lra. }
  pose proof (U w FW ltac:(lra)). pose proof (U (- w) (fopp _ FW) ltac:(lra)). unfold wrap_s. destruct (Rle_dec w pi_d); [|lra]. destruct (Rle_dec (- pi_d) w); [reflexivity|lra].
Qed.
Print Assumptions C132_single_precision_partial.
Example C132_case : is_float 4 /\ pi_d < 4.
Proof.
  split; [|unfold pi_d; lra]. replace 4 with (F2R (Float radix2 4 0)) by (unfold F2R; cbn; ring). apply generic_format_FLT. exists (Float radix2 4 0); auto; cbn; lia.
Qed.

Lemma rnf_big x : 1 <= Rabs x -> Rabs (rnf x - x) <= / 2 * / 2 ^ 23 * Rabs x.
Proof.
  intros H. pose proof (relative_error_N_FLT radix2 (-149) 24 ltac:(lia) (fun z => negb (Z.even z)) x) as R.
  change (round radix2 (FLT_exp (-149) 24) (Znearest (fun z => negb (Z.even z))) x) with (rnf x) in R.
  replace (bpow radix2 (- (24) + 1)) with (/ 2 ^ 23) in R by (rewrite pow_IZR; reflexivity). apply R.
  apply Rle_trans with (2 := H). change 1 with (bpow radix2 0). apply bpow_le. lia.
Qed.
Lemma prec24 : Prec_gt_0 24. Proof. easy. Qed.
Lemma rnf_small y : Rabs y <= 4 -> Rabs (rnf y - y) <= 2 * / 2 ^ 23.
Proof.
  intros H. pose proof prec24 as P24. pose proof (error_le_half_ulp radix2 (FLT_exp (-149) 24) (fun z => negb (Z.even z)) y) as E.
  change (round radix2 (FLT_exp (-149) 24) (Znearest (fun z => negb (Z.even z))) y) with (rnf y) in E.
  assert (U : ulp radix2 (FLT_exp (-149) 24) y <= 4 * / 2 ^ 23).
  { apply Rle_trans with (ulp radix2 (FLT_exp (-149) 24) 4).
    - apply ulp_le; [apply FLT_exp_valid; easy|apply FLT_exp_monotone|]. rewrite (Rabs_pos_eq 4) by lra. exact H.
    - pose proof (ulp_FLT_le radix2 (-149) 24 4) as L. rewrite (Rabs_pos_eq 4) in L by lra.
      replace (bpow radix2 (1 - 24)) with (/ 2 ^ 23) in L by (rewrite pow_IZR; reflexivity). apply L.
      apply Rle_trans with (bpow radix2 0); [apply bpow_le; lia|cbn; lra]. }
  lra.
Qed.
(** Rounding twice. *)
Lemma both_big x : 2 <= Rabs x -> Rabs (rnf (rnd x) - x) <= 0.51 * / 2 ^ 23 * Rabs x.
Proof.
  intros H. pose proof (rnd_big x ltac:(lra)) as A.
  assert (V : / 2 ^ 52 <= / 1000 * / 2 ^ 23 /\ 0 < / 2 ^ 52 /\ 0 < / 2 ^ 23 <= / 1000).
  { rewrite !pow_IZR. change (2 ^ Z.of_nat 52)%Z with 4503599627370496%Z. change (2 ^ Z.of_nat 23)%Z with 8388608%Z. lra. }
  set (u := / 2 ^ 23) in *. set (e := / 2 ^ 52) in *. pose proof (Rabs_pos x).
  assert (R1 : Rabs (rnd x) <= (1 + e) * Rabs x).
  { replace (rnd x) with ((rnd x - x) + x) by ring. eapply Rle_trans; [apply Rabs_triang|]. nra. }
  assert (R2 : 1 <= Rabs (rnd x)).
  { pose proof (Rabs_triang (x - rnd x) (rnd x)) as T. replace (x - rnd x + rnd x) with x in T by ring. rewrite (Rabs_minus_sym x (rnd x)) in T. nra. }
  pose proof (rnf_big (rnd x) R2) as B. fold u in B. replace (rnf (rnd x) - x) with ((rnf (rnd x) - rnd x) + (rnd x - x)) by ring.
  eapply Rle_trans; [apply Rabs_triang|]. assert (/ 2 * u * Rabs (rnd x) <= / 2 * u * ((1 + e) * Rabs x)) by (apply Rmult_le_compat_l; lra).
  assert (e * Rabs x <= / 1000 * u * Rabs x) by (apply Rmult_le_compat_r; lra). assert (u * e * Rabs x <= / 1000 * u * Rabs x).
  { apply Rmult_le_compat_r; [lra|]. assert (u * e <= / 1000 * e) by (apply Rmult_le_compat_r; lra). assert (/1000 * e <= / 1000 * u) by lra. lra. }
  assert (0 <= u * Rabs x) by (apply Rmult_le_pos; lra). nra.
Qed.
Lemma both_small y : Rabs y <= 3.9 -> Rabs (rnf (rnd y) - y) <= 2.1 * / 2 ^ 23.
Proof.
  intros H. pose proof (rnd_small y ltac:(lra)) as A.
  assert (V : / 2 ^ 52 <= / 1000 * / 2 ^ 23 /\ 0 < / 2 ^ 52 /\ 0 < / 2 ^ 23 <= / 1000).
  { rewrite !pow_IZR. change (2 ^ Z.of_nat 52)%Z with 4503599627370496%Z. change (2 ^ Z.of_nat 23)%Z with 8388608%Z. lra. }
  assert (R1 : Rabs (rnd y) <= 4) by (replace (rnd y) with ((rnd y - y) + y) by ring; eapply Rle_trans; [apply Rabs_triang|]; lra).
  pose proof (rnf_small _ R1) as B. replace (rnf (rnd y) - y) with ((rnf (rnd y) - rnd y) + (rnd y - y)) by ring. eapply Rle_trans; [apply Rabs_triang|]. lra.
Qed.
Lemma period : rnf (rnd (2 * pi_d)) = 2 * pi_s.
Proof.
  rewrite two_pi_d. pose proof pi_s_near. pose proof fexp_s as V. apply Rle_antisym.
  - apply rnf_le; [apply two_pi_s_format|lra].
  - apply round_N_ge_midp; [auto|apply two_pi_s_format|].
    assert (P : pred radix2 (FLT_exp (-149) 24) (2 * pi_s) <= 2 * pi_s - / 2 ^ 21).
    { pose proof pi_s_big. rewrite pred_eq_pos by lra. unfold pred_pos. rewrite Req_bool_false.
      - replace (ulp radix2 (FLT_exp (-149) 24) (2 * pi_s)) with (/ 2 ^ 21); [lra|]. rewrite ulp_neq_0 by lra. unfold cexp. replace (mag radix2 (2 * pi_s) : Z) with 3%Z.
        + change (bpow radix2 (FLT_exp (-149) 24 3)) with (/ IZR (2 ^ Z.of_nat 21)). now rewrite <- pow_IZR.
        + symmetry. apply mag_unique_pos. cbn. lra.
      - replace (mag radix2 (2 * pi_s) : Z) with 3%Z; [cbn; lra|]. symmetry. apply mag_unique_pos. cbn. lra. }
    lra.
Qed.
Lemma pi_s_error : 0 < pi_s - PI < 0.75 * / 2 ^ 23.
Proof. pose proof pi_bounds. unfold pi_s. rewrite !pow_IZR. change (2 ^ Z.of_nat 22)%Z with 4194304%Z. change (2 ^ Z.of_nat 23)%Z with 8388608%Z. lra. Qed.

(** The error: the result is close to an angle equivalent to the argument. *)
Theorem C132_single_error_partial : forall a, exists k : Z, Rabs (wrap_s a - (a + 2 * IZR k * PI)) <= (Rabs a + 8) * / 2 ^ 23.
Proof.
  intros a. pose proof pi_d_pos as P3. pose proof pi_s_error as PE. pose proof pi_s_near as NR. pose proof pi_s_big as BG.
  assert (P4 : 3.1 < pi_d < 3.2) by (unfold pi_d; rewrite pow_IZR; change (2 ^ Z.of_nat 51)%Z with 2251799813685248%Z; lra).
  assert (NR2 : pi_s - pi_d <= / 2 ^ 23) by lra.
  set (u := / 2 ^ 23) in *. assert (U : 0 < u < / 1000) by (unfold u; rewrite pow_IZR; change (2 ^ Z.of_nat 23)%Z with 8388608%Z; lra).
  unfold wrap_s. rewrite period. rdec; try lra; try (exists 0%Z; rewrite Rmult_0_r, Rmult_0_l, Rplus_0_r; replace (a - a) with 0 by ring; rewrite Rabs_R0; pose proof (Rabs_pos a); nra).
  - set (x := a - pi_d). assert (X : x < - (2 * pi_d)) by (unfold x; lra).
    pose proof (both_big x ltac:(rewrite Rabs_left1; lra)) as B. fold u in B. rewrite (Rabs_left1 x) in B by lra. set (rr := rnf (rnd x)) in *. apply Rabs_le_inv in B.
    assert (RL : - rr <= - x * (1 + u) /\ rr < 0) by nra.
    pose proof (fmod_neg rr (2 * pi_s) ltac:(lra) ltac:(lra)) as M. unfold fmod in M |- *. set (k := rtrunc (rr / (2 * pi_s))) in *. clearbody k.
    set (y := rr - 2 * pi_s * IZR k + pi_d). pose proof (both_small y ltac:(apply Rabs_le; unfold y; lra)) as S1. fold u in S1. apply Rabs_le_inv in S1.
    exists (- k)%Z. rewrite opp_IZR. rewrite (Rabs_left1 a) by lra.
    assert (K0 : IZR k <= 0) by (apply IZR_le; assert (IZR k < 1) as H by nra; apply lt_IZR in H; lia).
    set (K := IZR k) in *. set (z := rnf (rnd y)) in *.
    assert (E : z - (a + 2 * - K * PI) = (z - y) + (rr - x) - 2 * K * (pi_s - PI)) by (unfold y, x; ring).
    rewrite E. assert (K1 : - K * 6 <= - rr) by nra.
    assert (Q : - (2 * K * (pi_s - PI)) <= - rr * 0.25 * u).
    { assert (- K * (pi_s - PI) <= - K * (0.75 * u)) by (apply Rmult_le_compat_l; lra). assert (- K * 6 * u <= - rr * u) by (apply Rmult_le_compat_r; lra). lra. }
    assert (Q2 : 0 <= - (2 * K * (pi_s - PI))) by nra. assert (XB : - x <= - a + 3.2) by (unfold x; lra). clearbody x y rr z.
    assert (R2 : - rr * 0.25 * u <= - x * 0.3 * u) by (apply Rmult_le_compat_r; nra).
    assert (X2 : - x * u <= (- a + 3.2) * u) by (apply Rmult_le_compat_r; lra). assert (A0 : 0 <= - a * u) by (apply Rmult_le_pos; lra).
    clearbody u K. apply Rabs_le. split; lra.
  - set (x := a + pi_d). assert (X : 2 * pi_d < x) by (unfold x; lra).
    pose proof (both_big x ltac:(rewrite Rabs_pos_eq; lra)) as B. fold u in B. rewrite (Rabs_pos_eq x) in B by lra. set (rr := rnf (rnd x)) in *. apply Rabs_le_inv in B.
    assert (RL : rr <= x * (1 + u) /\ 0 < rr) by nra.
    pose proof (fmod_pos rr (2 * pi_s) ltac:(lra) ltac:(lra)) as M. unfold fmod in M |- *. set (k := rtrunc (rr / (2 * pi_s))) in *. clearbody k.
    set (y := rr - 2 * pi_s * IZR k - pi_d). pose proof (both_small y ltac:(apply Rabs_le; unfold y; lra)) as S1. fold u in S1. apply Rabs_le_inv in S1.
    exists (- k)%Z. rewrite opp_IZR. rewrite (Rabs_pos_eq a) by lra.
    assert (K0 : 0 <= IZR k) by (apply IZR_le; assert (-1 < IZR k) as H by nra; apply lt_IZR in H; lia).
    set (K := IZR k) in *. set (z := rnf (rnd y)) in *.
    assert (E : z - (a + 2 * - K * PI) = (z - y) + (rr - x) - 2 * K * (pi_s - PI)) by (unfold y, x; ring).
    rewrite E. assert (K1 : K * 6 <= rr) by nra.
    assert (Q : 2 * K * (pi_s - PI) <= rr * 0.25 * u).
    { assert (K * (pi_s - PI) <= K * (0.75 * u)) by (apply Rmult_le_compat_l; lra). assert (K * 6 * u <= rr * u) by (apply Rmult_le_compat_r; lra). lra. }
    assert (Q2 : 0 <= 2 * K * (pi_s - PI)) by nra. assert (XB : x <= a + 3.2) by (unfold x; lra). clearbody x y rr z.
    assert (R2 : rr * 0.25 * u <= x * 0.3 * u) by (apply Rmult_le_compat_r; nra).
    assert (X2 : x * u <= (a + 3.2) * u) by (apply Rmult_le_compat_r; lra). assert (A0 : 0 <= a * u) by (apply Rmult_le_pos; lra).
    clearbody u K. apply Rabs_le. split; lra.
Qed.
Print Assumptions C132_single_error_partial.
