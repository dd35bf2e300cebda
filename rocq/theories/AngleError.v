From Flocq Require Import Core Relative.
From Verif Require Import RBase AngleModel AngleProofs ConstProofs.
Open Scope R_scope.

(** How far rounding takes the result away from an equivalent angle. *)
Lemma pi_d_near : 0 < PI - pi_d < / 2 ^ 52.
Proof. unfold pi_d. rewrite !pow_IZR. pose proof pi_bounds. split; [|change (2 ^ Z.of_nat 52)%Z with 4503599627370496%Z]; change (2 ^ Z.of_nat 51)%Z with 2251799813685248%Z; lra. Qed.
Lemma rnd_big x : 1 <= Rabs x -> Rabs (rnd x - x) <= / 2 * / 2 ^ 52 * Rabs x.
Proof.
  intros H. pose proof (relative_error_N_FLT radix2 (-1074) 53 ltac:(lia) (fun z => negb (Z.even z)) x) as R.
  change (round radix2 (FLT_exp (-1074) 53) (Znearest (fun z => negb (Z.even z))) x) with (rnd x) in R.
  replace (bpow radix2 (- (53) + 1)) with (/ 2 ^ 52) in R by (rewrite pow_IZR; reflexivity). apply R.
  apply Rle_trans with (2 := H). change 1 with (bpow radix2 0). apply bpow_le. lia.
Qed.
Lemma prec53 : Prec_gt_0 53. Proof. easy. Qed.
Lemma rnd_small y : Rabs y <= 4 -> Rabs (rnd y - y) <= 2 * / 2 ^ 52.
Proof.
  intros H. pose proof prec53 as P53. pose proof (error_le_half_ulp radix2 (FLT_exp (-1074) 53) (fun z => negb (Z.even z)) y) as E.
  change (round radix2 (FLT_exp (-1074) 53) (Znearest (fun z => negb (Z.even z))) y) with (rnd y) in E.
  assert (U : ulp radix2 (FLT_exp (-1074) 53) y <= 4 * / 2 ^ 52).
  { apply Rle_trans with (ulp radix2 (FLT_exp (-1074) 53) 4).
    - apply ulp_le; [apply FLT_exp_valid; easy|apply FLT_exp_monotone|]. rewrite (Rabs_pos_eq 4) by lra. exact H.
    - pose proof (ulp_FLT_le radix2 (-1074) 53 4) as L. rewrite (Rabs_pos_eq 4) in L by lra.
      replace (bpow radix2 (1 - 53)) with (/ 2 ^ 52) in L by (rewrite pow_IZR; reflexivity). apply L.
      apply Rle_trans with (bpow radix2 0); [apply bpow_le; lia|cbn; lra]. }
  lra.
Qed.
Lemma wrap_d_error a : exists k : Z, Rabs (wrap_d a - (a + 2 * IZR k * PI)) <= (Rabs a + 8) * / 2 ^ 52.
Proof.
  pose proof pi_d_pos as P3. pose proof pi_d_near as PN. pose proof two_pi_d as TP. set (u := / 2 ^ 52) in *.
  assert (U : 0 < u < / 1000) by (unfold u; rewrite pow_IZR; change (2 ^ Z.of_nat 52)%Z with 4503599627370496%Z; lra).
  assert (P4 : pi_d < 3.2) by (unfold pi_d; rewrite pow_IZR; change (2 ^ Z.of_nat 51)%Z with 2251799813685248%Z; lra).
  unfold wrap_d. rewrite TP. rdec; try lra; try (exists 0%Z; rewrite Rmult_0_r, Rmult_0_l, Rplus_0_r; replace (a - a) with 0 by ring; rewrite Rabs_R0; pose proof (Rabs_pos a); nra).
  - assert (F : is_double (- (2 * pi_d))) by (apply opp_format; rewrite <- TP; apply generic_format_round; [apply FLT_exp_valid; easy|apply valid_rnd_N]).
    set (x := a - pi_d). assert (X : x < - (2 * pi_d)) by (unfold x; lra).
    pose proof (rnd_big x ltac:(rewrite Rabs_left1; lra)) as B. fold u in B. rewrite (Rabs_left1 x) in B by lra.
    assert (L : rnd x <= - (2 * pi_d)) by (apply rnd_le_format; auto; lra).
    pose proof (fmod_neg (rnd x) (2 * pi_d) ltac:(lra) ltac:(lra)) as M. unfold fmod in M |- *. set (k := rtrunc (rnd x / (2 * pi_d))) in *. clearbody k.
    set (y := rnd x - 2 * pi_d * IZR k + pi_d). pose proof (rnd_small y ltac:(apply Rabs_le; unfold y; lra)) as S1. fold u in S1.
    apply Rabs_le_inv in B, S1. exists (- k)%Z. rewrite opp_IZR. rewrite (Rabs_left1 a) by lra.
    set (K := IZR k) in *. set (rr := rnd x) in *. set (z := rnd y) in *.
    assert (E : z - (a + 2 * - K * PI) = (z - y) + (rr - x) + 2 * K * (PI - pi_d)) by (unfold y, x; ring).
    rewrite E. assert (K0 : K < 0) by nra. assert (K1 : - K * 6 <= - rr) by nra. assert (R1 : - rr <= - x * (1 + u)) by nra.
    assert (Q : - (2 * K * (PI - pi_d)) <= - rr * / 3 * u).
    { assert (0 <= - K) by lra. assert (-K * (PI - pi_d) <= - K * u) by (apply Rmult_le_compat_l; lra). nra. }
    assert (Q2 : 2 * K * (PI - pi_d) <= 0) by nra.
    assert (XB : - x <= - a + 3.2) by (unfold x; lra). clearbody x y rr z.
    assert (R2 : - rr * / 3 * u <= - x * 0.4 * u) by (apply Rmult_le_compat_r; nra).
    assert (X2 : - x * u <= (- a + 3.2) * u) by (apply Rmult_le_compat_r; lra). assert (A0 : 0 <= - a * u) by (apply Rmult_le_pos; lra).
    clearbody u K. apply Rabs_le. split. { lra. } lra.
  - assert (F : is_double (2 * pi_d)) by (rewrite <- TP; apply generic_format_round; [apply FLT_exp_valid; easy|apply valid_rnd_N]).
    set (x := a + pi_d). assert (X : 2 * pi_d < x) by (unfold x; lra).
    pose proof (rnd_big x ltac:(rewrite Rabs_pos_eq; lra)) as B. fold u in B. rewrite (Rabs_pos_eq x) in B by lra.
    assert (L : 2 * pi_d <= rnd x) by (apply rnd_ge_format; auto; lra).
    pose proof (fmod_pos (rnd x) (2 * pi_d) ltac:(lra) ltac:(lra)) as M. unfold fmod in M |- *. set (k := rtrunc (rnd x / (2 * pi_d))) in *. clearbody k.
    set (y := rnd x - 2 * pi_d * IZR k - pi_d). pose proof (rnd_small y ltac:(apply Rabs_le; unfold y; lra)) as S1. fold u in S1.
    apply Rabs_le_inv in B, S1. exists (- k)%Z. rewrite opp_IZR. rewrite (Rabs_pos_eq a) by lra.
    set (K := IZR k) in *. set (rr := rnd x) in *. set (z := rnd y) in *.
    assert (E : z - (a + 2 * - K * PI) = (z - y) + (rr - x) + 2 * K * (PI - pi_d)) by (unfold y, x; ring).
    rewrite E. assert (K0 : 0 < K) by nra. assert (K1 : K * 6 <= rr) by nra. assert (R1 : rr <= x * (1 + u)) by nra.
    assert (Q : 2 * K * (PI - pi_d) <= rr * / 3 * u).
    { assert (K * (PI - pi_d) <= K * u) by (apply Rmult_le_compat_l; lra). nra. }
    assert (Q2 : 0 <= 2 * K * (PI - pi_d)) by nra.
    assert (XB : x <= a + 3.2) by (unfold x; lra). clearbody x y rr z.
    assert (R2 : rr * / 3 * u <= x * 0.4 * u) by (apply Rmult_le_compat_r; nra).
    assert (X2 : x * u <= (a + 3.2) * u) by (apply Rmult_le_compat_r; lra). assert (A0 : 0 <= a * u) by (apply Rmult_le_pos; lra).
    clearbody u K. apply Rabs_le. split. { lra. } lra.
Qed.
