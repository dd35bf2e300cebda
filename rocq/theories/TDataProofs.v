(** Specifications and lemmas for time stamps as doubles and TimeData. *)
From Coq Require Import List ZArith Lia.
From Flocq Require Import Core.
From Verif Require Import RBase TimeModel TimeProofs AngleModel Pose3Model Pose3Proofs TDataModel.
Import ListNotations.
Open Scope R_scope.

(** * Truncation *)

Lemma rtrunc_unique x z : 0 <= x -> IZR z <= x < IZR z + 1 -> rtrunc x = z.
Proof.
  intros P [L U]. destruct (rtrunc_pos x P) as [L' U']. assert (z < rtrunc x + 1)%Z by (apply lt_IZR; rewrite plus_IZR; lra).
  assert (rtrunc x < z + 1)%Z by (apply lt_IZR; rewrite plus_IZR; lra). lia.
Qed.
Lemma rtrunc_opp x : rtrunc (- x) = (- rtrunc x)%Z.
Proof.
  destruct (Rtotal_order x 0) as [H|[->|H]].
  - rewrite <- (Z.opp_involutive (rtrunc (- x))). f_equal. destruct (rtrunc_neg x H) as [L U]. rewrite (rtrunc_unique (- x) (- rtrunc x)); [lia|lra|]. rewrite opp_IZR. lra.
  - rewrite Ropp_0, (rtrunc_unique 0 0); [reflexivity|lra|lra].
  - destruct (rtrunc_pos x (Rlt_le _ _ H)) as [L U]. unfold rtrunc at 1. destruct (Rle_dec 0 (- x)); [lra|]. rewrite Ropp_involutive. f_equal.
    pose proof (Int_part_spec x). unfold rtrunc. destruct (Rle_dec 0 x); [reflexivity|lra].
Qed.
Lemma rtrunc_range x : 0 <= x -> (0 <= rtrunc x)%Z.
Proof. intros P. destruct (rtrunc_pos x P) as [L U]. assert (-1 < rtrunc x)%Z by (apply lt_IZR; lra). lia. Qed.
Lemma cast_ok x : Rabs x < 9223372036854775808 -> cast_long x = FOk (rtrunc x).
Proof.
  intros H. unfold cast_long. assert (-9223372036854775808 < rtrunc x < 9223372036854775808)%Z.
  { destruct (Rle_lt_dec 0 x) as [P|P].
    - rewrite Rabs_pos_eq in H by exact P. destruct (rtrunc_pos x P). pose proof (rtrunc_range x P). split; [lia|]. apply lt_IZR. lra.
    - rewrite Rabs_left in H by exact P. destruct (rtrunc_neg x P). split; apply lt_IZR; [|lra]. lra. }
  replace (-9223372036854775808 <=? rtrunc x)%Z with true by (symmetry; apply Z.leb_le; lia).
  replace (rtrunc x <=? 9223372036854775807)%Z with true by (symmetry; apply Z.leb_le; lia). reflexivity.
Qed.

(** * Doubles *)

Lemma rnd_double x : is_double x -> rnd x = x.
Proof. intros H. apply round_generic; [apply valid_rnd_N|exact H]. Qed.
Lemma rnd_le x y : x <= y -> rnd x <= rnd y.
Proof. apply round_le; [apply FLT_exp_valid; unfold Prec_gt_0; lia|apply valid_rnd_N]. Qed.
Lemma rnd_0 : rnd 0 = 0.
Proof. apply round_0. apply valid_rnd_N. Qed.
Lemma rnd_opp x : rnd (- x) = - rnd x.
Proof. apply round_NE_opp. Qed.
Lemma int_double z : (Z.abs z < 9007199254740992)%Z -> is_double (IZR z).
Proof. intros H. replace (IZR z) with (IZR z * bpow radix2 0) by (cbn; ring). apply double_format; [exact H|lia]. Qed.
Lemma rnd_int z : (Z.abs z < 9007199254740992)%Z -> rnd (IZR z) = IZR z.
Proof. intros H. now apply rnd_double, int_double. Qed.
(** The error of rounding below a power of two. *)
Lemma rnd_error x e : (-1000 <= e)%Z -> Rabs x <= bpow radix2 e -> Rabs (rnd x - x) <= bpow radix2 (e - 54).
Proof.
  intros E H. destruct (Req_dec x 0) as [->|N].
  - rewrite rnd_0, Rminus_0_r, Rabs_R0. apply bpow_ge_0.
  - assert (VE : Valid_exp (FLT_exp (-1074) 53)) by (apply FLT_exp_valid; unfold Prec_gt_0; lia).
    destruct (Rle_lt_or_eq_dec _ _ H) as [L|Eq].
    + pose proof (error_le_half_ulp radix2 (FLT_exp (-1074) 53) (fun t => negb (Z.even t)) x) as Q. fold (rnd x) in Q.
      apply Rle_trans with (1 := Q). rewrite ulp_neq_0 by exact N. unfold cexp.
      assert (MG : (mag radix2 x <= e)%Z) by now apply mag_le_bpow.
      replace (bpow radix2 (e - 54)) with (/ 2 * bpow radix2 (e - 53)).
      * apply Rmult_le_compat_l; [lra|]. apply bpow_le. unfold FLT_exp. lia.
      * replace (e - 53)%Z with (1 + (e - 54))%Z by lia. rewrite bpow_plus. cbn. lra.
    + assert (D : is_double x).
      { unfold Rabs in Eq. destruct (Rcase_abs x).
        - replace x with (- bpow radix2 e) by lra. apply generic_format_opp. apply generic_format_bpow. unfold FLT_exp. lia.
        - rewrite Eq. apply generic_format_bpow. unfold FLT_exp. lia. }
      rewrite rnd_double by exact D. replace (x - x) with 0 by ring. rewrite Rabs_R0. apply bpow_ge_0.
Qed.

(** The whole and the fractional part of a double are doubles; the fraction stays away from one. *)
Lemma double_parts x : is_double x -> 0 <= x ->
  is_double (IZR (rtrunc x)) /\ is_double (x - IZR (rtrunc x)) /\ 0 <= x - IZR (rtrunc x) <= 1 - bpow radix2 (-53).
Proof.
  intros D P. apply FLT_format_generic in D; [|unfold Prec_gt_0; lia]. destruct D as [[m e] X M E]. cbn in M, E. unfold F2R in X. cbn in X.
  change (Z.pow_pos 2 53) with 9007199254740992%Z in M.
  assert (HALF : 0 < bpow radix2 (-53) <= 1).
  { split; [apply bpow_gt_0|]. change 1 with (bpow radix2 0). apply bpow_le. lia. }
  destruct (Z_le_gt_dec 0 e) as [EP|EN].
  - assert (XI : x = IZR (m * 2 ^ e)) by (rewrite X, mult_IZR; f_equal; rewrite <- IZR_Zpower by exact EP; reflexivity).
    assert (T : rtrunc x = (m * 2 ^ e)%Z) by (apply rtrunc_unique; [exact P|rewrite XI; lra]). rewrite T, <- XI.
    replace (x - x) with 0 by ring. split; [|split; [apply generic_format_0|lra]]. rewrite X. now apply double_format.
  - set (q := (2 ^ (- e))%Z). assert (QP : (0 < q)%Z) by (apply Z.pow_pos_nonneg; lia).
    assert (QB : IZR q * bpow radix2 e = 1).
    { unfold q. change 2%Z with (radix_val radix2). rewrite IZR_Zpower by lia. rewrite <- bpow_plus. replace (- e + e)%Z with 0%Z by lia. reflexivity. }
    assert (B : 0 < bpow radix2 e) by apply bpow_gt_0.
    assert (MP : (0 <= m)%Z). { apply le_IZR. apply Rmult_le_reg_r with (1 := B). rewrite Rmult_0_l, <- X. exact P. }
    pose proof (Z.div_mod m q ltac:(lia)) as DM. pose proof (Z.mod_pos_bound m q QP) as MB.
    assert (XD : x = IZR (m / q) + IZR (m mod q) * bpow radix2 e).
    { rewrite X. apply (f_equal IZR) in DM. rewrite plus_IZR, mult_IZR in DM. rewrite DM.
      replace (IZR (m / q)) with (IZR (m / q) * (IZR q * bpow radix2 e)) at 2 by (rewrite QB; ring). ring. }
    assert (T : rtrunc x = (m / q)%Z).
    { apply rtrunc_unique; [exact P|]. rewrite XD.
      assert (0 <= IZR (m mod q) * bpow radix2 e) by (apply Rmult_le_pos; [apply IZR_le; lia|lra]).
      assert (IZR (m mod q) * bpow radix2 e < IZR q * bpow radix2 e) by (apply Rmult_lt_compat_r; [exact B|apply IZR_lt; lia]). lra. }
    assert (FR : x - IZR (rtrunc x) = IZR (m mod q) * bpow radix2 e).
    { rewrite T, XD. ring. }
    assert (ML : (m mod q <= m)%Z) by (apply Z.mod_le; lia). assert (DL : (m / q <= m)%Z) by (apply Z.div_le_upper_bound; nia).
    assert (DP : (0 <= m / q)%Z) by (apply Z.div_pos; lia).
    split; [|split].
    + rewrite T. apply int_double. lia.
    + rewrite FR. apply double_format; [lia|exact E].
    + rewrite FR. split; [apply Rmult_le_pos; [apply IZR_le; lia|lra]|].
      destruct (Z_le_gt_dec (-53) e) as [E53|E53].
      * assert (IZR (m mod q) * bpow radix2 e <= (IZR q - 1) * bpow radix2 e).
        { apply Rmult_le_compat_r; [lra|]. rewrite <- minus_IZR. apply IZR_le. lia. }
        assert (bpow radix2 (-53) <= bpow radix2 e) by (apply bpow_le; lia). lra.
      * assert (IZR (m mod q) <= IZR 9007199254740992) by (apply IZR_le; lia).
        assert (BE : bpow radix2 e <= bpow radix2 (-54)) by (apply bpow_le; lia).
        assert (IZR (m mod q) * bpow radix2 e <= IZR 9007199254740992 * bpow radix2 (-54)).
        { apply Rmult_le_compat; try lra; apply IZR_le; lia. }
        assert (B54 : bpow radix2 (-54) = / IZR 18014398509481984) by reflexivity. assert (B53 : bpow radix2 (-53) = / IZR 9007199254740992) by reflexivity.
        rewrite B54 in *. rewrite B53 in *. lra.
Qed.

(** * Making a time stamp from a double *)

Definition bp23 : R := bpow radix2 (-24).
Lemma bp23_value : bp23 = / 16777216.
Proof. reflexivity. Qed.
Lemma of_double_pos x : is_double x -> 0 <= x < 9223372036854775808 ->
  exists n, ts_of_double rnd x = FOk (TS (rtrunc x) n) /\ (0 <= n <= 999999999)%Z /\
    IZR n <= (x - IZR (rtrunc x)) * 1000000000 + bp23 /\ (x - IZR (rtrunc x)) * 1000000000 - bp23 < IZR n + 1.
Proof.
  intros D [P U]. destruct (double_parts x D P) as (D1 & D2 & F0 & F1). unfold ts_of_double. rewrite cast_ok by (rewrite Rabs_pos_eq; lra). cbn [fbind].
  rewrite (rnd_double _ D1), (rnd_double _ D2). set (f := x - IZR (rtrunc x)) in *. set (p := f * 1000000000).
  assert (B53 : bpow radix2 (-53) = / IZR 9007199254740992) by reflexivity. rewrite B53 in F1.
  assert (P0 : 0 <= p) by (unfold p; lra). assert (R0 : 0 <= rnd p) by (rewrite <- rnd_0; now apply rnd_le).
  assert (TOP : rnd (IZR 9007199254740991 / IZR 9007199254740992 * 1000000000) = IZR 8388607999999999 * bpow radix2 (-23)).
  { assert (B1 : bpow radix2 (-23) = / IZR 8388608) by reflexivity. assert (B2 : bpow radix2 (- -23) = IZR 8388608) by reflexivity.
    apply rnd_eval; [lia|lia|rewrite B1; lra|]. rewrite B2. apply Rabs_def1; lra. }
  assert (R1 : rnd p <= IZR 8388607999999999 * bpow radix2 (-23)).
  { rewrite <- TOP. apply rnd_le. unfold p. lra. }
  assert (B1 : bpow radix2 (-23) = / IZR 8388608) by reflexivity. rewrite B1 in R1.
  rewrite cast_ok by (rewrite Rabs_pos_eq; lra). cbn [fbind]. exists (rtrunc (rnd p)). split; [reflexivity|].
  destruct (rtrunc_pos _ R0) as [T1 T2]. split.
  - split; [now apply rtrunc_range|]. assert (rtrunc (rnd p) < 1000000000)%Z by (apply lt_IZR; lra). lia.
  - assert (ER : Rabs (rnd p - p) <= bp23).
    { apply (rnd_error p 30); [lia|]. change (bpow radix2 30) with (IZR 1073741824). rewrite Rabs_pos_eq by exact P0. unfold p. lra. }
    apply Rabs_le_inv in ER. lra.
Qed.
Lemma of_double_opp x s n : Rabs x < 9223372036854775808 -> ts_of_double rnd x = FOk (TS s n) -> (Z.abs n <= 999999999)%Z -> ts_of_double rnd (- x) = FOk (TS (- s) (- n)).
Proof.
  intros A E N. unfold ts_of_double in *. rewrite cast_ok in * by (rewrite ?Rabs_Ropp; exact A). cbn [fbind] in *. rewrite rtrunc_opp, opp_IZR, rnd_opp.
  set (p := rnd (rnd (x - rnd (IZR (rtrunc x))) * 1000000000)) in *.
  assert (Q : rnd (rnd (- x - - rnd (IZR (rtrunc x))) * 1000000000) = - p).
  { replace (- x - - rnd (IZR (rtrunc x))) with (- (x - rnd (IZR (rtrunc x)))) by ring. rewrite rnd_opp.
    replace (- rnd (x - rnd (IZR (rtrunc x))) * 1000000000) with (- (rnd (x - rnd (IZR (rtrunc x))) * 1000000000)) by ring. apply rnd_opp. }
  rewrite Q. unfold cast_long in *. rewrite rtrunc_opp. destruct (_ && _)%bool in E; [|discriminate]. cbn [fbind] in E. injection E as <- <-.
  replace (-9223372036854775808 <=? - rtrunc p)%Z with true by (symmetry; apply Z.leb_le; lia).
  replace (- rtrunc p <=? 9223372036854775807)%Z with true by (symmetry; apply Z.leb_le; lia). reflexivity.
Qed.

(** * Through a double and back *)

Definition secs (t : ts) : R := IZR (sec t * 1000000000 + nsec t) / 1000000000.
Lemma nano_const : Rabs (rnd (1 / 1000000000) - 1 / 1000000000) <= bpow radix2 (-83).
Proof.
  apply (rnd_error (1 / 1000000000) (-29)); [lia|]. assert (B : bpow radix2 (-29) = / IZR 536870912) by reflexivity. rewrite B, Rabs_pos_eq by lra. lra.
Qed.
Lemma nano_bounds : 0 < rnd (1 / 1000000000) < 2 / 1000000000.
Proof.
  pose proof nano_const as H. apply Rabs_le_inv in H. assert (bpow radix2 (-83) <= bpow radix2 (-53)) by (apply bpow_le; lia).
  assert (B53 : bpow radix2 (-53) = / IZR 9007199254740992) by reflexivity. rewrite B53 in *. lra.
Qed.
(** The nanoseconds as a fraction of a second. *)
Lemma nano_part n : (0 <= n < 1000000000)%Z ->
  0 <= rnd (rnd (IZR n) * rnd (1 / 1000000000)) <= 1 /\ Rabs (rnd (rnd (IZR n) * rnd (1 / 1000000000)) - IZR n / 1000000000) <= / 4503599627370496.
Proof.
  intros N. rewrite rnd_int by lia. set (c := rnd (1 / 1000000000)) in *. pose proof nano_const as H. apply Rabs_le_inv in H. fold c in H. pose proof nano_bounds as HB. fold c in HB.
  assert (N0 : 0 <= IZR n) by (apply IZR_le; lia). assert (N1 : IZR n <= 999999999) by (apply IZR_le; lia).
  assert (B83 : bpow radix2 (-83) = / IZR 9671406556917033397649408) by reflexivity. rewrite B83 in H.
  assert (E1 : Rabs (IZR n * c - IZR n / 1000000000) <= / IZR 9007199254740992).
  { replace (IZR n * c - IZR n / 1000000000) with (IZR n * (c - 1 / 1000000000)) by field. rewrite Rabs_mult, (Rabs_pos_eq (IZR n)) by exact N0.
    apply Rle_trans with (999999999 * / IZR 9671406556917033397649408); [|lra]. apply Rmult_le_compat; try lra; [apply Rabs_pos|]. apply Rabs_le. lra. }
  apply Rabs_le_inv in E1. assert (P0 : 0 <= IZR n * c) by (apply Rmult_le_pos; lra). assert (P1 : IZR n * c <= 1) by lra.
  assert (E2 : Rabs (rnd (IZR n * c) - IZR n * c) <= bpow radix2 (0 - 54)).
  { apply rnd_error; [lia|]. rewrite Rabs_pos_eq by exact P0. exact P1. }
  assert (B54 : bpow radix2 (0 - 54) = / IZR 18014398509481984) by reflexivity. rewrite B54 in E2. apply Rabs_le_inv in E2.
  split; [split|].
  - rewrite <- rnd_0. now apply rnd_le.
  - replace 1 with (rnd 1) by (apply rnd_int; lia). now apply rnd_le.
  - apply Rabs_le. lra.
Qed.
(** The double of a reading: how far from it, and never below the whole seconds. *)
Lemma double_of_reading t e : (0 <= sec t)%Z -> (0 <= nsec t < 1000000000)%Z -> (0 <= e <= 53)%Z -> (sec t + 1 <= 2 ^ e)%Z ->
  is_double (double_of_ts rnd t) /\ IZR (sec t) <= double_of_ts rnd t <= IZR (sec t) + 1 /\ Rabs (double_of_ts rnd t - secs t) <= bpow radix2 (e - 54) + / 4503599627370496.
Proof.
  intros S N E SE. unfold double_of_ts. destruct (nano_part (nsec t) N) as [[P0 P1] PE]. set (p := rnd (rnd (IZR (nsec t)) * rnd (1 / 1000000000))) in *.
  assert (E53 : (2 ^ e <= 2 ^ 53)%Z) by (apply Z.pow_le_mono_r; lia). change (2 ^ 53)%Z with 9007199254740992%Z in E53.
  assert (DS : is_double (IZR (sec t))) by (apply int_double; lia). rewrite (rnd_double _ DS).
  assert (S1 : is_double (IZR (sec t) + 1)).
  { rewrite <- plus_IZR. destruct (Z.eq_dec (sec t + 1) 9007199254740992) as [->|NE]; [|apply int_double; lia].
    change (IZR 9007199254740992) with (bpow radix2 53). apply generic_format_bpow. unfold FLT_exp. lia. }
  split; [|split].
  - apply generic_format_round; [apply FLT_exp_valid; unfold Prec_gt_0; lia|apply valid_rnd_N].
  - split.
    + rewrite <- (rnd_double _ DS) at 1. apply rnd_le. lra.
    + rewrite <- (rnd_double _ S1). apply rnd_le. lra.
  - assert (SR : 0 <= IZR (sec t)) by (apply IZR_le; lia).
    assert (ER : Rabs (rnd (IZR (sec t) + p) - (IZR (sec t) + p)) <= bpow radix2 (e - 54)).
    { apply rnd_error; [lia|]. rewrite Rabs_pos_eq by lra. rewrite <- (IZR_Zpower radix2) by lia. change (radix_val radix2) with 2%Z. apply Rle_trans with (IZR (sec t + 1)); [rewrite plus_IZR; lra|now apply IZR_le]. }
    apply Rabs_le_inv in ER. apply Rabs_le_inv in PE. unfold secs. rewrite plus_IZR, mult_IZR.
    replace ((IZR (sec t) * 1000000000 + IZR (nsec t)) / 1000000000) with (IZR (sec t) + IZR (nsec t) / 1000000000) by field.
    apply Rabs_le. lra.
Qed.
Lemma round_trip_short t : (0 <= sec t < 16777215)%Z -> (0 <= nsec t < 1000000000)%Z ->
  exists n, ts_of_double rnd (double_of_ts rnd t) = FOk (TS (sec t) n) /\ (n = nsec t \/ n = nsec t - 1)%Z.
Proof.
  intros S N. destruct (double_of_reading t 24 ltac:(lia) N ltac:(lia) ltac:(change (2 ^ 24)%Z with 16777216%Z; lia)) as (D & [L U] & ER).
  assert (B : bpow radix2 (24 - 54) = / IZR 1073741824) by reflexivity. rewrite B in ER. apply Rabs_le_inv in ER. set (d := double_of_ts rnd t) in *.
  unfold secs in ER. rewrite plus_IZR, mult_IZR in ER.
  assert (N1 : IZR (nsec t) <= 999999999) by (apply IZR_le; lia). assert (S0 : 0 <= IZR (sec t)) by (apply IZR_le; lia). assert (S1 : IZR (sec t) <= 16777215) by (apply IZR_le; lia).
  assert (T : rtrunc d = sec t) by (apply rtrunc_unique; lra).
  destruct (of_double_pos d D ltac:(lra)) as (n & E & NR & NU & NL). rewrite T in *. rewrite bp23_value in *. exists n. split; [exact E|].
  assert (n < nsec t + 1)%Z by (apply lt_IZR; rewrite plus_IZR; lra). assert (nsec t - 2 < n)%Z by (apply lt_IZR; rewrite minus_IZR; lra). lia.
Qed.
Lemma round_trip_long t : (0 <= sec t < 2147483647)%Z -> (0 <= nsec t < 1000000000)%Z ->
  exists t', ts_of_double rnd (double_of_ts rnd t) = FOk t' /\ (0 <= sec t' /\ 0 <= nsec t' < 1000000000)%Z /\
    (Z.abs ((sec t' * 1000000000 + nsec t') - (sec t * 1000000000 + nsec t)) <= 120)%Z.
Proof.
  intros S N. destruct (double_of_reading t 31 ltac:(lia) N ltac:(lia) ltac:(change (2 ^ 31)%Z with 2147483648%Z; lia)) as (D & [L U] & ER).
  assert (B : bpow radix2 (31 - 54) = / IZR 8388608) by reflexivity. rewrite B in ER. apply Rabs_le_inv in ER. set (d := double_of_ts rnd t) in *.
  assert (S0 : 0 <= IZR (sec t)) by (apply IZR_le; lia). assert (S1 : IZR (sec t) <= 2147483647) by (apply IZR_le; lia).
  destruct (of_double_pos d D ltac:(lra)) as (n & E & NR & NU & NL). rewrite bp23_value in *. exists (TS (rtrunc d) n). split; [exact E|]. cbn [sec nsec].
  pose proof (rtrunc_range d ltac:(lra)). split; [lia|]. unfold secs in ER. set (v := (sec t * 1000000000 + nsec t)%Z) in *. set (s := rtrunc d) in *.
  assert (s * 1000000000 + n < v + 121)%Z by (apply lt_IZR; rewrite !plus_IZR, mult_IZR; lra).
  assert (v - 121 < s * 1000000000 + n)%Z by (apply lt_IZR; rewrite minus_IZR, plus_IZR, mult_IZR; lra). lia.
Qed.

(** The constant 10^-9 as a double. *)
Lemma nano_value : rnd (1 / 1000000000) = IZR 4835703278458517 * bpow radix2 (-82).
Proof.
  assert (B1 : bpow radix2 (-82) = / IZR 4835703278458516698824704) by reflexivity. assert (B2 : bpow radix2 (- -82) = IZR 4835703278458516698824704) by reflexivity.
  apply rnd_eval; [lia|lia|rewrite B1; lra|]. rewrite B2. apply Rabs_def1; lra.
Qed.
Lemma two_nanoseconds : ts_of_double rnd (double_of_ts rnd (TS 1 2)) = FOk (TS 1 1).
Proof.
  unfold double_of_ts. cbn [sec nsec]. rewrite nano_value, !rnd_int by lia.
  assert (B82 : bpow radix2 (-82) = / IZR 4835703278458516698824704) by reflexivity. assert (B81 : bpow radix2 (-81) = / IZR 2417851639229258349412352) by reflexivity.
  assert (B52 : bpow radix2 (-52) = / IZR 4503599627370496) by reflexivity. assert (B52' : bpow radix2 (- -52) = IZR 4503599627370496) by reflexivity.
  assert (P : rnd (2 * (IZR 4835703278458517 * bpow radix2 (-82))) = IZR 4835703278458517 * bpow radix2 (-81)).
  { replace (2 * (IZR 4835703278458517 * bpow radix2 (-82))) with (IZR 4835703278458517 * bpow radix2 (-81)) by (rewrite B82, B81; lra). apply rnd_double, double_format; lia. }
  rewrite P. assert (D : rnd (1 + IZR 4835703278458517 * bpow radix2 (-81)) = IZR 4503599636377695 * bpow radix2 (-52)).
  { apply rnd_eval; [lia|lia|rewrite B52, B81; lra|]. rewrite B52', B81. apply Rabs_def1; lra. }
  rewrite D. unfold ts_of_double. rewrite cast_ok by (rewrite Rabs_pos_eq; rewrite B52; lra). cbn [fbind].
  assert (T1 : rtrunc (IZR 4503599636377695 * bpow radix2 (-52)) = 1%Z) by (apply rtrunc_unique; rewrite B52; lra). rewrite T1, rnd_int by lia.
  assert (F : rnd (IZR 4503599636377695 * bpow radix2 (-52) - 1) = IZR 9007199 * bpow radix2 (-52)).
  { replace (IZR 4503599636377695 * bpow radix2 (-52) - 1) with (IZR 9007199 * bpow radix2 (-52)) by (rewrite B52; lra). apply rnd_double, double_format; lia. }
  rewrite F. assert (Q : rnd (IZR 9007199 * bpow radix2 (-52) * 1000000000) = IZR 9007199000000000 * bpow radix2 (-52)).
  { replace (IZR 9007199 * bpow radix2 (-52) * 1000000000) with (IZR 9007199000000000 * bpow radix2 (-52)) by (rewrite B52; lra). apply rnd_double, double_format; lia. }
  rewrite Q, cast_ok by (rewrite Rabs_pos_eq; rewrite B52; lra). cbn [fbind]. f_equal. f_equal. apply rtrunc_unique; rewrite B52; lra.
Qed.
Lemma hundred_nanoseconds : ts_of_double rnd (double_of_ts rnd (TS 1700000000 100)) = FOk (TS 1700000000 0).
Proof.
  unfold double_of_ts. cbn [sec nsec]. rewrite nano_value, !rnd_int by lia.
  assert (B82 : bpow radix2 (-82) = / IZR 4835703278458516698824704) by reflexivity. 
  assert (B76 : bpow radix2 (-76) = / IZR 75557863725914323419136) by reflexivity. assert (B76' : bpow radix2 (- -76) = IZR 75557863725914323419136) by reflexivity.
  assert (B22 : bpow radix2 (-22) = / IZR 4194304) by reflexivity. assert (B22' : bpow radix2 (- -22) = IZR 4194304) by reflexivity.
  assert (P : rnd (100 * (IZR 4835703278458517 * bpow radix2 (-82))) = IZR 7555786372591433 * bpow radix2 (-76)).
  { apply rnd_eval; [lia|lia|rewrite B76, B82; lra|]. rewrite B76', B82. apply Rabs_def1; lra. }
  rewrite P. assert (D : rnd (1700000000 + IZR 7555786372591433 * bpow radix2 (-76)) = IZR 7130316800000000 * bpow radix2 (-22)).
  { apply rnd_eval; [lia|lia|rewrite B76, B22; lra|]. rewrite B76, B22'. apply Rabs_def1; lra. }
  rewrite D. unfold ts_of_double. rewrite cast_ok by (rewrite Rabs_pos_eq; rewrite B22; lra). cbn [fbind].
  assert (T1 : rtrunc (IZR 7130316800000000 * bpow radix2 (-22)) = 1700000000%Z) by (apply rtrunc_unique; rewrite B22; lra). rewrite T1, rnd_int by lia.
  replace (IZR 7130316800000000 * bpow radix2 (-22) - 1700000000) with 0 by (rewrite B22; lra). rewrite rnd_0, Rmult_0_l, rnd_0.
  rewrite cast_ok by (rewrite Rabs_R0; lra). cbn [fbind]. f_equal. f_equal. apply rtrunc_unique; lra.
Qed.

(** * TimeData in exact arithmetic *)

Definition exact (x : R) : R := x.
(** The time nearest toward zero. *)
Lemma of_double_exact x : Rabs x < 9223372036854775808 ->
  exists t, ts_of_double exact x = FOk t /\ Rabs (secs t - x) < / 1000000000 /\ (0 <= x -> 0 <= secs t <= x) /\ (x <= 0 -> x <= secs t <= 0) /\ (-1000000000 < nsec t < 1000000000)%Z.
Proof.
  intros A. unfold ts_of_double, exact. rewrite cast_ok by exact A. cbn [fbind]. unfold secs.
  destruct (Rle_lt_dec 0 x) as [P|P].
  - destruct (rtrunc_pos x P) as [L U]. set (f := x - IZR (rtrunc x)). assert (F0 : 0 <= f * 1000000000) by (unfold f; lra).
    rewrite cast_ok by (rewrite Rabs_pos_eq; unfold f; lra). cbn [fbind]. eexists. split; [reflexivity|]. cbn [sec nsec].
    destruct (rtrunc_pos _ F0) as [L' U']. pose proof (rtrunc_range _ F0). assert (rtrunc (f * 1000000000) < 1000000000)%Z by (apply lt_IZR; unfold f in *; lra).
    pose proof (rtrunc_range x P) as I0. apply IZR_le in I0. rewrite plus_IZR, mult_IZR. unfold f in *. assert (0 <= IZR (rtrunc ((x - IZR (rtrunc x)) * 1000000000))) by now apply IZR_le.
    split; [apply Rabs_def1; lra|]. split; [intros _; lra|]. split; [|lia]. intros XN. assert (x = 0) by lra. lra.
  - destruct (rtrunc_neg x P) as [L U]. set (f := x - IZR (rtrunc x)). set (g := f * 1000000000).
    assert (FB : -1000000000 < g <= 0) by (unfold g, f; lra).
    rewrite cast_ok by (rewrite Rabs_left1; lra). cbn [fbind]. eexists. split; [reflexivity|]. cbn [sec nsec].
    assert (GT : (-1000000000 < rtrunc g <= 0)%Z /\ g <= IZR (rtrunc g) < g + 1 /\ IZR (rtrunc g) <= 0).
    { destruct (Req_dec g 0) as [Z|Z].
      - rewrite Z. rewrite (rtrunc_unique 0 0); [split; [lia|lra]|lra|lra].
      - destruct (rtrunc_neg g ltac:(lra)) as [L' U']. assert (-1000000000 < rtrunc g)%Z by (apply lt_IZR; lra).
        assert (rtrunc g < 1)%Z by (apply lt_IZR; lra). split; [lia|]. split; [lra|]. apply (IZR_le _ 0). lia. }
    destruct GT as (G1 & [G2 G3] & G4).
    assert (IZR (rtrunc x) <= 0). { assert (rtrunc x < 1)%Z by (apply lt_IZR; lra). apply (IZR_le _ 0). lia. }
    rewrite plus_IZR, mult_IZR. unfold g, f in *. split; [apply Rabs_def1; lra|]. split; [intros; lra|]. split; [intros _; lra|lia].
Qed.
Lemma double_exact t : double_of_ts exact t = secs t.
Proof. unfold double_of_ts, exact, secs. rewrite plus_IZR, mult_IZR. field. Qed.

(** Sums, mean and mean square deviation, in seconds. *)
Definition total (f : ts -> R) (l : list ts) : R := fold_right (fun t a => f t + a) 0 l.
Definition mean (l : list ts) : R := total secs l / IZR (Z.of_nat (length l)).
Definition spread (l : list ts) : R := total (fun t => (secs t - mean l) * (secs t - mean l)) l / IZR (Z.of_nat (length l)).

Lemma fold_total f l a : fold_left (fun b t => b + f t) l a = a + total f l.
Proof. revert a. induction l as [|t l IH]; intros a; cbn; [ring|]. rewrite IH. fold (total f l). ring. Qed.
Lemma total_ext f g l : (forall t, f t = g t) -> total f l = total g l.
Proof. intros H. induction l as [|t l IH]; cbn; [reflexivity|]. fold (total f l). fold (total g l). now rewrite H, IH. Qed.
Lemma total_bound f l m : (forall t, In t l -> Rabs (f t) <= m) -> Rabs (total f l) <= INR (length l) * m.
Proof.
  induction l as [|t l IH]; intros H; [cbn; rewrite Rabs_R0; lra|]. change (length (t :: l)) with (S (length l)). rewrite S_INR. cbn [total fold_right]. fold (total f l).
  pose proof (Rabs_triang (f t) (total f l)). assert (Rabs (f t) <= m) by (apply H; now left). assert (Rabs (total f l) <= INR (length l) * m) by (apply IH; intros u U; apply H; now right). lra.
Qed.
Lemma total_nonneg f l : (forall t, 0 <= f t) -> 0 <= total f l.
Proof. intros H. induction l as [|t l IH]; cbn; [lra|]. fold (total f l). pose proof (H t). lra. Qed.
(** Deviations from any point: the spread and the square of the distance to the mean. *)
Lemma total_shift l a : total (fun t => (secs t - a) * (secs t - a)) l =
  total (fun t => (secs t - mean l) * (secs t - mean l)) l + 2 * (mean l - a) * (total secs l - INR (length l) * mean l) + INR (length l) * ((mean l - a) * (mean l - a)).
Proof.
  generalize (mean l) as m. induction l as [|t l IH]; intros m; [cbn; ring|]. change (length (t :: l)) with (S (length l)). rewrite S_INR. cbn [total fold_right]. fold (total secs l).
  fold (total (fun t => (secs t - a) * (secs t - a)) l). fold (total (fun t => (secs t - m) * (secs t - m)) l). rewrite (IH m). set (A := total secs l). set (B := total (fun t => (secs t - m) * (secs t - m)) l). ring.
Qed.
Lemma mean_shift l a : l <> [] -> total (fun t => (secs t - a) * (secs t - a)) l / IZR (Z.of_nat (length l)) = spread l + (mean l - a) * (mean l - a).
Proof.
  intros NE. assert (LN : 0 < INR (length l)) by (destruct l; [congruence|apply lt_0_INR; cbn; lia]). rewrite total_shift. unfold spread. rewrite <- INR_IZR_INZ.
  assert (M : INR (length l) * mean l = total secs l) by (unfold mean; rewrite <- INR_IZR_INZ; field; lra). rewrite M. field. lra.
Qed.

(** A duration within about thirty years. *)
Definition ordinary (t : ts) : Prop := (-1000000000 < sec t < 1000000000 /\ -1000000000 < nsec t < 1000000000)%Z.
Lemma ordinary_secs t : ordinary t -> Rabs (secs t) <= 1000000000.
Proof.
  intros [S N]. unfold secs. assert (IZR (sec t * 1000000000 + nsec t) <= 1000000000000000000) by (apply IZR_le; lia).
  assert (-1000000000000000000 <= IZR (sec t * 1000000000 + nsec t)) by (apply IZR_le; lia). apply Rabs_le. lra.
Qed.
Lemma mean_bound l : l <> [] -> Forall ordinary l -> Rabs (mean l) <= 1000000000.
Proof.
  intros NE F. assert (LN : 0 < INR (length l)) by (destruct l; [congruence|apply lt_0_INR; cbn; lia]). unfold mean. rewrite <- INR_IZR_INZ.
  assert (B : Rabs (total secs l) <= INR (length l) * 1000000000) by (apply total_bound; intros t T; apply ordinary_secs; rewrite Forall_forall in F; now apply F).
  unfold Rdiv. rewrite Rabs_mult, (Rabs_pos_eq (/ INR (length l))) by (apply Rlt_le, Rinv_0_lt_compat, LN).
  apply Rmult_le_reg_r with (1 := LN). rewrite Rmult_assoc, Rinv_l by lra. lra.
Qed.
Lemma spread_bound l : l <> [] -> Forall ordinary l -> 0 <= spread l <= 4000000000000000000.
Proof.
  intros NE F. assert (LN : 0 < INR (length l)) by (destruct l; [congruence|apply lt_0_INR; cbn; lia]). unfold spread. rewrite <- INR_IZR_INZ.
  pose proof (mean_bound l NE F) as MB. apply Rabs_le_inv in MB. generalize dependent (mean l). intros m MB.
  assert (B : Rabs (total (fun t => (secs t - m) * (secs t - m)) l) <= INR (length l) * 4000000000000000000).
  { apply total_bound. intros t T. rewrite Forall_forall in F. pose proof (ordinary_secs t (F t T)) as O. apply Rabs_le_inv in O.
    rewrite Rabs_mult. replace 4000000000000000000 with (2000000000 * 2000000000) by lra. assert (Rabs (secs t - m) <= 2000000000) by (apply Rabs_le; lra). apply Rmult_le_compat; auto using Rabs_pos. }
  assert (P : 0 <= total (fun t => (secs t - m) * (secs t - m)) l) by (apply total_nonneg; intros t; apply Rle_0_sqr). rewrite Rabs_pos_eq in B by exact P. split.
  - apply Rmult_le_pos; [exact P|apply Rlt_le, Rinv_0_lt_compat, LN].
  - apply Rmult_le_reg_r with (1 := LN). unfold Rdiv. rewrite Rmult_assoc, Rinv_l by lra. lra.
Qed.
Lemma quotient_exact s n f : n <> O -> td_of_quotient exact s n f = ts_of_double exact (f (s / IZR (Z.of_nat n))).
Proof. destruct n; [congruence|reflexivity]. Qed.
Lemma average_exact l : l <> [] -> Forall ordinary l ->
  exists t, td_average exact l = FOk t /\ Rabs (secs t - mean l) < / 1000000000 /\ (0 <= mean l -> 0 <= secs t <= mean l) /\ (mean l <= 0 -> mean l <= secs t <= 0).
Proof.
  intros NE F. unfold td_average. rewrite quotient_exact by (destruct l; [congruence|discriminate]).
  assert (E : fold_left (fun a d => exact (a + double_of_ts exact d)) l 0 = total secs l).
  { unfold exact at 1. rewrite fold_total, Rplus_0_l. apply total_ext. intros t. apply double_exact. }
  rewrite E. fold (mean l). pose proof (mean_bound l NE F) as MB. destruct (of_double_exact (mean l) ltac:(lra)) as (t & T & A & B & C & _). eauto.
Qed.
Lemma squares_exact avg l : td_squares exact avg l = total (fun t => (secs t - secs avg) * (secs t - secs avg)) l.
Proof.
  unfold td_squares. change (fold_left (fun a d => a + (double_of_ts exact d - double_of_ts exact avg) * (double_of_ts exact d - double_of_ts exact avg)) l 0 = total (fun t => (secs t - secs avg) * (secs t - secs avg)) l).
  rewrite (fold_total (fun d => (double_of_ts exact d - double_of_ts exact avg) * (double_of_ts exact d - double_of_ts exact avg))), Rplus_0_l. apply total_ext. intros t. now rewrite !double_exact.
Qed.
Lemma small_square d : Rabs d < / 1000000000 -> 0 <= d * d <= / 1000000000 * / 1000000000.
Proof.
  intros H. split; [apply Rle_0_sqr|]. rewrite <- (Rabs_pos_eq (d * d)) by apply Rle_0_sqr. rewrite Rabs_mult. apply Rmult_le_compat; auto using Rabs_pos; lra.
Qed.
Lemma variance_exact l : l <> [] -> Forall ordinary l ->
  exists t, td_variance exact l = FOk t /\ spread l - / 1000000000 < secs t <= spread l + / 1000000000 * / 1000000000.
Proof.
  intros NE F. destruct (average_exact l NE F) as (a & A & AB & _). unfold td_variance. rewrite A. cbn [fbind].
  rewrite quotient_exact by (destruct l; [congruence|discriminate]). rewrite squares_exact, mean_shift by exact NE.
  pose proof (spread_bound l NE F) as SB. rewrite <- Rabs_Ropp in AB. replace (- (secs a - mean l)) with (mean l - secs a) in AB by ring. pose proof (small_square _ AB) as Q.
  destruct (of_double_exact (spread l + (mean l - secs a) * (mean l - secs a))) as (t & T & B1 & B2 & _); [rewrite Rabs_pos_eq; lra|].
  exists t. split; [exact T|]. apply Rabs_def2 in B1. specialize (B2 ltac:(lra)). lra.
Qed.
Lemma sqrt_shift s d : 0 <= s -> 0 <= d -> sqrt (s + d * d) <= sqrt s + d.
Proof.
  intros S D. apply Rsqr_incr_0_var; [|pose proof (sqrt_pos s); lra]. unfold Rsqr. rewrite sqrt_sqrt by (pose proof (Rle_0_sqr d); unfold Rsqr in *; lra).
  pose proof (sqrt_sqrt s S) as E. pose proof (sqrt_pos s) as P. assert (0 <= sqrt s * d) by (apply Rmult_le_pos; auto). lra.
Qed.
Lemma std_dev_exact l : l <> [] -> Forall ordinary l ->
  exists t, td_std_dev exact l = FOk t /\ Rabs (secs t - sqrt (spread l)) < / 1000000000.
Proof.
  intros NE F. destruct (average_exact l NE F) as (a & A & AB & _). unfold td_std_dev. rewrite A. cbn [fbind].
  rewrite quotient_exact by (destruct l; [congruence|discriminate]). rewrite squares_exact, mean_shift by exact NE.
  pose proof (spread_bound l NE F) as SB. rewrite <- Rabs_Ropp in AB. replace (- (secs a - mean l)) with (mean l - secs a) in AB by ring. pose proof (small_square _ AB) as Q.
  unfold exact at 2. set (d := mean l - secs a) in *. assert (DD : d * d = Rabs d * Rabs d) by (rewrite <- Rabs_mult, Rabs_pos_eq; [reflexivity|apply Rle_0_sqr]).
  assert (LO : sqrt (spread l) <= sqrt (spread l + d * d)) by (apply sqrt_le_1; lra).
  assert (HI : sqrt (spread l + d * d) <= sqrt (spread l) + Rabs d) by (rewrite DD; apply sqrt_shift; [lra|apply Rabs_pos]).
  pose proof (sqrt_pos (spread l)) as SP.
  assert (TOP : sqrt (spread l + d * d) <= 3000000000). { rewrite <- (sqrt_square 3000000000) by lra. apply sqrt_le_1; lra. }
  destruct (of_double_exact (sqrt (spread l + d * d))) as (t & T & B1 & B2 & _); [rewrite Rabs_pos_eq; lra|].
  exists t. split; [exact T|]. apply Rabs_def2 in B1. specialize (B2 ltac:(lra)). apply Rabs_def1; lra.
Qed.
