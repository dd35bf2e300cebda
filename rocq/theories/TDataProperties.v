(** Theorems on time stamps as doubles and on TimeData. *)
From Coq Require Import List ZArith Lia.
From Flocq Require Import Core.
From Verif Require Import RBase TimeModel TimeProofs AngleModel Pose3Model Pose3Proofs TDataModel TDataProofs.
Import ListNotations.
Open Scope R_scope.

(** A stamp that represents the number of seconds x: whole seconds cut toward zero, less than a second of nanoseconds with the same sign,
    and the value within [tol] nanoseconds. *)
Definition represents (tol : R) (x : R) (t : ts) : Prop :=
  Rabs (x - IZR (sec t)) < 1 /\ (0 <= x -> (0 <= sec t /\ 0 <= nsec t)%Z /\ IZR (sec t) <= x) /\ (x <= 0 -> (sec t <= 0 /\ nsec t <= 0)%Z /\ x <= IZR (sec t)) /\
  (-999999999 <= nsec t <= 999999999)%Z /\ Rabs (IZR (sec t) * 1000000000 + IZR (nsec t) - x * 1000000000) < tol.
Lemma represents_pos x : is_double x -> 0 <= x < 9223372036854775808 -> exists t, ts_of_double rnd x = FOk t /\ represents (1 + / 16777215) x t.
Proof.
  intros D P. destruct (of_double_pos x D P) as (n & E & N & U & L). rewrite bp23_value in *. eexists. split; [exact E|]. destruct (rtrunc_pos x ltac:(lra)) as [T1 T2]. pose proof (rtrunc_range x ltac:(lra)) as T0.
  unfold represents. cbn [sec nsec]. split; [apply Rabs_def1; lra|]. split; [split; [lia|lra]|]. split.
  - intros X. assert (X0 : x = 0) by lra. assert (R0 : rtrunc x = 0%Z) by (apply rtrunc_unique; lra). rewrite R0 in *. split; [|lra]. split; [lia|]. rewrite X0 in U. assert (n < 1)%Z by (apply lt_IZR; lra). lia.
  - split; [lia|]. apply Rabs_def1; lra.
Qed.
(** For every double below 2^63 in absolute value the stamp made from it represents it within one nanosecond and a rounding of 2^-23. *)
Theorem C203_stamp_from_double : forall x, is_double x -> Rabs x < 9223372036854775808 ->
  exists t, ts_of_double rnd x = FOk t /\ (forall old, stamp_double rnd old x = FOk t) /\ represents (1 + / 16777215) x t.
Proof.
  intros x D B. destruct (Rle_lt_dec 0 x) as [P|P].
  - rewrite Rabs_pos_eq in B by exact P. destruct (represents_pos x D ltac:(lra)) as (t & E & H). exists t. split; [exact E|]. split; [intros old; exact E|exact H].
  - rewrite Rabs_left in B by exact P. assert (D' : is_double (- x)) by now apply generic_format_opp. destruct (represents_pos (- x) D' ltac:(lra)) as ([s n] & E & H1 & H2 & _ & H4 & H5). cbn [sec nsec] in *.
    apply of_double_opp in E; [|rewrite Rabs_pos_eq; lra|lia]. rewrite Ropp_involutive in E. exists (TS (- s) (- n)). split; [exact E|]. split; [intros old; exact E|].
    unfold represents. cbn [sec nsec]. rewrite !opp_IZR. destruct (H2 ltac:(lra)) as [[S0 N0] L]. split; [|split; [intros; lra|split; [intros _; split; [lia|lra]|split; [lia|]]]].
    + rewrite <- Rabs_Ropp. replace (- (x - - IZR s)) with (- x - IZR s) by ring. exact H1.
    + rewrite <- Rabs_Ropp. replace (- (- IZR s * 1000000000 + - IZR n - x * 1000000000)) with (IZR s * 1000000000 + IZR n - - x * 1000000000) by ring. exact H5.
Qed.
Example C203_minus_one_and_a_half : is_double (-3 * bpow radix2 (-1)) /\ Rabs (-3 * bpow radix2 (-1)) < 9223372036854775808 /\ ts_of_double rnd (-3 * bpow radix2 (-1)) = FOk (TS (-1) (-500000000)).
Proof.
  assert (B : bpow radix2 (-1) = / 2) by reflexivity. split; [apply double_format; lia|]. split; [rewrite B; apply Rabs_def1; lra|].
  replace (-3 * bpow radix2 (-1)) with (- (3 * bpow radix2 (-1))) by ring. apply (of_double_opp _ 1 500000000); [rewrite B; apply Rabs_def1; lra| |lia].
  assert (T : rtrunc (3 * bpow radix2 (-1)) = 1%Z) by (apply rtrunc_unique; rewrite B; lra).
  assert (F : is_double (1 * bpow radix2 (-1))) by (apply double_format; lia).
  unfold ts_of_double. rewrite cast_ok by (rewrite B; apply Rabs_def1; lra). cbn [fbind]. rewrite T, rnd_int by lia. replace (3 * bpow radix2 (-1) - 1) with (1 * bpow radix2 (-1)) by (rewrite B; lra). rewrite (rnd_double _ F).
  replace (1 * bpow radix2 (-1) * 1000000000) with (IZR 500000000) by (rewrite B; lra). rewrite rnd_int, cast_ok by (try lia; apply Rabs_def1; lra). cbn [fbind]. f_equal. f_equal. apply rtrunc_unique; lra.
Qed.
(** At 2^63 and beyond the conversion is undefined. *)
Theorem C203_huge_undefined_refuted : forall x, 9223372036854775808 <= x -> ts_of_double rnd x = FUB.
Proof.
  intros x H. unfold ts_of_double, cast_long. destruct (rtrunc_pos x ltac:(lra)) as [L U].
  replace (rtrunc x <=? 9223372036854775807)%Z with false; [now rewrite Bool.andb_false_r|]. symmetry. apply Z.leb_gt. assert (9223372036854775808 < rtrunc x + 1)%Z by (apply lt_IZR; rewrite plus_IZR; lra). lia.
Qed.

(** Less than about 194 days: through a double and back, the stamp returns or loses one nanosecond. *)
Theorem C204_round_trip_partial : forall s n, (0 <= s < 16777215)%Z -> (0 <= n < 1000000000)%Z ->
  exists n', ts_of_double rnd (double_of_ts rnd (TS s n)) = FOk (TS s n') /\ (n' = n \/ n' = n - 1)%Z.
Proof. intros s n S N. exact (round_trip_short (TS s n) S N). Qed.
(** Until 2038 the loss is at most 120 nanoseconds, and the result is a clock reading again. *)
Theorem C204_round_trip_epoch_partial : forall s n, (0 <= s < 2147483647)%Z -> (0 <= n < 1000000000)%Z ->
  exists s' n', ts_of_double rnd (double_of_ts rnd (TS s n)) = FOk (TS s' n') /\ (0 <= s' /\ 0 <= n' < 1000000000)%Z /\
    (-120 <= (s' * 1000000000 + n') - (s * 1000000000 + n) <= 120)%Z.
Proof. intros s n S N. destruct (round_trip_long (TS s n) S N) as ([s' n'] & E & R & A). exists s', n'. cbn [sec nsec] in *. split; [exact E|]. split; [exact R|lia]. Qed.
(** The stamp does not always come back, however small: one second and two nanoseconds lose one of them. *)
Theorem C204_round_trip_exact_refuted : exists s n s' n', (0 <= s < 16777215 /\ 0 <= n < 1000000000)%Z /\
  ts_of_double rnd (double_of_ts rnd (TS s n)) = FOk (TS s' n') /\ (s', n') <> (s, n).
Proof. exists 1%Z, 2%Z, 1%Z, 1%Z. split; [lia|]. split; [exact two_nanoseconds|discriminate]. Qed.
(** A present-day stamp loses a hundred nanoseconds. *)
Theorem C204_present_day_refuted : exists n, (n = 100)%Z /\ ts_of_double rnd (double_of_ts rnd (TS 1700000000 n)) = FOk (TS 1700000000 0).
Proof. exists 100%Z. split; [reflexivity|exact hundred_nanoseconds]. Qed.

(** The value of a stamp in seconds, the mean and the mean square deviation of a list of them. *)
Definition seconds (t : ts) : R := IZR (sec t * 1000000000 + nsec t) / 1000000000.
Definition sum_of (f : ts -> R) (l : list ts) : R := fold_right (fun t a => f t + a) 0 l.
Definition mean_of (l : list ts) : R := sum_of seconds l / IZR (Z.of_nat (length l)).
Definition deviation_of (l : list ts) : R := sum_of (fun t => (seconds t - mean_of l) * (seconds t - mean_of l)) l / IZR (Z.of_nat (length l)).
(** With exact arithmetic, after any pushes since the last clear: the average is the mean cut to a nanosecond toward zero, the standard deviation
    is right to a nanosecond, and the variance to 10^-9 below and 10^-18 above. *)
Theorem C205_statistics_exact_arithmetic : forall before l, l <> [] ->
  Forall (fun t => -1000000000 < sec t < 1000000000 /\ -1000000000 < nsec t < 1000000000)%Z l ->
  let data := fold_left td_push l (td_clear before) in
  exists a s v, td_average (fun x => x) data = FOk a /\ td_std_dev (fun x => x) data = FOk s /\ td_variance (fun x => x) data = FOk v /\
    Rabs (seconds a - mean_of l) < / 1000000000 /\ (0 <= mean_of l -> 0 <= seconds a <= mean_of l) /\ (mean_of l <= 0 -> mean_of l <= seconds a <= 0) /\
    Rabs (seconds s - sqrt (deviation_of l)) < / 1000000000 /\
    deviation_of l - / 1000000000 < seconds v <= deviation_of l + / 1000000000 * / 1000000000.
Proof.
  intros before l NE F data. assert (D : data = l).
  { unfold data, td_clear. change l with ([] ++ l) at 2. clear. revert l. generalize (@nil ts) as a. intros a l. revert a. induction l as [|t l IH]; intros a; cbn; [now rewrite app_nil_r|]. rewrite IH. unfold td_push. now rewrite <- app_assoc. }
  rewrite D. destruct (average_exact l NE F) as (a & A1 & A2 & A3 & A4). destruct (std_dev_exact l NE F) as (s & S1 & S2). destruct (variance_exact l NE F) as (v & V1 & V2).
  exists a, s, v. repeat (split; [eassumption|]). exact V2.
Qed.
(** Statistics of nothing convert not-a-number to an integer. *)
Theorem C205_empty_undefined_refuted : forall rd before, let data := td_clear before in
  td_average rd data = FUB /\ td_std_dev rd data = FUB /\ td_variance rd data = FUB.
Proof. intros rd before. repeat split. Qed.
(** The variance is cut to whole nanoseconds as if it were a time: two timings twenty microseconds apart have variance zero and standard deviation ten microseconds. *)
Theorem C205_variance_is_square_of_deviation_refuted : exists l, length l = 2%nat /\
  td_std_dev (fun x => x) l = FOk (TS 0 10000) /\ td_variance (fun x => x) l = FOk (TS 0 0).
Proof.
  exists [TS 0 0; TS 0 20000]. split; [reflexivity|].
  assert (A : td_average (fun x => x) [TS 0 0; TS 0 20000] = FOk (TS 0 10000)).
  { unfold td_average, td_of_quotient, double_of_ts. cbn [fold_left length sec nsec Z.of_nat]. change (Pos.of_succ_nat 1) with 2%positive.
    replace ((0 + (0 + 0 * (1 / 1000000000)) + (0 + 20000 * (1 / 1000000000))) / 2) with (/ 100000) by lra.
    unfold ts_of_double. rewrite cast_ok by (apply Rabs_def1; lra). cbn [fbind]. rewrite (rtrunc_unique (/ 100000) 0) by lra.
    rewrite cast_ok by (apply Rabs_def1; lra). cbn [fbind]. f_equal. f_equal. apply rtrunc_unique; lra. }
  assert (Q : td_squares (fun x => x) (TS 0 10000) [TS 0 0; TS 0 20000] / 2 = / 100000 * / 100000).
  { unfold td_squares, double_of_ts. cbn [fold_left sec nsec]. lra. }
  split.
  - unfold td_std_dev. rewrite A. cbn [fbind]. unfold td_of_quotient. cbn [length Z.of_nat]. change (Pos.of_succ_nat 1) with 2%positive. rewrite Q, sqrt_square by lra.
    unfold ts_of_double. rewrite cast_ok by (apply Rabs_def1; lra). cbn [fbind]. rewrite (rtrunc_unique (/ 100000) 0) by lra.
    rewrite cast_ok by (apply Rabs_def1; lra). cbn [fbind]. f_equal. f_equal. apply rtrunc_unique; lra.
  - unfold td_variance. rewrite A. cbn [fbind]. unfold td_of_quotient. cbn [length Z.of_nat]. change (Pos.of_succ_nat 1) with 2%positive. rewrite Q.
    unfold ts_of_double. rewrite cast_ok by (apply Rabs_def1; lra). cbn [fbind]. rewrite (rtrunc_unique (/ 100000 * / 100000) 0) by lra.
    rewrite cast_ok by (apply Rabs_def1; lra). cbn [fbind]. f_equal. f_equal. apply rtrunc_unique; lra.
Qed.

Print Assumptions C203_stamp_from_double.
Print Assumptions C203_huge_undefined_refuted.
Print Assumptions C204_round_trip_partial.
Print Assumptions C204_round_trip_epoch_partial.
Print Assumptions C204_round_trip_exact_refuted.
Print Assumptions C204_present_day_refuted.
Print Assumptions C205_statistics_exact_arithmetic.
Print Assumptions C205_empty_undefined_refuted.
Print Assumptions C205_variance_is_square_of_deviation_refuted.
