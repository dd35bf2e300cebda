(** The tension interpolation of a trajectory: the times, the splines, and the quintics at the two ends. *)
From Verif Require Import RBase PolyModel SplineModel PolyProofs RootsProofs SplineProofs CubicProofs TensionProofs TensCurve SmoothProofs SplineProperties PolyProperties TrajModel TrajProofs LinearProofs.
Open Scope R_scope.

(** * The times *)

Definition t_times (wps : list waypoint) (t0 : R) : list R := t0 :: cumulate t0 (durations wps).
Lemma durations_len wps : length (durations wps) = n_of wps.
Proof. unfold durations, n_of. rewrite map_length. apply removelast_len. Qed.
Lemma durations_nth wps i : (i < n_of wps)%nat -> nth i (durations wps) 0 = w_duration (wp wps i).
Proof.
  intros I. unfold durations, wp. change 0 with (w_duration wp0). rewrite map_nth. f_equal. unfold n_of in I. revert i I. induction wps as [|w wps IH]; intros i I; [cbn in I; lia|].
  destruct wps as [|v wps]; [cbn in I; lia|]. destruct i as [|i]; [reflexivity|]. change (removelast (w :: v :: wps)) with (w :: removelast (v :: wps)). cbn [nth]. apply IH. cbn in *. lia.
Qed.
Lemma durations_pos dim wps : valid dim wps -> Forall (fun d => 0 < d) (durations wps).
Proof.
  intros V. apply Forall_forall. intros d I. apply In_nth with (d := 0) in I. destruct I as (i & I & <-). rewrite durations_len in I. rewrite durations_nth by exact I. apply (v_dur _ _ V). unfold n_of in I. lia.
Qed.
Lemma cumulate_nth ds : forall t i, (i <= length ds)%nat -> nth i (t :: cumulate t ds) 0 = t + total (firstn i ds).
Proof.
  induction ds as [|d ds IH]; intros t i I; cbn [cumulate].
  - cbn in I. assert (i = 0%nat) as -> by lia. cbn. lra.
  - destruct i as [|i]; [cbn; lra|]. change (nth (S i) (t :: t + d :: cumulate (t + d) ds) 0) with (nth i (t + d :: cumulate (t + d) ds) 0). rewrite IH by (cbn in I; lia). cbn [firstn total fold_right]. fold (total (firstn i ds)). unfold total. cbn. lra.
Qed.
(** The time from the first waypoint to waypoint [i]. *)
Definition elapsed (wps : list waypoint) (i : nat) : R := total (firstn i (durations wps)).
Lemma elapsed_succ wps i : (i < n_of wps)%nat -> elapsed wps (S i) = elapsed wps i + w_duration (wp wps i).
Proof.
  intros I. unfold elapsed. rewrite <- durations_nth by exact I. rewrite <- durations_len in I. revert i I. induction (durations wps) as [|d ds IH]; intros i I; [cbn in I; lia|].
  destruct i as [|i]; [cbn; unfold total; cbn; lra|]. cbn [firstn nth total fold_right] in *. specialize (IH i ltac:(cbn in I; lia)). unfold total in *. cbn [fold_right] in *. lra.
Qed.
Lemma elapsed_0 wps : elapsed wps 0 = 0. Proof. reflexivity. Qed.
Lemma elapsed_n wps : elapsed wps (n_of wps) = total (durations wps).
Proof. unfold elapsed. rewrite <- durations_len, firstn_all. reflexivity. Qed.
Lemma times_facts dim wps t0 : valid dim wps -> length (t_times wps t0) = S (n_of wps) /\ increasing (t_times wps t0)
  /\ (forall i, (i <= n_of wps)%nat -> nth i (t_times wps t0) 0 = t0 + elapsed wps i)
  /\ (forall i, (i < n_of wps)%nat -> hh (t_times wps t0) i = w_duration (wp wps i))
  /\ last (t_times wps t0) 0 = t0 + total (durations wps).
Proof.
  intros V. destruct (cumulate_spec (durations wps) t0 (durations_pos dim wps V)) as (I & L & E). unfold t_times. assert (LEN : length (t0 :: cumulate t0 (durations wps)) = S (n_of wps)) by (cbn [length]; rewrite L, durations_len; reflexivity).
  assert (NT : forall i, (i <= n_of wps)%nat -> nth i (t0 :: cumulate t0 (durations wps)) 0 = t0 + elapsed wps i) by (intros i K; apply cumulate_nth; rewrite durations_len; exact K).
  split; [exact LEN|]. split; [exact I|]. split; [exact NT|]. split; [|exact E]. intros i K. unfold hh, sq. rewrite !NT by lia. rewrite elapsed_succ by exact K. lra.
Qed.
Lemma elapsed_mono dim wps i k : valid dim wps -> (i < k)%nat -> (k <= n_of wps)%nat -> elapsed wps i < elapsed wps k.
Proof.
  intros V I K. destruct (times_facts dim wps 0 V) as (L & INC & NT & _). pose proof (increasing_lt _ i k INC I ltac:(lia)) as Q. rewrite !NT in Q by lia. lra.
Qed.

(** * The splines *)

Definition spl (wps : list waypoint) (tau t0 : R) (j : nat) : tspline := spline_of (t_times wps t0) (col wps j) tau.
Definition pos (wps : list waypoint) (tau t0 : R) (j : nat) : R -> R := curve te (t_times wps t0) (col wps j) tau.
Definition vel (wps : list waypoint) (tau t0 : R) (j : nat) : R -> R := curve te1 (t_times wps t0) (col wps j) tau.
Definition accel (wps : list waypoint) (tau t0 : R) (j : nat) : R -> R := curve te2 (t_times wps t0) (col wps j) tau.
(** The acceleration at waypoint [i]. *)
Definition knot (wps : list waypoint) (tau : R) (j i : nat) : R := sq (z_of (t_times wps 0) (col wps j) tau) i.

Lemma col_len wps j : length (col wps j) = length wps. Proof. unfold col. apply map_length. Qed.
Lemma col_nth wps j i : (i < length wps)%nat -> nth i (col wps j) 0 = angle (wp wps i) j.
Proof. intros I. unfold col, wp. rewrite nth_indep with (d' := angle wp0 j) by (rewrite map_length; exact I). apply (map_nth (fun w => angle w j)). Qed.
Lemma z_knot dim wps tau t0 j : valid dim wps -> z_of (t_times wps t0) (col wps j) tau = z_of (t_times wps 0) (col wps j) tau.
Proof.
  intros V. destruct (times_facts dim wps t0 V) as (L & _ & NT & _). destruct (times_facts dim wps 0 V) as (L' & _ & NT' & _). apply z_shift; [congruence|]. intros i I. rewrite L' in I. unfold sq. rewrite !NT, !NT' by lia. lra.
Qed.

Lemma generate_spec_t debug dim wps tau t0 : valid dim wps -> (3 <= length wps)%nat -> 0 < tau -> generate_tension debug wps dim tau t0 = FOk (map (spl wps tau t0) (seq 0 dim)).
Proof.
  intros V L3 T. unfold generate_tension. fold (durations wps). fold (t_times wps t0). apply fmap_joints. intros j J.
  rewrite (fmap_ok _ (fun w => angle w j)).
  2:{ intros w I. pose proof (v_ok _ _ V) as O. rewrite Forall_forall in O. destruct (O w I) as (LA & _). apply rget_nth. lia. }
  cbn [fbind]. fold (col wps j). destruct (times_facts dim wps t0 V) as (L & INC & _). apply (curve_spec debug _ _ tau (n_of wps)); auto; [rewrite col_len; unfold n_of; lia|unfold n_of; lia].
Qed.

(** Everything known of the spline of joint [j]. *)
Lemma joint_curve debug dim wps tau t0 j : valid dim wps -> (3 <= length wps)%nat -> 0 < tau ->
  (forall t, t0 <= t <= t0 + total (durations wps) -> ts_eval debug (spl wps tau t0 j) t = FOk (pos wps tau t0 j t) /\ ts_deriv debug (spl wps tau t0 j) t = FOk (vel wps tau t0 j t) /\ ts_dderiv debug (spl wps tau t0 j) t = FOk (accel wps tau t0 j t))
  /\ (forall t, derivable_pt_lim (pos wps tau t0 j) t (vel wps tau t0 j t) /\ derivable_pt_lim (vel wps tau t0 j) t (accel wps tau t0 j t) /\ continuity_pt (accel wps tau t0 j) t)
  /\ (forall k t, (k < n_of wps)%nat -> t0 + elapsed wps k <= t <= t0 + elapsed wps (S k) ->
        let F := mk_tfun (t0 + elapsed wps k) (angle (wp wps k) j) (knot wps tau j k) (t0 + elapsed wps (S k)) (angle (wp wps (S k)) j) (knot wps tau j (S k)) in
        pos wps tau t0 j t = te F tau t /\ vel wps tau t0 j t = te1 F tau t /\ accel wps tau t0 j t = te2 F tau t)
  /\ (forall i, (i <= n_of wps)%nat -> pos wps tau t0 j (t0 + elapsed wps i) = angle (wp wps i) j /\ accel wps tau t0 j (t0 + elapsed wps i) = knot wps tau j i)
  /\ knot wps tau j 0 = 0 /\ knot wps tau j (n_of wps) = 0
  /\ (forall i, (1 <= i)%nat -> (i < n_of wps)%nat -> let D := fun k => w_duration (wp wps k) in let s := fun k => (angle (wp wps (S k)) j - angle (wp wps k) j) / D k in
        alpha tau (D (i - 1)%nat) * knot wps tau j (i - 1) + (beta tau (D (i - 1)%nat) + beta tau (D i)) * knot wps tau j i + alpha tau (D i) * knot wps tau j (i + 1) = tau * tau * (s i - s (i - 1)%nat)).
Proof.
  intros V L3 T. destruct (times_facts dim wps t0 V) as (L & INC & NT & HH & LT). assert (LW : length wps = S (n_of wps)) by (unfold n_of; lia). assert (N2 : (2 <= n_of wps)%nat) by lia. set (N := n_of wps) in *.
  assert (LC : length (col wps j) = S N) by (rewrite col_len; exact LW).
  destruct (curve_spec debug (t_times wps t0) (col wps j) tau N L LC N2 INC T) as (_ & EV & SM & SG & KN). pose proof (z_knot dim wps tau t0 j V) as ZK. rewrite ZK in SG, KN.
  split; [|split; [exact SM|split; [|split; [|split; [|split]]]]].
  - intros t B. apply EV. rewrite !NT by lia. rewrite elapsed_0. unfold N. rewrite elapsed_n. lra.
  - intros k t K B. cbn zeta. specialize (SG k t K). rewrite !NT in SG by lia. specialize (SG B). cbn zeta in SG. unfold seg_of, sq in SG. rewrite !NT, !col_nth in SG by lia. exact SG.
  - intros i I. specialize (KN i I). rewrite NT, col_nth in KN by lia. exact KN.
  - destruct (times_facts dim wps 0 V) as (L' & INC' & _). destruct (z_spec false (t_times wps 0) (col wps j) tau N L' LC N2 INC' T) as (_ & _ & Z0 & _). exact Z0.
  - destruct (times_facts dim wps 0 V) as (L' & INC' & _). destruct (z_spec false (t_times wps 0) (col wps j) tau N L' LC N2 INC' T) as (_ & _ & _ & ZN & _). exact ZN.
  - destruct (times_facts dim wps 0 V) as (L' & INC' & _ & HH' & _). destruct (z_spec false (t_times wps 0) (col wps j) tau N L' LC N2 INC' T) as (_ & _ & _ & _ & TRI). intros i I1 I2. specialize (TRI i I1 I2). cbn zeta.
    fold (knot wps tau j (i - 1)) (knot wps tau j i) (knot wps tau j (i + 1)) in TRI. unfold AA, BB, GG in TRI. fold N in HH'. rewrite !HH' in TRI by lia. unfold sq in TRI. rewrite !col_nth in TRI by lia. etransitivity; [exact TRI|]. cbn beta. replace (S (i - 1)) with i by lia.
    pose proof (v_dur _ _ V i ltac:(lia)). pose proof (v_dur _ _ V (i - 1)%nat ltac:(lia)). field. lra.
Qed.

(** * The quintics *)

Definition quint (t0 y0 v0 t1 y1 v1 : R) : list R := match quintic t0 y0 v0 0 t1 y1 v1 0 with FOk q => q | _ => [] end.
(** The least bound that a quintic does not respect. *)
Definition peak (t0 y0 v0 t1 y1 v1 : R) : R :=
  match deriv (deriv (quint t0 y0 v0 t1 y1 v1)) with [c0; c1; c2; c3] => Rmax (Rabs (maximum_cubic t0 t1 c0 c1 c2 c3)) (Rabs (minimum_cubic t0 t1 c0 c1 c2 c3)) | _ => 0 end.
Lemma quint_spec t0 y0 v0 t1 y1 v1 : t0 < t1 -> let q := quint t0 y0 v0 t1 y1 v1 in let m := peak t0 y0 v0 t1 y1 v1 in let T := t1 - t0 in
  (forall a, end_quintic t0 y0 v0 t1 y1 v1 a = FOk (q, if Rlt_dec m (Rabs a) then true else false))
  /\ eval q t0 = y0 /\ eval q t1 = y1 /\ deriv_at q t0 = v0 /\ deriv_at q t1 = v1 /\ dderiv_at q t0 = 0 /\ dderiv_at q t1 = 0
  /\ (forall x, derivable_pt_lim (eval q) x (deriv_at q x) /\ derivable_pt_lim (deriv_at q) x (dderiv_at q x) /\ continuity_pt (dderiv_at q) x)
  /\ (forall x, t0 <= x <= t1 -> Rabs (dderiv_at q x) <= m) /\ (exists x, t0 <= x <= t1 /\ m = Rabs (dderiv_at q x))
  /\ (forall s, dderiv_at q (t0 + s * T) = (y1 - y0) / (T * T) * (60 * s - 180 * (s * s) + 120 * (s * s * s)) + v0 / T * (- (36) * s + 96 * (s * s) - 60 * (s * s * s)) + v1 / T * (- (24) * s + 84 * (s * s) - 60 * (s * s * s))).
Proof.
  intros LT. cbn zeta. set (q := quint t0 y0 v0 t1 y1 v1).
  assert (Q : quintic t0 y0 v0 0 t1 y1 v1 0 = FOk q /\ length q = 6%nat /\ eval q t0 = y0 /\ eval q t1 = y1 /\ deriv_at q t0 = v0 /\ deriv_at q t1 = v1 /\ dderiv_at q t0 = 0 /\ dderiv_at q t1 = 0).
  { destruct (C47_quintic t0 y0 v0 0 t1 y1 v1 0 ltac:(lra)) as (p & E & R). unfold q, quint. rewrite E. auto. }
  destruct Q as (E & LQ & E0 & E1 & D0 & D1 & S0 & S1).
  assert (AE : forall x, deriv_at q x = eval (deriv q) x) by (intros x; apply deriv_at_eval; lia). assert (AD : forall x, dderiv_at q x = eval (deriv (deriv q)) x) by (intros x; apply dderiv_at_eval; lia).
  assert (D2 : exists c0 c1 c2 c3, deriv (deriv q) = [c0; c1; c2; c3]).
  { clear -LQ. destruct q as [|p0 [|p1 [|p2 [|p3 [|p4 [|p5 [|p6 q]]]]]]]; cbn in LQ; try lia. cbn. eauto. }
  destruct D2 as (c0 & c1 & c2 & c3 & D2). unfold peak. fold q. rewrite D2.
  destruct (maximum_cubic_spec t0 t1 c0 c1 c2 c3 ltac:(lra)) as [MA MX]. destruct (minimum_cubic_spec t0 t1 c0 c1 c2 c3 ltac:(lra)) as [NA MN].
  set (M := maximum_cubic t0 t1 c0 c1 c2 c3) in *. set (m := minimum_cubic t0 t1 c0 c1 c2 c3) in *.
  split. { intros a. unfold end_quintic. rewrite E. cbn [fbind]. rewrite D2. fold M m. f_equal. f_equal. unfold Rmax. destruct (Rlt_dec (Rabs M) (Rabs a)), (Rlt_dec (Rabs m) (Rabs a)), (Rle_dec (Rabs M) (Rabs m)), (Rlt_dec _ (Rabs a)); try reflexivity; lra. }
  do 6 (split; [assumption|]). split.
  { intros x. split; [rewrite AE; apply eval_derive|]. split.
    - rewrite AD. apply (d_ext (eval (deriv q)) _ _ _ _ (eval_derive (deriv q) x)); [intros t; symmetry; apply AE|reflexivity].
    - apply derivable_continuous_pt. eexists. apply (d_ext (eval (deriv (deriv q))) _ _ _ _ (eval_derive (deriv (deriv q)) x)); [intros t; symmetry; apply AD|reflexivity]. }
  split.
  { intros x B. rewrite AD, D2. specialize (MX x B). specialize (MN x B). unfold Rmax. destruct (Rle_dec (Rabs M) (Rabs m)); unfold Rabs in *; destruct (Rcase_abs M), (Rcase_abs m), (Rcase_abs (eval [c0; c1; c2; c3] x)); lra. }
  split.
  { unfold Rmax. destruct (Rle_dec (Rabs M) (Rabs m)).
    - destruct NA as (x & B & EX). exists x. rewrite AD, D2, EX. auto.
    - destruct MA as (x & B & EX). exists x. rewrite AD, D2, EX. auto. }
  intros s. rewrite AD. unfold q, quint, quintic. rewrite !fdiv_ok by nz. cbn [fbind].
  match goal with |- context [shift_nonzero ?p _] => destruct (shift_nonzero_ok p t0 ltac:(discriminate) ltac:(cbn; lia)) as (p' & E' & L' & _ & _ & H2) end.
  rewrite E', H2. replace (t0 + s * (t1 - t0) - t0) with (s * (t1 - t0)) by ring. rewrite !eval_horner. cbn [deriv deriv_loop horner]. simpl IZR. field. lra.
Qed.
(** Enough time keeps the acceleration small. *)
Lemma peak_small t0 y0 v0 t1 y1 v1 : t0 < t1 -> let T := t1 - t0 in peak t0 y0 v0 t1 y1 v1 <= 360 * Rabs (y1 - y0) / (T * T) + 192 * Rabs v0 / T + 168 * Rabs v1 / T.
Proof.
  intros LT T. destruct (quint_spec t0 y0 v0 t1 y1 v1 LT) as (_ & _ & _ & _ & _ & _ & _ & _ & _ & (x & B & ->) & F). fold T in F. assert (TP : 0 < T) by (unfold T; lra).
  set (s := (x - t0) / T). assert (X : x = t0 + s * T) by (unfold s; field; lra). assert (SB : 0 <= s <= 1). { unfold T in *. split; apply Rmult_le_reg_r with (t1 - t0); try lra; nra. }
  rewrite X, F. clear F X.
  set (w0 := Rabs (y1 - y0)). set (w1 := Rabs v0). set (w2 := Rabs v1).
  replace (360 * w0 / (T * T) + 192 * w1 / T + 168 * w2 / T) with (w0 / (T * T) * 360 + w1 / T * 192 + w2 / T * 168) by (field; lra).
  assert (S2 : 0 <= s * s <= 1) by nra. assert (S3 : 0 <= s * s * s <= 1) by nra. set (s2 := s * s) in *. set (s3 := s2 * s) in *.
  assert (IP : forall z k, 0 < k -> Rabs (z / k) = Rabs z / k). { intros z k K. unfold Rdiv. rewrite Rabs_mult, (Rabs_right (/ k)); [reflexivity|]. apply Rle_ge, Rlt_le, Rinv_0_lt_compat; lra. }
  assert (NN : forall z k, 0 < k -> 0 <= Rabs z / k). { intros z k K. rewrite <- IP by exact K. apply Rabs_pos. }
  eapply Rle_trans; [apply Rabs_triang|]. apply Rplus_le_compat; [eapply Rle_trans; [apply Rabs_triang|]; apply Rplus_le_compat|]; rewrite Rabs_mult, IP by nra; (apply Rmult_le_compat_l; [apply NN; nra|]); apply Rabs_le; lra.
Qed.
(** It is at least the mean acceleration. *)
Lemma peak_mean t0 y0 v0 t1 y1 v1 : t0 < t1 -> Rabs (v1 - v0) <= peak t0 y0 v0 t1 y1 v1 * (t1 - t0).
Proof.
  intros LT. destruct (quint_spec t0 y0 v0 t1 y1 v1 LT) as (_ & _ & _ & D0 & D1 & _ & _ & SM & B & _). set (q := quint t0 y0 v0 t1 y1 v1) in *.
  destruct (MVT_cor2 (deriv_at q) (dderiv_at q) t0 t1 LT) as (c & E & C); [intros c C; apply SM|]. rewrite D0, D1 in E. rewrite E, Rabs_mult, (Rabs_right (t1 - t0)) by lra. apply Rmult_le_compat_r; [lra|]. apply B. lra.
Qed.

(** * The two ends *)

(** The leading quintic of joint [j] when the spline starts at [t], and the bound it needs. *)
Definition lead_q (wps : list waypoint) (tau t : R) (j : nat) : list R := quint 0 (angle (wp wps 0) j) (nth j (w_rates (wp wps 0)) 0) (2 * t) (pos wps tau t j (2 * t)) (vel wps tau t j (2 * t)).
Definition lead_m (wps : list waypoint) (tau t : R) (j : nat) : R := peak 0 (angle (wp wps 0) j) (nth j (w_rates (wp wps 0)) 0) (2 * t) (pos wps tau t j (2 * t)) (vel wps tau t j (2 * t)).
(** The trailing ones: the spline ends at [tf], the quintic covers [t] before and after it. *)
Definition trail_q (wps : list waypoint) (tau t0 t : R) (j : nat) : list R :=
  let tf := t0 + total (durations wps) in quint (tf - t) (pos wps tau t0 j (tf - t)) (vel wps tau t0 j (tf - t)) (tf + t) (angle (wp wps (n_of wps)) j) (nth j (w_rates (wp wps (n_of wps))) 0).
Definition trail_m (wps : list waypoint) (tau t0 t : R) (j : nat) : R :=
  let tf := t0 + total (durations wps) in peak (tf - t) (pos wps tau t0 j (tf - t)) (vel wps tau t0 j (tf - t)) (tf + t) (angle (wp wps (n_of wps)) j) (nth j (w_rates (wp wps (n_of wps))) 0).
Definition within (m : nat -> R) (acc : list R) (js : list nat) : bool := forallb (fun j => if Rlt_dec (m j) (Rabs (nth j acc 0)) then true else false) js.
Lemma within_spec m acc js : within m acc js = true <-> forall j, In j js -> m j < Rabs (nth j acc 0).
Proof. unfold within. rewrite forallb_forall. split; intros H j J; specialize (H j J); destruct (Rlt_dec _ _); auto; discriminate. Qed.

Lemma dur0_le dim wps : valid dim wps -> 0 < w_duration (wp wps 0) <= total (durations wps).
Proof.
  intros V. pose proof (v_len _ _ V) as L. split; [apply (v_dur _ _ V); lia|]. rewrite <- elapsed_n. replace (w_duration (wp wps 0)) with (elapsed wps 1) by (rewrite elapsed_succ, elapsed_0 by (unfold n_of; lia); lra).
  destruct (Nat.eq_dec (n_of wps) 1) as [->|NE]; [lra|]. apply Rlt_le. apply (elapsed_mono dim); auto. unfold n_of in *. lia.
Qed.
Lemma durn_le dim wps : valid dim wps -> 0 < w_duration (wp wps (n_of wps - 1)) <= total (durations wps).
Proof.
  intros V. pose proof (v_len _ _ V) as L. assert (NN : (1 <= n_of wps)%nat) by (unfold n_of; lia). split; [apply (v_dur _ _ V); unfold n_of; lia|]. rewrite <- elapsed_n. replace (n_of wps) with (S (n_of wps - 1)) at 2 by lia. rewrite elapsed_succ by lia.
  assert (0 <= elapsed wps (n_of wps - 1)); [|lra]. destruct (Nat.eq_dec (n_of wps - 1) 0) as [->|NE]; [rewrite elapsed_0; lra|]. apply Rlt_le. rewrite <- (elapsed_0 wps). apply (elapsed_mono dim); auto; lia.
Qed.

Lemma leading_try_spec debug dim wps acc tau t : valid dim wps -> (3 <= length wps)%nat -> 0 < tau -> length acc = dim -> 0 < t <= w_duration (wp wps 0) ->
  forall k j, (j + k = dim)%nat -> leading_try debug (map (spl wps tau t) (seq j k)) (wp wps 0) acc t (Z.of_nat j)
    = FOk (if within (lead_m wps tau t) acc (seq j k) then Some (map (lead_q wps tau t) (seq j k)) else None).
Proof.
  intros V L3 T LA B. induction k as [|k IH]; intros j E; cbn [seq map leading_try]; [reflexivity|].
  destruct (joint_curve debug dim wps tau t j V L3 T) as (EV & _). pose proof (dur0_le dim wps V) as D0. destruct (EV (2 * t) ltac:(lra)) as (E1 & E2 & _). rewrite E2, E1. cbn [fbind].
  destruct (wp_at dim wps 0 (v_ok _ _ V) ltac:(lia)) as (W1 & W2 & _). rewrite !rget_nth by lia. cbn [fbind].
  destruct (quint_spec 0 (nth j (w_angles (wp wps 0)) 0) (nth j (w_rates (wp wps 0)) 0) (2 * t) (pos wps tau t j (2 * t)) (vel wps tau t j (2 * t)) ltac:(lra)) as (EQ & _). rewrite EQ. cbn [fbind fst snd].
  unfold within. cbn [forallb]. fold (within (lead_m wps tau t) acc (seq (S j) k)). change (peak 0 _ _ _ _ _) with (lead_m wps tau t j). change (quint 0 _ _ _ _ _) with (lead_q wps tau t j).
  destruct (Rlt_dec (lead_m wps tau t j) (Rabs (nth j acc 0))); [|reflexivity]. cbn [andb]. replace (Z.of_nat j + 1)%Z with (Z.of_nat (S j)) by lia. rewrite (IH (S j)) by lia. cbn [fbind]. destruct (within _ _ _); reflexivity.
Qed.
(** The shortest of the five times that respects the bounds. *)
Definition lead_time (wps : list waypoint) (i : Z) : R := IZR i * w_duration (wp wps 0) / 10.
Lemma leading_tries_spec debug dim wps acc tau : valid dim wps -> (3 <= length wps)%nat -> 0 < tau -> length acc = dim -> forall todo i, (1 <= i)%Z -> (i + Z.of_nat todo = 6)%Z ->
  (exists k, (i <= k <= 5)%Z /\ (forall j, (j < dim)%nat -> lead_m wps tau (lead_time wps k) j < Rabs (nth j acc 0)) /\ (forall h, (i <= h < k)%Z -> exists j, (j < dim)%nat /\ Rabs (nth j acc 0) <= lead_m wps tau (lead_time wps h) j)
     /\ leading_tries debug wps acc tau todo i = FOk (Some (2 * lead_time wps k, map (lead_q wps tau (lead_time wps k)) (seq 0 dim))))
  \/ ((forall h, (i <= h <= 5)%Z -> exists j, (j < dim)%nat /\ Rabs (nth j acc 0) <= lead_m wps tau (lead_time wps h) j) /\ leading_tries debug wps acc tau todo i = FOk None).
Proof.
  intros V L3 T LA. pose proof (dur0_le dim wps V) as D0. induction todo as [|todo IH]; intros i I E; cbn [leading_tries]. { right. split; [lia|reflexivity]. }
  change 0%Z with (Z.of_nat 0). rewrite aget_wp by lia. cbn [fbind]. cbv zeta. change (IZR i * w_duration (wp wps 0) / 10) with (lead_time wps i). rewrite LA.
  rewrite generate_spec_t by assumption. cbn [fbind]. assert (IR : 1 <= IZR i <= 5) by (apply i_range; lia).
  rewrite (leading_try_spec debug dim wps acc tau (lead_time wps i) V L3 T LA) by (auto; unfold lead_time; nra). cbn [fbind].
  destruct (within _ acc (seq 0 dim)) eqn:W.
  - left. exists i. split; [lia|]. rewrite within_spec in W. split; [intros j J; apply W; apply in_seq; lia|]. split; [lia|reflexivity].
  - assert (BAD : exists j, (j < dim)%nat /\ Rabs (nth j acc 0) <= lead_m wps tau (lead_time wps i) j).
    { unfold within in W. clear -W. assert (K : forall js, (forall j, In j js -> (j < dim)%nat) -> forallb (fun j => if Rlt_dec (lead_m wps tau (lead_time wps i) j) (Rabs (nth j acc 0)) then true else false) js = false -> exists j, (j < dim)%nat /\ Rabs (nth j acc 0) <= lead_m wps tau (lead_time wps i) j).
      { induction js as [|j js IH]; intros H W'; [discriminate|]. cbn [forallb] in W'. destruct (Rlt_dec _ _) as [Q|Q]; [apply IH; [intros; apply H; now right|exact W']|]. exists j. split; [apply H; now left|lra]. }
      apply (K (seq 0 dim)); [|exact W]. intros j J. apply in_seq in J. lia. }
    destruct (IH (i + 1)%Z ltac:(lia) ltac:(lia)) as [(k & K & PS & FL & ER)|(FL & ER)].
    + left. exists k. split; [lia|]. split; [exact PS|]. split; [|exact ER]. intros h H. destruct (Z.eq_dec h i) as [->|NE]; [exact BAD|]. apply FL. lia.
    + right. split; [|exact ER]. intros h H. destruct (Z.eq_dec h i) as [->|NE]; [exact BAD|]. apply FL. lia.
Qed.

Lemma trailing_try_spec debug dim wps acc tau t0 t : valid dim wps -> (3 <= length wps)%nat -> 0 < tau -> length acc = dim -> 0 < t <= w_duration (wp wps (n_of wps - 1)) -> let tf := t0 + total (durations wps) in
  forall k j, (j + k = dim)%nat -> trailing_try debug (map (spl wps tau t0) (seq j k)) (wp wps (n_of wps)) acc t tf (Z.of_nat j)
    = FOk (if within (trail_m wps tau t0 t) acc (seq j k) then Some (map (trail_q wps tau t0 t) (seq j k)) else None).
Proof.
  intros V L3 T LA B tf. induction k as [|k IH]; intros j E; cbn [seq map trailing_try]; [reflexivity|].
  destruct (joint_curve debug dim wps tau t0 j V L3 T) as (EV & _). pose proof (durn_le dim wps V) as D0. fold tf in EV. destruct (EV (tf - t) ltac:(unfold tf; lra)) as (E1 & E2 & _). rewrite E2, E1. cbn [fbind].
  destruct (wp_at dim wps (n_of wps) (v_ok _ _ V) ltac:(unfold n_of; lia)) as (W1 & W2 & _). rewrite !rget_nth by lia. cbn [fbind].
  destruct (quint_spec (tf - t) (pos wps tau t0 j (tf - t)) (vel wps tau t0 j (tf - t)) (tf + t) (nth j (w_angles (wp wps (n_of wps))) 0) (nth j (w_rates (wp wps (n_of wps))) 0) ltac:(lra)) as (EQ & _). rewrite EQ. cbn [fbind fst snd].
  unfold within. cbn [forallb]. fold (within (trail_m wps tau t0 t) acc (seq (S j) k)). change (peak (tf - t) _ _ _ _ _) with (trail_m wps tau t0 t j). change (quint (tf - t) _ _ _ _ _) with (trail_q wps tau t0 t j).
  destruct (Rlt_dec (trail_m wps tau t0 t j) (Rabs (nth j acc 0))); [|reflexivity]. cbn [andb]. replace (Z.of_nat j + 1)%Z with (Z.of_nat (S j)) by lia. rewrite (IH (S j)) by lia. cbn [fbind]. destruct (within _ _ _); reflexivity.
Qed.
Definition trail_time (wps : list waypoint) (i : Z) : R := IZR i * w_duration (wp wps (n_of wps - 1)) / 10.
Lemma trailing_tries_spec debug dim wps acc tau t0 : valid dim wps -> (3 <= length wps)%nat -> 0 < tau -> length acc = dim -> let tf := t0 + total (durations wps) in forall todo i, (1 <= i)%Z -> (i + Z.of_nat todo = 6)%Z ->
  (exists k, (i <= k <= 5)%Z /\ (forall j, (j < dim)%nat -> trail_m wps tau t0 (trail_time wps k) j < Rabs (nth j acc 0)) /\ (forall h, (i <= h < k)%Z -> exists j, (j < dim)%nat /\ Rabs (nth j acc 0) <= trail_m wps tau t0 (trail_time wps h) j)
     /\ trailing_tries debug wps (map (spl wps tau t0) (seq 0 dim)) acc tf todo i = FOk (Some (tf - trail_time wps k, tf + trail_time wps k, map (trail_q wps tau t0 (trail_time wps k)) (seq 0 dim))))
  \/ ((forall h, (i <= h <= 5)%Z -> exists j, (j < dim)%nat /\ Rabs (nth j acc 0) <= trail_m wps tau t0 (trail_time wps h) j) /\ trailing_tries debug wps (map (spl wps tau t0) (seq 0 dim)) acc tf todo i = FOk None).
Proof.
  intros V L3 T LA tf. pose proof (durn_le dim wps V) as D0. assert (LW : length wps = S (n_of wps)) by (unfold n_of; lia). induction todo as [|todo IH]; intros i I E; cbn [trailing_tries]. { right. split; [lia|reflexivity]. }
  replace (Zlen wps - 2)%Z with (Z.of_nat (n_of wps - 1)) by (unfold Zlen; lia). replace (Zlen wps - 1)%Z with (Z.of_nat (n_of wps)) by (unfold Zlen; lia). rewrite !aget_wp by lia. cbn [fbind]. cbv zeta. change (IZR i * w_duration (wp wps (n_of wps - 1)) / 10) with (trail_time wps i).
  assert (IR : 1 <= IZR i <= 5) by (apply i_range; lia). change 0%Z with (Z.of_nat 0).
  unfold tf in *. rewrite (trailing_try_spec debug dim wps acc tau t0 (trail_time wps i) V L3 T LA) by (auto; unfold trail_time; nra). cbn [fbind].
  destruct (within _ acc (seq 0 dim)) eqn:W.
  - left. exists i. split; [lia|]. rewrite within_spec in W. split; [intros j J; apply W; apply in_seq; lia|]. split; [lia|reflexivity].
  - assert (BAD : exists j, (j < dim)%nat /\ Rabs (nth j acc 0) <= trail_m wps tau t0 (trail_time wps i) j).
    { unfold within in W. clear -W. assert (K : forall js, (forall j, In j js -> (j < dim)%nat) -> forallb (fun j => if Rlt_dec (trail_m wps tau t0 (trail_time wps i) j) (Rabs (nth j acc 0)) then true else false) js = false -> exists j, (j < dim)%nat /\ Rabs (nth j acc 0) <= trail_m wps tau t0 (trail_time wps i) j).
      { induction js as [|j js IH]; intros H W'; [discriminate|]. cbn [forallb] in W'. destruct (Rlt_dec _ _) as [Q|Q]; [apply IH; [intros; apply H; now right|exact W']|]. exists j. split; [apply H; now left|lra]. }
      apply (K (seq 0 dim)); [|exact W]. intros j J. apply in_seq in J. lia. }
    destruct (IH (i + 1)%Z ltac:(lia) ltac:(lia)) as [(k & K & PS & FL & ER)|(FL & ER)].
    + left. exists k. split; [lia|]. split; [exact PS|]. split; [|exact ER]. intros h H. destruct (Z.eq_dec h i) as [->|NE]; [exact BAD|]. apply FL. lia.
    + right. split; [|exact ER]. intros h H. destruct (Z.eq_dec h i) as [->|NE]; [exact BAD|]. apply FL. lia.
Qed.
