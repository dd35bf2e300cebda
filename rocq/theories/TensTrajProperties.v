(** Properties of the tension spline interpolation of joint trajectories (ecl_manipulators). *)
From Verif Require Import RBase PolyModel SplineModel PolyProofs RootsProofs SplineProofs CubicProofs TensionProofs TensCurve SmoothProofs SplineProperties PolyProperties TrajModel TrajProofs LinearProofs TrajProperties TensTraj1 TensTraj2 TensTraj3 TensTraj4.
Open Scope R_scope.

(** The waypoints suit a build: debug builds check that they are acceptable and that there are at least five of them; the
    others rely on the user for it (three are enough). *)
Definition suits (debug : bool) (dim : nat) (wps : list waypoint) : Prop := debug = true \/ acceptable dim wps /\ (3 <= length wps)%nat.
Lemma suits_run debug dim wps acc tau fuel T fss ws : (1 <= dim)%nat -> length acc = dim -> Forall (wp_ok dim) wps -> 0 < tau -> suits debug dim wps ->
  tension_interpolate debug fuel wps acc tau = FOk (Some (T, fss, ws)) ->
  (3 <= length wps)%nat /\ exists w0 w1 w2 k k', tension_run dim wps acc tau w0 w1 w2 ws k k' /\ T = tr_end w2 ws k + trail_time ws k' /\ fss = map (tr_pieces dim tau w2 ws k k') (seq 0 dim).
Proof.
  intros D1 LA W TP S E. assert (Q : acceptable dim wps /\ (3 <= length wps)%nat /\ (debug = true -> (5 <= length wps)%nat)).
  { destruct debug.
    - destruct (Classical_Prop.classic (acceptable dim wps /\ (5 <= length wps)%nat)) as [[A B]|N]; [split; [exact A|]; split; [lia|auto]|]. destruct (tension_checks true dim wps acc tau fuel D1 LA W) as [H _]. rewrite (H eq_refl N) in E. discriminate.
    - destruct S as [S|[A B]]; [discriminate|]. split; [exact A|]. split; [exact B|]. discriminate. }
  destruct Q as (A & L3 & L5). split; [exact L3|]. destruct (tension_spec debug dim wps acc tau fuel D1 LA W TP A L3 L5) as [N|(w0 & w1 & w2 & w3 & k & k' & R & E')]; [congruence|].
  rewrite E' in E. injection E as <- <- <-. exists w0, w1, w2, k, k'. auto.
Qed.

(** * C167: the path *)

(** The trajectory is a leading curve on [0, L], a spline on [L, T0] and a trailing curve on [T0, T]. *)
Theorem C167_tension_path : forall debug dim wps acc tau fuel T fss ws, (1 <= dim)%nat -> length acc = dim -> Forall (wp_ok dim) wps -> 0 < tau -> suits debug dim wps ->
  tension_interpolate debug fuel wps acc tau = FOk (Some (T, fss, ws)) ->
  length ws = length wps /\ (forall i, w_angles (wp ws i) = w_angles (wp wps i) /\ w_duration (wp wps i) <= w_duration (wp ws i)) /\
  exists L T0, 0 < L <= w_duration (wp ws 0) /\ L < T0 < T /\ T0 + T = L + 2 * total (durations ws) /\
  forall j, (j < dim)%nat -> exists p v a, observed fss j T p v a
    /\ p 0 = angle (wp wps 0) j /\ p T = angle (wp wps (length wps - 1)) j
    /\ v 0 = end_rate (wp wps 0) j /\ v T = end_rate (wp wps (length wps - 1)) j
    /\ a 0 = 0 /\ a T = 0
    /\ (forall i, (0 < i)%nat -> (i < length wps - 1)%nat -> p (L / 2 + total (firstn i (map w_duration ws))) = angle (wp wps i) j)
    /\ (forall t, t <> L -> derivable_pt_lim p t (v t))
    /\ (forall t, t <> L -> t <> T0 -> derivable_pt_lim v t (a t))
    /\ (forall t, 0 <= t <= L \/ T0 < t <= T -> Rabs (a t) < Rabs (nth j acc 0)).
Proof.
  intros debug dim wps acc tau fuel T fss ws D1 LA W TP S E. destruct (suits_run _ _ _ _ _ _ _ _ _ D1 LA W TP S E) as (L3 & w0 & w1 & w2 & k & k' & R & -> & ->).
  destruct (run_facts _ _ _ _ _ _ _ _ _ _ R L3) as (EV & N3 & _ & _ & L33 & _ & _ & AN & _ & _ & LB & TB & MID).
  split; [apply (e_len _ _ _ EV)|]. split; [intros i; split; [apply (e_angles _ _ _ EV)|apply (e_dur _ _ _ EV)]|].
  exists (2 * lead_time w2 k), (tr_end w2 ws k - trail_time ws k'). split; [exact LB|]. split; [lra|]. split; [unfold tr_end; lra|].
  intros j J. eexists _, _, _. split; [apply (run_observed _ _ _ _ _ _ _ _ _ _ _ R L3 TP J)|]. apply (run_shape _ _ _ _ _ _ _ _ _ _ _ R L3 TP J).
Qed.
Print Assumptions C167_tension_path.

(** Between two waypoints the spline follows the law of the given tension: the acceleration minus the squared tension times
    the position is a straight line; the acceleration is continuous there. *)
Theorem C167_spline_law : forall debug dim wps acc tau fuel T fss ws, (1 <= dim)%nat -> length acc = dim -> Forall (wp_ok dim) wps -> 0 < tau -> suits debug dim wps ->
  tension_interpolate debug fuel wps acc tau = FOk (Some (T, fss, ws)) ->
  exists L T0, 0 < L <= w_duration (wp ws 0) /\ L < T0 < T /\ T0 + T = L + 2 * total (durations ws) /\
  forall j, (j < dim)%nat -> exists p v a, observed fss j T p v a
    /\ (forall t, L < t < T0 -> continuity_pt a t)
    /\ forall i, (i < length wps - 1)%nat -> exists c0 c1, forall t, L < t <= T0 -> total (firstn i (map w_duration ws)) <= t - L / 2 <= total (firstn (S i) (map w_duration ws)) ->
         a t - tau * tau * p t = c0 + c1 * t.
Proof.
  intros debug dim wps acc tau fuel T fss ws D1 LA W TP S E. destruct (suits_run _ _ _ _ _ _ _ _ _ D1 LA W TP S E) as (L3 & w0 & w1 & w2 & k & k' & R & -> & ->).
  destruct (run_facts _ _ _ _ _ _ _ _ _ _ R L3) as (EV & N3 & _ & _ & L33 & _ & _ & AN & _ & _ & LB & TB & MID).
  exists (2 * lead_time w2 k), (tr_end w2 ws k - trail_time ws k'). split; [exact LB|]. split; [lra|]. split; [unfold tr_end; lra|].
  intros j J. eexists _, _, _. split; [apply (run_observed _ _ _ _ _ _ _ _ _ _ _ R L3 TP J)|]. cbv zeta.
  destruct (joint_curve false dim ws tau (lead_time w2 k) j (tr_v3 _ _ _ _ _ _ _ _ _ _ R) L33 TP) as (_ & SM & SG & _).
  set (t := lead_time w2 k) in *. set (T0 := tr_end w2 ws k - trail_time ws k') in *. assert (LT0 : 2 * t < T0) by (unfold T0; lra). unfold path. split.
  - intros x X e EP. destruct (SM x) as (_ & _ & CA). destruct (CA e EP) as (d & DP & H). set (m := Rmin d (Rmin (x - 2 * t) (T0 - x))). pose proof (Rmin_l d (Rmin (x - 2 * t) (T0 - x))) as M1. pose proof (Rmin_r d (Rmin (x - 2 * t) (T0 - x))) as M2. pose proof (Rmin_l (x - 2 * t) (T0 - x)) as M3. pose proof (Rmin_r (x - 2 * t) (T0 - x)) as M4. fold m in M1, M2.
    exists m. split; [apply Rmin_pos; [lra|apply Rmin_pos; lra]|]. intros y [YD Y]. cbn in Y |- *. unfold R_dist in *. pose proof (Rle_abs (y - x)). pose proof (Rle_abs (- (y - x))) as Q. rewrite Rabs_Ropp in Q.
    rewrite (glue_r (2 * t) _ _ y), (glue_r (2 * t) _ _ x), !glue_l by lra. apply H. split; [exact YD|]. cbn. unfold R_dist. lra.
  - intros i I. assert (LW : length ws = Datatypes.S (n_of wps)) by (unfold n_of in N3; unfold n_of; lia).
    assert (EL : forall q, (q <= n_of wps)%nat -> total (firstn q (map w_duration ws)) = elapsed ws q). { intros q Q. unfold elapsed, durations. rewrite !firstn_map. now rewrite firstn_removelast by lia. }
    change (length wps - 1)%nat with (n_of wps) in I. rewrite !EL by lia.
    set (x0 := t + elapsed ws i). set (xf := t + elapsed ws (Datatypes.S i)). set (y0 := angle (wp ws i) j). set (yf := angle (wp ws (Datatypes.S i)) j). set (z0 := knot ws tau j i). set (zf := knot ws tau j (Datatypes.S i)). set (h := xf - x0).
    assert (HP : 0 < h). { unfold h, xf, x0. rewrite elapsed_succ by lia. pose proof (v_dur _ _ (tr_v3 _ _ _ _ _ _ _ _ _ _ R) i ltac:(lia)). lra. }
    exists (- ((tau * tau * y0 - z0) * xf - (tau * tau * yf - zf) * x0) / h), (- ((tau * tau * yf - zf) - (tau * tau * y0 - z0)) / h).
    intros x X B. rewrite !(glue_r (2 * t)), !glue_l by lra. destruct (SG i x ltac:(lia)) as (-> & _ & ->); [lra|]. fold x0 xf y0 yf z0 zf. unfold te, te2. cbn [t_x0 t_xf t_y0 t_yf t_z0 t_zf]. fold h.
    pose proof (sinh_pos (tau * h) ltac:(nra)) as SP. set (s := sinh (tau * h)) in *. set (u := sinh (tau * (xf - x))). set (w := sinh (tau * (x - x0))). unfold h. field. repeat split; [unfold h in HP; lra|lra|lra].
Qed.
Print Assumptions C167_spline_law.

(** Debug builds refuse what they cannot interpolate, and nothing else. *)
Theorem C167_refusals : forall dim wps acc tau fuel, (1 <= dim)%nat -> length acc = dim -> Forall (wp_ok dim) wps -> 0 < tau ->
  (tension_interpolate true fuel wps acc tau = FThrow ConfigurationError <-> ~ (acceptable dim wps /\ (5 <= length wps)%nat))
  /\ (acceptable dim wps /\ (5 <= length wps)%nat -> exists r, tension_interpolate true fuel wps acc tau = FOk r).
Proof.
  intros dim wps acc tau fuel D1 LA W TP. assert (G : acceptable dim wps /\ (5 <= length wps)%nat -> exists r, tension_interpolate true fuel wps acc tau = FOk r).
  { intros [A L]. destruct (tension_spec true dim wps acc tau fuel D1 LA W TP A ltac:(lia) ltac:(auto)) as [->|(w0 & w1 & w2 & w3 & k & k' & _ & ->)]; eauto. }
  split; [|exact G]. split; [intros E H; destruct (G H); congruence|]. intros N. now apply (tension_checks true dim wps acc tau fuel D1 LA W).
Qed.
Print Assumptions C167_refusals.
(** Other builds never refuse: two waypoints make them access a vector out of range. *)
Theorem C167_release_unchecked_refuted : exists wps acc, acceptable 1 wps /\ Forall (wp_ok 1) wps /\ forall tau fuel, 0 < tau -> tension_interpolate false (S fuel) wps acc tau = FUB.
Proof.
  exists [at_angle 1 0 None; at_angle 0 1 None], [1]. split; [apply pair_acceptable; lra|]. split; [singles|]. intros tau fuel TP.
  set (wps := [at_angle 1 0 None; at_angle 0 1 None]). assert (A : acceptable 1 wps) by (apply pair_acceptable; lra). assert (W : Forall (wp_ok 1) wps) by singles.
  destruct (tension_checks false 1 wps [1] tau (S fuel) (le_n 1) eq_refl W) as [_ H]. destruct (H A ltac:(discriminate)) as (w0 & EI & V & EV & ->). pose proof (e_len _ _ _ EV) as LW. destruct w0 as [|u [|v [|]]]; try discriminate.
  assert (D : 0 < w_duration u) by (apply (v_dur _ _ V 0%nat); cbn; lia).
  pose proof (e_angles _ _ _ EV 0%nat) as A0. pose proof (e_angles _ _ _ EV 1%nat) as A1. cbn in A0, A1.
  cbn [knots_loop]. assert (G : generate_tension false [u; v] 1 tau 0 = FUB); [|cbn [length]; now rewrite G].
  unfold generate_tension. cbn [removelast map cumulate joints seq fmap]. rewrite A0, A1. change (rget [0] (Z.of_nat 0)) with (FOk 0). change (rget [1] (Z.of_nat 0)) with (FOk 1). cbn [fbind].
  destruct C143_too_few_points_refuted as (_ & H2 & _). rewrite H2; [reflexivity|lra|exact TP].
Qed.
Print Assumptions C167_release_unchecked_refuted.

(** * C169: whether it finishes *)

(** It does exactly when every maximum acceleration is positive. *)
Theorem C169_tension_finishes : forall debug dim wps acc tau, (1 <= dim)%nat -> length acc = dim -> Forall (wp_ok dim) wps -> 0 < tau -> acceptable dim wps -> (5 <= length wps)%nat ->
  ((forall j, (j < dim)%nat -> 0 < nth j acc 0) <-> exists fuel T fss ws, tension_interpolate debug fuel wps acc tau = FOk (Some (T, fss, ws)))
  /\ ((forall j, (j < dim)%nat -> 0 < nth j acc 0) -> exists F, forall fuel, (F <= fuel)%nat -> exists T fss ws, tension_interpolate debug fuel wps acc tau = FOk (Some (T, fss, ws))).
Proof.
  intros debug dim wps acc tau D1 LA W TP A L5.
  assert (G : (forall j, (j < dim)%nat -> 0 < nth j acc 0) -> exists F, forall fuel, (F <= fuel)%nat -> exists T fss ws, tension_interpolate debug fuel wps acc tau = FOk (Some (T, fss, ws))).
  { intros AP. destruct (tension_finishes debug dim wps acc tau D1 LA W TP A ltac:(lia) ltac:(auto) AP) as (F & H). exists F. intros fuel LE. destruct (tension_spec debug dim wps acc tau fuel D1 LA W TP A ltac:(lia) ltac:(auto)) as [N|(w0 & w1 & w2 & w3 & k & k' & _ & ->)]; [now apply H in N|]. eauto. }
  split; [|exact G]. split.
  - intros AP. destruct (G AP) as (F & H). destruct (H F (le_n F)) as (T & fss & ws & E). eauto.
  - intros (fuel & T & fss & ws & E) j J. assert (S : suits debug dim wps) by (right; split; [exact A|lia]). destruct (suits_run _ _ _ _ _ _ _ _ _ D1 LA W TP S E) as (L3 & w0 & w1 & w2 & k & k' & R & _).
    pose proof (tr_lead _ _ _ _ _ _ _ _ _ _ R j J) as PL. destruct (run_facts _ _ _ _ _ _ _ _ _ _ R L3) as (_ & _ & _ & N1 & _).
    pose proof (tr_knots _ _ _ _ _ _ _ _ _ _ R 1%nat ltac:(rewrite N1; unfold n_of; lia) j J) as PK. pose proof (Rabs_pos (knot w1 tau j 1)).
    destruct (run_facts _ _ _ _ _ _ _ _ _ _ R L3) as (_ & _ & _ & _ & _ & _ & _ & _ & _ & _ & LB & _). unfold lead_m in PL.
    pose proof (peak_mean 0 (angle (wp w2 0) j) (nth j (w_rates (wp w2 0)) 0) (2 * lead_time w2 k) (pos w2 tau (lead_time w2 k) j (2 * lead_time w2 k)) (vel w2 tau (lead_time w2 k) j (2 * lead_time w2 k)) ltac:(lra)) as PM.
    set (m := peak _ _ _ _ _ _) in *. match type of PM with Rabs ?z <= _ => pose proof (Rabs_pos z) end. assert (0 <= m) by nra. destruct (Req_dec (nth j acc 0) 0) as [Z|NZ]; [rewrite Z, Rabs_R0 in PL; lra|lra].
Qed.
Print Assumptions C169_tension_finishes.

(** A single joint through five waypoints a second apart. *)
Definition five (a b c d e : R) (r s : option R) : list waypoint := [at_angle 1 a r; at_angle 1 b None; at_angle 1 c None; at_angle 1 d None; at_angle 0 e s].
Lemma five_ok a b c d e r s : Forall (wp_ok 1) (five a b c d e r s). Proof. singles. Qed.
Lemma five_acceptable a b c d e r s : acceptable 1 (five a b c d e r s).
Proof.
  split; [cbn; lia|]. split; [intros [|[|[|[|[|i]]]]]; cbn; try lia; intros _; apply at_angle_rates|]. intros [|[|[|[|[|i]]]]]; cbn; try lia; intros _; left; lra.
Qed.
Lemma five_finishes debug a b c d e r s tau m : 0 < tau -> 0 < m -> exists fuel T fss ws, tension_interpolate debug fuel (five a b c d e r s) [m] tau = FOk (Some (T, fss, ws)).
Proof.
  intros TP M. apply (C169_tension_finishes debug 1 (five a b c d e r s) [m] tau (le_n 1) eq_refl (five_ok _ _ _ _ _ _ _) TP (five_acceptable _ _ _ _ _ _ _) ltac:(cbn; lia)). intros j J. assert (j = 0%nat) as -> by lia. exact M.
Qed.
Example C167_example : exists fuel T fss ws, tension_interpolate true fuel (five 0 1 0 2 3 (Some 4) (Some (-5))) [1 / 2] 3 = FOk (Some (T, fss, ws)).
Proof. apply five_finishes; lra. Qed.

(** The maximum accelerations a trajectory is created with are zero: interpolating never ends. *)
Theorem C169_default_bound_refuted : exists wps acc, acceptable 1 wps /\ Forall (wp_ok 1) wps /\ (5 <= length wps)%nat /\ forall debug tau fuel, 0 < tau -> tension_interpolate debug fuel wps acc tau = FOk None.
Proof.
  exists (five 0 1 2 3 4 None None), [0]. split; [apply five_acceptable|]. split; [apply five_ok|]. split; [cbn; lia|]. intros debug tau fuel TP.
  destruct (tension_spec debug 1 (five 0 1 2 3 4 None None) [0] tau fuel (le_n 1) eq_refl (five_ok _ _ _ _ _ _ _) TP (five_acceptable _ _ _ _ _ _ _) ltac:(cbn; lia) ltac:(cbn; lia)) as [E|(w0 & w1 & w2 & w3 & k & k' & _ & E)]; [exact E|].
  exfalso. assert (H : exists fuel T fss ws, tension_interpolate debug fuel (five 0 1 2 3 4 None None) [0] tau = FOk (Some (T, fss, ws))) by eauto.
  apply (C169_tension_finishes debug 1 (five 0 1 2 3 4 None None) [0] tau (le_n 1) eq_refl (five_ok _ _ _ _ _ _ _) TP (five_acceptable _ _ _ _ _ _ _) ltac:(cbn; lia)) with (j := 0%nat) in H; [cbn in H; lra|lia].
Qed.
Print Assumptions C169_default_bound_refuted.

(** * C168: the join with the leading curve *)

(** Segment [i] has the duration given for it, or the one that a joint needs at its nominal rate: interpolating has not
    lengthened it for the sake of the accelerations. *)
Definition kept (dim : nat) (wps ws : list waypoint) (i : nat) : Prop :=
  w_duration (wp ws i) = w_duration (wp wps i) \/ exists j, (j < dim)%nat /\ Rabs (angle (wp wps (S i)) j - angle (wp wps i) j) = nominal (wp wps i) j * w_duration (wp ws i).
Lemma kept_first dim wps w0 ws i : Forall (wp_ok dim) wps -> acceptable dim wps -> initialise_loop dim wps = FOk (w0, true) -> w_duration (wp w0 i) <= w_duration (wp ws i) -> (S i < length wps)%nat -> kept dim wps ws i -> w_duration (wp ws i) = w_duration (wp w0 i).
Proof.
  intros W (L2 & P & A) EI LE I K. destruct (initialise_iff dim wps) as (w' & b & EI' & _ & S & _ & TT & _); auto; [destruct wps; [cbn in L2; lia|discriminate]|]. rewrite EI in EI'. injection EI' as <- <-.
  destruct (TT eq_refl i I) as (Q & [Q1 Q2 Q3]). destruct K as [K|(j & J & K)]; [lra|]. specialize (Q2 j J). rewrite K in Q2. pose proof (P i I) as PR. unfold rates_pos in PR. rewrite Forall_forall in PR. pose proof (wp_at dim wps i W ltac:(lia)) as (_ & _ & LN). assert (PN : 0 < nominal (wp wps i) j) by (apply PR; apply nth_In; lia).
  apply Rmult_le_reg_l in Q2; lra.
Qed.
Lemma run_durations dim wps acc tau w0 w1 w2 w3 k k' i : tension_run dim wps acc tau w0 w1 w2 w3 k k' -> w_duration (wp w0 i) <= w_duration (wp w1 i) <= w_duration (wp w2 i) /\ w_duration (wp w2 i) <= w_duration (wp w3 i).
Proof.
  intros R. destruct (settle_ends_spec dim w1 (tr_v1 _ _ _ _ _ _ _ _ _ _ R)) as (_ & _ & DU & _). pose proof (longer_dur _ _ _ i (tr_01 _ _ _ _ _ _ _ _ _ _ R)). pose proof (longer_dur _ _ _ i (tr_12 _ _ _ _ _ _ _ _ _ _ R)) as Q. rewrite DU in Q. pose proof (longer_dur _ _ _ i (tr_23 _ _ _ _ _ _ _ _ _ _ R)). lra.
Qed.
Lemma suits_acceptable debug dim wps acc tau fuel T fss ws : (1 <= dim)%nat -> length acc = dim -> Forall (wp_ok dim) wps -> suits debug dim wps -> tension_interpolate debug fuel wps acc tau = FOk (Some (T, fss, ws)) -> acceptable dim wps.
Proof.
  intros D1 LA W S E. destruct debug.
  - destruct (Classical_Prop.classic (acceptable dim wps /\ (5 <= length wps)%nat)) as [[A B]|N]; [exact A|]. destruct (tension_checks true dim wps acc tau fuel D1 LA W) as [H _]. rewrite (H eq_refl N) in E. discriminate.
  - destruct S as [S|[A B]]; [discriminate|exact A].
Qed.

(** The whole path is continuously differentiable when the last segment was not lengthened. *)
Theorem C168_leading_join_partial : forall debug dim wps acc tau fuel T fss ws, (1 <= dim)%nat -> length acc = dim -> Forall (wp_ok dim) wps -> 0 < tau -> suits debug dim wps ->
  tension_interpolate debug fuel wps acc tau = FOk (Some (T, fss, ws)) -> kept dim wps ws (length wps - 2) ->
  forall j, (j < dim)%nat -> exists p v a, observed fss j T p v a /\ forall t, derivable_pt_lim p t (v t) /\ continuity_pt v t.
Proof.
  intros debug dim wps acc tau fuel T fss ws D1 LA W TP S E KP j J. pose proof (suits_acceptable _ _ _ _ _ _ _ _ _ D1 LA W S E) as ACC. destruct (suits_run _ _ _ _ _ _ _ _ _ D1 LA W TP S E) as (L3 & w0 & w1 & w2 & k & k' & R & -> & ->).
  destruct (run_facts _ _ _ _ _ _ _ _ _ _ R L3) as (EV & N3 & N2 & _ & L33 & _ & _ & AN & _ & _ & LB & TB & MID).
  assert (EQ : ws = w2).
  { pose proof (run_durations _ _ _ _ _ _ _ _ _ _ (length wps - 2) R) as DD. pose proof (kept_first dim wps w0 ws (length wps - 2) W ACC (tr_init _ _ _ _ _ _ _ _ _ _ R) ltac:(lra) ltac:(lia) KP) as DK.
    destruct (tr_grew3 _ _ _ _ _ _ _ _ _ _ R) as [Q|(Q & _)]; [exact Q|]. exfalso. replace (n_of w2 - 1)%nat with (length wps - 2)%nat in Q by (rewrite N2; unfold n_of; lia). pose proof (v_dur _ _ (tr_v2 _ _ _ _ _ _ _ _ _ _ R) (length wps - 2)%nat ltac:(unfold n_of in N2; lia)). lra. }
  subst w2. eexists _, _, _. split; [apply (run_observed _ _ _ _ _ _ _ _ _ _ _ R L3 TP J)|]. cbv zeta. destruct (run_ends _ _ _ _ _ _ _ _ _ _ _ R L3 TP J) as ((A1 & A2 & A3 & A4 & A5 & A6 & A7 & A8) & (B1 & B2 & B3 & B4 & B5 & B6 & B7 & B8)). cbv zeta in *.
  destruct (joint_curve false dim ws tau (lead_time ws k) j (tr_v3 _ _ _ _ _ _ _ _ _ _ R) L33 TP) as (_ & SM & _ & KN & _).
  set (t := lead_time ws k) in *. set (T0 := tr_end ws ws k - trail_time ws k') in *. assert (LT0 : 2 * t < T0) by (unfold T0; lra). unfold path. intros x. split.
  - apply glue_derive; [apply A7|apply glue_derive; [apply SM|apply B7|now symmetry|now symmetry]| |]; rewrite glue_l by lra; assumption.
  - apply cont_at_pt. apply glue_cont; [intros y; apply cont_at_pt, derivable_continuous_pt; eexists; apply A7| |rewrite glue_l by lra; assumption].
    apply glue_cont; [intros y; apply cont_at_pt, derivable_continuous_pt; eexists; apply SM|intros y; apply cont_at_pt, derivable_continuous_pt; eexists; apply B7|now symmetry].
Qed.
Print Assumptions C168_leading_join_partial.

(** A bump: only the second of five waypoints is away from the rest. *)
Definition bump_like (ws : list waypoint) : Prop := valid 1 ws /\ n_of ws = 4%nat /\ forall i, angle (wp ws i) 0 = nth i [0; 1; 0; 0; 0] 0.
Lemma bump_rows ws tau : bump_like ws -> 0 < tau -> let D := fun i => w_duration (wp ws i) in let z := knot ws tau 0 in
  (beta tau (D 0%nat) + beta tau (D 1%nat)) * z 1%nat + alpha tau (D 1%nat) * z 2%nat = tau * tau * (- / D 1%nat - / D 0%nat)
  /\ alpha tau (D 1%nat) * z 1%nat + (beta tau (D 1%nat) + beta tau (D 2%nat)) * z 2%nat + alpha tau (D 2%nat) * z 3%nat = tau * tau * / D 1%nat
  /\ alpha tau (D 2%nat) * z 2%nat + (beta tau (D 2%nat) + beta tau (D 3%nat)) * z 3%nat = 0.
Proof.
  intros (V & N & A) TP D z. destruct (joint_curve false 1 ws tau 0 0 V ltac:(unfold n_of in N; lia) TP) as (_ & _ & _ & _ & Z0 & Z4 & ROW). rewrite N in Z4. fold z in Z0, Z4, ROW.
  pose proof (ROW 1%nat (le_n 1) ltac:(lia)) as R1. pose proof (ROW 2%nat ltac:(lia) ltac:(lia)) as R2. pose proof (ROW 3%nat ltac:(lia) ltac:(lia)) as R3. cbv zeta in R1, R2, R3. cbn [Nat.sub Nat.add] in R1, R2, R3. rewrite !A in R1, R2, R3. cbn [nth] in R1, R2, R3. fold (D 0%nat) (D 1%nat) (D 2%nat) (D 3%nat) in R1, R2, R3.
  rewrite Z0 in R1. rewrite Z4 in R3. split; [|split].
  - transitivity (alpha tau (D 0%nat) * 0 + (beta tau (D 0%nat) + beta tau (D 1%nat)) * z 1%nat + alpha tau (D 1%nat) * z 2%nat); [ring|]. rewrite R1. unfold Rdiv. ring.
  - rewrite R2. unfold Rdiv. ring.
  - transitivity (alpha tau (D 2%nat) * z 2%nat + (beta tau (D 2%nat) + beta tau (D 3%nat)) * z 3%nat + alpha tau (D 3%nat) * 0); [ring|]. rewrite R3. unfold Rdiv. ring.
Qed.
Lemma bump_dur ws i : bump_like ws -> (i < 4)%nat -> 0 < w_duration (wp ws i). Proof. intros (V & N & _) I. apply (v_dur _ _ V). unfold n_of in N. lia. Qed.
Lemma bump_nonzero ws tau : bump_like ws -> 0 < tau -> knot ws tau 0 1 <> 0.
Proof.
  intros B TP Z. destruct (bump_rows ws tau B TP) as (R1 & R2 & R3). cbv zeta in *. rewrite Z in R1, R2. pose proof (bump_dur ws 0 B ltac:(lia)) as D0. pose proof (bump_dur ws 1 B ltac:(lia)) as D1. pose proof (bump_dur ws 2 B ltac:(lia)) as D2. pose proof (bump_dur ws 3 B ltac:(lia)) as D3.
  pose proof (alpha_beta tau _ TP D1) as A1. pose proof (alpha_beta tau _ TP D2) as A2. pose proof (alpha_beta tau _ TP D3) as A3. apply Rinv_0_lt_compat in D0, D1.
  set (a1 := alpha tau (w_duration (wp ws 1))) in *. set (b1 := beta tau (w_duration (wp ws 1))) in *. set (a2 := alpha tau (w_duration (wp ws 2))) in *. set (b2 := beta tau (w_duration (wp ws 2))) in *. set (b3 := beta tau (w_duration (wp ws 3))) in *. set (z2 := knot ws tau 0 2) in *. set (z3 := knot ws tau 0 3) in *.
  assert (P : 0 < tau * tau) by nra. assert (NEG : a1 * z2 < 0) by nra. assert (N2 : z2 < 0) by nra.
  assert (Z3 : 0 < z3 <= - z2) by (split; [nra|]; nra). nra.
Qed.
Lemma same_factor a x y : 0 < a -> a * x = a * y -> x = y. Proof. intros A E. apply Rmult_eq_reg_l with a; [exact E|lra]. Qed.
Lemma same_bends b0 a1 b1 a2 b2 b3 c3 z1 z2 z3 y2 y3 u0 u1 r1 r2 : 0 < a1 -> 0 < a2 -> b3 < c3 -> 0 < b0 -> a1 < b1 -> 0 < u1 -> 0 < u0 -> r1 = - u1 - u0 -> r2 = u1 ->
  (b0 + b1) * z1 + a1 * z2 = r1 -> a1 * z1 + (b1 + b2) * z2 + a2 * z3 = r2 -> a2 * z2 + (b2 + b3) * z3 = 0 ->
  (b0 + b1) * z1 + a1 * y2 = r1 -> a1 * z1 + (b1 + b2) * y2 + a2 * y3 = r2 -> a2 * y2 + (b2 + c3) * y3 = 0 -> False.
Proof.
  intros A1 A2 BC B0 AB U1 U0 -> -> R1 R2 R3 S1 S2 S3. assert (z2 = y2) by (apply (same_factor a1); lra). subst y2. assert (z3 = y3) by (apply (same_factor a2); lra). subst y3.
  assert (z3 = 0) by (apply (same_factor (c3 - b3)); lra). subst z3. assert (z2 = 0) by (apply (same_factor a2); lra). subst z2. assert (E : a1 * z1 = u1) by lra. assert (0 < z1) by nra. nra.
Qed.
(** Lengthening the last segment bends the first one. *)
Lemma bump_moves w w' tau : bump_like w -> bump_like w' -> 0 < tau -> (forall i, (i < 3)%nat -> w_duration (wp w' i) = w_duration (wp w i)) -> w_duration (wp w 3) < w_duration (wp w' 3) -> knot w tau 0 1 <> knot w' tau 0 1.
Proof.
  intros B B' TP SD LT Z. destruct (bump_rows w tau B TP) as (R1 & R2 & R3). destruct (bump_rows w' tau B' TP) as (S1 & S2 & S3). cbv zeta in *. rewrite (SD 0%nat), (SD 1%nat) in S1 by lia. rewrite (SD 1%nat), (SD 2%nat) in S2 by lia. rewrite (SD 2%nat) in S3 by lia. rewrite <- Z in S1, S2. pose proof (bump_nonzero w tau B TP) as NZ.
  pose proof (bump_dur w 0 B ltac:(lia)) as D0. pose proof (bump_dur w 1 B ltac:(lia)) as D1. pose proof (bump_dur w 2 B ltac:(lia)) as D2. pose proof (bump_dur w 3 B ltac:(lia)) as D3.
  pose proof (alpha_beta tau _ TP D0) as A0. pose proof (alpha_beta tau _ TP D1) as A1. pose proof (alpha_beta tau _ TP D2) as A2. pose proof (alpha_beta tau _ TP D3) as A3. pose proof (beta_lt tau _ _ TP D3 LT) as BL. apply Rinv_0_lt_compat in D0, D1.
  assert (P : 0 < tau * tau) by nra. assert (NZ' : 0 < tau * tau * / w_duration (wp w 1)) by nra. assert (NZ0 : 0 < tau * tau * / w_duration (wp w 0)) by nra.
  refine (same_bends _ _ _ _ _ _ _ _ _ _ _ _ _ _ _ _ _ _ BL _ _ NZ' NZ0 _ _ R1 R2 R3 S1 S2 S3); try lra; ring.
Qed.
(** The spline strictly between the first two knots sees the second one's curvature. *)
Lemma sinh_shrink s u : 0 < s < 1 -> 0 < u -> sinh (s * u) < s * sinh u.
Proof.
  intros [S0 S1] U. assert (P0 : 0 < s * u) by (apply Rmult_lt_0_compat; lra). assert (P1 : 0 < (1 - s) * u) by (apply Rmult_lt_0_compat; lra). assert (P2 : s * u < u) by lra. destruct (MVT_cor2 sinh cosh 0 (s * u) P0) as (c1 & E1 & C1); [intros; apply derivable_pt_lim_sinh|]. destruct (MVT_cor2 sinh cosh (s * u) u P2) as (c2 & E2 & C2); [intros; apply derivable_pt_lim_sinh|].
  rewrite sinh_0 in E1. destruct (MVT_cor2 cosh sinh c1 c2 ltac:(lra)) as (c3 & E3 & C3); [intros; apply derivable_pt_lim_cosh|]. pose proof (sinh_pos c3 ltac:(lra)). assert (cosh c1 < cosh c2) by nra.
  replace (sinh u) with (cosh c2 * (u - s * u) + cosh c1 * (s * u)) by lra. replace (sinh (s * u)) with (cosh c1 * (s * u)) by lra. assert (0 < s * u * (1 - s) * (cosh c2 - cosh c1)) by (repeat apply Rmult_lt_0_compat; lra). lra.
Qed.
Lemma start_differs w w' tau t x : bump_like w -> bump_like w' -> 0 < tau -> w_duration (wp w' 0) = w_duration (wp w 0) -> t < x < t + w_duration (wp w 0) -> knot w tau 0 1 <> knot w' tau 0 1 -> pos w tau t 0 x <> pos w' tau t 0 x.
Proof.
  intros B B' TP DE X Z E. assert (D0 : 0 < w_duration (wp w 0)) by (apply bump_dur; [exact B|lia]).
  assert (F : forall ws, bump_like ws -> w_duration (wp ws 0) = w_duration (wp w 0) -> pos ws tau t 0 x = te (mk_tfun t 0 0 (t + w_duration (wp w 0)) 1 (knot ws tau 0 1)) tau x).
  { intros ws (V & N & A) ED. destruct (joint_curve false 1 ws tau t 0 V ltac:(unfold n_of in N; lia) TP) as (_ & _ & SG & _ & K0 & _). destruct (SG 0%nat x ltac:(lia)) as (H & _). { rewrite elapsed_succ, elapsed_0 by lia. rewrite ED. lra. }
    rewrite H. rewrite elapsed_succ, elapsed_0, K0, !A, ED by lia. cbn [nth]. do 2 f_equal; lra. }
  rewrite (F w B eq_refl), (F w' B' DE) in E. clear F. unfold te in E. cbn [t_x0 t_xf t_y0 t_yf t_z0 t_zf] in E. set (d := w_duration (wp w 0)) in *. set (z := knot w tau 0 1) in *. set (z' := knot w' tau 0 1) in *. replace (t + d - t) with d in E by ring.
  pose proof (sinh_shrink ((x - t) / d) (tau * d)) as SH. replace ((x - t) / d * (tau * d)) with (tau * (x - t)) in SH by (field; lra).
  assert (S01 : 0 < (x - t) / d < 1). { split; [apply Rdiv_lt_0_compat; lra|]. apply Rmult_lt_reg_r with d; [lra|]. unfold Rdiv. rewrite Rmult_assoc, Rinv_l by lra. lra. }
  specialize (SH S01 ltac:(nra)). pose proof (sinh_pos (tau * d) ltac:(nra)) as SP. set (S := sinh (tau * d)) in *. set (q := sinh (tau * (x - t))) in *. set (r := (x - t) / d) in *.
  assert (EQ : (z - z') * (q / S - r) = 0).
  { apply Rmult_eq_reg_r with (/ (tau * tau)); [|apply Rinv_neq_0_compat; nra]. rewrite Rmult_0_l. replace ((z - z') * (q / S - r) * / (tau * tau)) with
      ((0 * sinh (tau * (t + d - x)) + z * q) / (tau * tau * S) + (0 - 0 / (tau * tau)) * (t + d - x) / d + (1 - z / (tau * tau)) * (x - t) / d - ((0 * sinh (tau * (t + d - x)) + z' * q) / (tau * tau * S) + (0 - 0 / (tau * tau)) * (t + d - x) / d + (1 - z' / (tau * tau)) * (x - t) / d)) by (unfold r; field; repeat split; lra). lra. }
  apply Rmult_integral in EQ. destruct EQ as [Q|Q]; [lra|]. assert (q = r * S); [|lra]. apply Rmult_eq_reg_r with (/ S); [|apply Rinv_neq_0_compat; lra]. replace (r * S * / S) with r by (field; lra). unfold Rdiv in Q. lra.
Qed.
Lemma glue_jump L (a b : R -> R) : continuity_pt b L -> a L <> b L -> ~ continuity_pt (glue L a b) L.
Proof.
  intros CB NE CG. apply cont_at_pt in CB, CG. assert (EP : 0 < Rabs (a L - b L) / 2) by (apply Rdiv_lt_0_compat; [apply Rabs_pos_lt|]; lra). destruct (CB _ EP) as (d1 & P1 & H1). destruct (CG _ EP) as (d2 & P2 & H2).
  set (y := L + Rmin d1 d2 / 2). pose proof (Rmin_l d1 d2). pose proof (Rmin_r d1 d2). assert (0 < Rmin d1 d2) by (apply Rmin_pos; assumption). assert (AY : Rabs (y - L) = Rmin d1 d2 / 2) by (unfold y; rewrite Rabs_right; lra).
  specialize (H1 y ltac:(lra)). specialize (H2 y ltac:(lra)). rewrite glue_r in H2 by (unfold y; lra). rewrite glue_l in H2 by lra. pose proof (Rabs_triang (b y - b L) (- (b y - a L))) as TR. rewrite Rabs_Ropp in TR. replace (b y - b L + - (b y - a L)) with (a L - b L) in TR by ring. lra.
Qed.
Lemma five_first a b c d e r s w0 : Rabs (b - a) <= 1 -> Rabs (c - b) <= 1 -> Rabs (d - c) <= 1 -> Rabs (e - d) <= 1 -> initialise_loop 1 (five a b c d e r s) = FOk (w0, true) -> forall i, (i < 4)%nat -> w_duration (wp w0 i) = 1.
Proof.
  intros H1 H2 H3 H4 EI i I. destruct (initialise_iff 1 (five a b c d e r s)) as (w' & q & EI' & _ & S & _ & TT & _); [discriminate|apply five_ok|apply five_acceptable|]. rewrite EI in EI'. injection EI' as <- <-. destruct (S i) as [_ S2].
  destruct (TT eq_refl i ltac:(cbn; lia)) as (Q & [Q1 Q2 Q3]). assert (D1 : w_duration (wp (five a b c d e r s) i) = 1) by (destruct i as [|[|[|[|i]]]]; try lia; reflexivity). rewrite D1 in *. destruct Q3 as [Q3|(j & J & Q3)]; [lra|]. assert (j = 0%nat) as -> by lia.
  assert (NM : nominal (wp (five a b c d e r s) i) 0 = 1) by (destruct i as [|[|[|[|i]]]]; try lia; reflexivity). rewrite NM in Q3. assert (Rabs (angle (wp (five a b c d e r s) (Datatypes.S i)) 0 - angle (wp (five a b c d e r s) i) 0) <= 1) by (destruct i as [|[|[|[|i]]]]; try lia; assumption). lra.
Qed.
Lemma bump_evolves ws r s : valid 1 ws -> evolves 1 (five 0 1 0 0 0 r s) ws -> bump_like ws.
Proof.
  intros V E. split; [exact V|]. split; [rewrite (evolves_n _ _ _ E); reflexivity|]. intros i. unfold angle. rewrite (e_angles _ _ _ E). destruct i as [|[|[|[|[|i]]]]]; try reflexivity. cbn. destruct i; reflexivity.
Qed.

(** The position jumps. *)
Theorem C168_leading_join_refuted : exists wps acc fuel T fss ws, acceptable 1 wps /\ Forall (wp_ok 1) wps /\ (5 <= length wps)%nat /\ 0 < nth 0 acc 0 /\ tension_interpolate true fuel wps acc 1 = FOk (Some (T, fss, ws))
  /\ exists p v a L, observed fss 0 T p v a /\ 0 < L < T /\ ~ continuity_pt p L.
Proof.
  set (kb := knot_bound 1 1 1). set (vb := vel_bound 1 1 1). set (A := Rabs kb + 1). set (V := A + Rabs vb + 1). set (wps := five 0 1 0 0 0 None (Some V)).
  pose proof (Rabs_pos kb) as K0. pose proof (Rabs_pos vb) as V0. pose proof (Rle_abs kb) as K1. pose proof (Rle_abs vb) as V1.
  destruct (five_finishes true 0 1 0 0 0 None (Some V) 1 A ltac:(lra) ltac:(unfold A; lra)) as (fuel & T & fss & ws & E). fold wps in E. exists wps, [A], fuel, T, fss, ws.
  assert (W : Forall (wp_ok 1) wps) by apply five_ok. assert (ACC : acceptable 1 wps) by apply five_acceptable. split; [exact ACC|]. split; [exact W|]. split; [cbn; lia|]. split; [cbn; unfold A; lra|]. split; [exact E|].
  destruct (suits_run true 1 wps [A] 1 fuel T fss ws (le_n 1) eq_refl W ltac:(lra) ltac:(now left) E) as (L3 & w0 & w1 & w2 & k & k' & R & -> & ->).
  destruct (run_facts _ _ _ _ _ _ _ _ _ _ R L3) as (EV & N3 & N2 & N1 & L33 & L32 & DE & AN & AN2 & RT & LB & TB & MID).
  assert (D0 : forall i, (i < 4)%nat -> w_duration (wp w0 i) = 1). { apply (five_first 0 1 0 0 0 None (Some V)); [| | | |exact (tr_init _ _ _ _ _ _ _ _ _ _ R)]; unfold Rabs; destruct (Rcase_abs _); lra. }
  assert (B0 : bump_like w0) by (apply (bump_evolves w0 None (Some V)); [apply (tr_v0 _ _ _ _ _ _ _ _ _ _ R)|apply (tr_e0 _ _ _ _ _ _ _ _ _ _ R)]).
  assert (YB : forall i, Rabs (nth i [0; 1; 0; 0; 0] 0) <= 1). { intros i. destruct i as [|[|[|[|[|i]]]]]; cbn; try (destruct i); rewrite ?Rabs_R0, ?Rabs_R1; lra. }
  assert (W1 : w1 = w0).
  { destruct (tr_grew1 _ _ _ _ _ _ _ _ _ _ R) as [Q|(Q & _)]; [exact Q|]. exfalso. apply Q. intros i I j J. assert (j = 0%nat) as -> by lia. destruct B0 as (BV & BN & BA). destruct (segment_bounds 1 w0 1 0 1 1 BV ltac:(unfold n_of in BN; lia) ltac:(lra) ltac:(lia) ltac:(lra)) as (KB & _).
    { intros q QI. rewrite BN in QI. rewrite D0 by exact QI. lra. } { intros q _. rewrite BA. apply YB. } specialize (KB i ltac:(lia)). fold kb in KB. cbn [nth]. unfold A. lra. }
  subst w1. assert (D2 : forall i, (1 <= i < 4)%nat -> w_duration (wp w2 i) = 1). { intros i I. rewrite (tr_inner2 _ _ _ _ _ _ _ _ _ _ R i ltac:(lia)). destruct (settle_ends_spec 1 w0 (tr_v0 _ _ _ _ _ _ _ _ _ _ R)) as (_ & _ & DU & _). rewrite DU. apply D0. lia. }
  assert (D2' : 1 <= w_duration (wp w2 0)). { pose proof (run_durations _ _ _ _ _ _ _ _ _ _ 0 R). rewrite D0 in * by lia. lra. }
  assert (B2 : bump_like w2). { split; [apply (tr_v2 _ _ _ _ _ _ _ _ _ _ R)|]. split; [rewrite N2; reflexivity|]. intros i. rewrite AN2. destruct i as [|[|[|[|[|i]]]]]; try reflexivity. cbn. destruct i; reflexivity. }
  assert (B3 : bump_like ws) by (apply (bump_evolves ws None (Some V)); [apply (tr_v3 _ _ _ _ _ _ _ _ _ _ R)|exact EV]).
  change (n_of wps) with 4%nat in *. cbn [Nat.sub] in *.
  assert (G3 : w_duration (wp w2 3) < w_duration (wp ws 3)).
  { destruct (tr_grew3 _ _ _ _ _ _ _ _ _ _ R) as [Q|(Q & _)]; [|rewrite N2 in Q; cbn [Nat.sub] in Q; rewrite D2 in * by lia; lra]. exfalso.
    pose proof (tr_trail _ _ _ _ _ _ _ _ _ _ R 0%nat ltac:(lia)) as PT. unfold trail_m in PT. cbv zeta in PT. fold (tr_end w2 ws k) in PT. rewrite N3 in PT. destruct (RT 0%nat ltac:(lia)) as [_ RV]. rewrite RV in PT. change (end_rate (wp wps 4) 0) with V in PT. cbn [nth] in PT.
    set (tf := tr_end w2 ws k) in *. set (t' := trail_time ws k') in *. set (t := lead_time w2 k) in *. set (v := vel ws 1 t 0 (tf - t')) in *.
    pose proof (peak_mean (tf - t') (pos ws 1 t 0 (tf - t')) v (tf + t') (angle (wp ws 4) 0) V ltac:(lra)) as PM. set (m := peak _ _ _ _ _ _) in *. assert (W3 : w_duration (wp ws 3) = 1) by (rewrite Q; apply D2; lia). rewrite W3 in *.
    destruct B3 as (BV & BN & BA). destruct (segment_bounds 1 ws 1 0 1 1 BV ltac:(unfold n_of in BN; lia) ltac:(lra) ltac:(lia) ltac:(lra)) as (_ & SB).
    { intros q QI. rewrite BN in QI. rewrite Q. destruct q as [|q]; [exact D2'|]. rewrite D2 by lia. lra. } { intros q _. rewrite BA. apply YB. }
    destruct (SB t 3%nat (tf - t') ltac:(lia)) as (_ & SV). { unfold tf, tr_end. fold t. rewrite <- elapsed_n, BN. assert (E4 : elapsed ws 4 = elapsed ws 3 + 1) by (rewrite (elapsed_succ ws 3) by lia; lra). lra. }
    fold v vb in SV. rewrite (Rabs_right A) in PT by (unfold A; lra). assert (m * (tf + t' - (tf - t')) <= A). { replace (tf + t' - (tf - t')) with (2 * t') by ring. assert (0 <= m); [|nra]. pose proof (Rabs_pos (V - v)). nra. }
    apply Rabs_le_inv in SV. pose proof (Rle_abs (V - v)). unfold V in *. lra. }
  assert (KN : knot w2 1 0 1 <> knot ws 1 0 1).
  { apply bump_moves; [exact B2|exact B3|lra| |exact G3]. intros i I. f_equal. apply (tr_inner3 _ _ _ _ _ _ _ _ _ _ R). rewrite N2. cbn. lia. }
  eexists _, _, _, (2 * lead_time w2 k). split; [apply (run_observed _ _ _ _ _ _ _ _ _ _ 0%nat R L3 ltac:(lra) ltac:(lia))|]. cbv zeta. split; [lra|].
  destruct (run_ends _ _ _ _ _ _ _ _ _ _ 0%nat R L3 ltac:(lra) ltac:(lia)) as ((_ & _ & _ & A4 & _) & _). cbv zeta in A4. destruct (joint_curve false 1 ws 1 (lead_time w2 k) 0 (tr_v3 _ _ _ _ _ _ _ _ _ _ R) L33 ltac:(lra)) as (_ & SM & _).
  destruct (run_ends _ _ _ _ _ _ _ _ _ _ 0%nat R L3 ltac:(lra) ltac:(lia)) as (_ & (Q1 & _ & _ & _ & _ & _ & Q7 & _)). cbv zeta in Q1, Q7.
  unfold path. apply glue_jump.
  - apply cont_at_pt. apply glue_cont; [intros y; apply cont_at_pt, derivable_continuous_pt; eexists; apply SM|intros y; apply cont_at_pt, derivable_continuous_pt; eexists; apply Q7|now symmetry].
  - rewrite glue_l by lra. rewrite A4. apply start_differs; [exact B2|exact B3|lra|exact DE| |exact KN]. lra.
Qed.
Print Assumptions C168_leading_join_refuted.

(** * C170: the accelerations *)

Lemma same_durations w w' i j tau : n_of w = n_of w' -> (0 < n_of w)%nat -> (forall k, (k < n_of w)%nat -> w_duration (wp w k) = w_duration (wp w' k)) -> (forall k, angle (wp w k) j = angle (wp w' k) j) -> knot w tau j i = knot w' tau j i.
Proof.
  intros N NP D A. unfold knot. assert (LN : length w = length w') by (unfold n_of in *; lia). assert (ED : durations w = durations w'). { apply nth_ext with (d := 0) (d' := 0); [rewrite !durations_len; exact N|]. rewrite durations_len. intros k K. rewrite !durations_nth by lia. apply D. exact K. }
  unfold t_times. rewrite ED. assert (EC : col w j = col w' j). { apply nth_ext with (d := 0) (d' := 0); [rewrite !col_len; exact LN|]. rewrite col_len. intros k K. rewrite !col_nth by lia. apply A. }
  now rewrite EC.
Qed.
Lemma find_segment ws x : forall m, (m <= n_of ws)%nat -> 0 <= x <= elapsed ws m -> (0 < m)%nat -> exists i, (i < m)%nat /\ elapsed ws i <= x <= elapsed ws (S i).
Proof.
  induction m as [|m IH]; intros M X P; [lia|]. destruct (Rle_dec x (elapsed ws m)) as [L|L].
  - destruct m as [|m]; [exists 0%nat; split; [lia|]; rewrite elapsed_0 in *; lra|]. destruct (IH ltac:(lia) ltac:(lra) ltac:(lia)) as (i & I & B). exists i. split; [lia|exact B].
  - exists m. split; [lia|]. lra.
Qed.

(** If neither the first nor the last segment was lengthened, the bounds hold all along. *)
Theorem C170_accelerations_partial : forall debug dim wps acc tau fuel T fss ws, (1 <= dim)%nat -> length acc = dim -> Forall (wp_ok dim) wps -> 0 < tau -> suits debug dim wps ->
  tension_interpolate debug fuel wps acc tau = FOk (Some (T, fss, ws)) -> kept dim wps ws 0 -> kept dim wps ws (length wps - 2) ->
  forall j, (j < dim)%nat -> exists p v a, observed fss j T p v a /\ forall t, 0 <= t <= T -> Rabs (a t) <= Rabs (nth j acc 0).
Proof.
  intros debug dim wps acc tau fuel T fss ws D1 LA W TP S E KF KL j J. pose proof (suits_acceptable _ _ _ _ _ _ _ _ _ D1 LA W S E) as ACC. destruct (suits_run _ _ _ _ _ _ _ _ _ D1 LA W TP S E) as (L3 & w0 & w1 & w2 & k & k' & R & -> & ->).
  destruct (run_facts _ _ _ _ _ _ _ _ _ _ R L3) as (EV & N3 & N2 & N1 & L33 & _ & _ & AN & _ & _ & LB & TB & MID). destruct (settle_ends_spec dim w1 (tr_v1 _ _ _ _ _ _ _ _ _ _ R)) as (_ & ES & DU & _).
  assert (A1 : forall q, angle (wp w1 q) j = angle (wp wps q) j). { intros q. unfold angle. rewrite (e_angles _ _ _ (lg_ev _ _ _ (tr_01 _ _ _ _ _ _ _ _ _ _ R))). now rewrite (e_angles _ _ _ (tr_e0 _ _ _ _ _ _ _ _ _ _ R)). }
  assert (EQ : ws = settle_ends w1).
  { pose proof (run_durations _ _ _ _ _ _ _ _ _ _ (length wps - 2) R) as DD. pose proof (kept_first dim wps w0 ws (length wps - 2) W ACC (tr_init _ _ _ _ _ _ _ _ _ _ R) ltac:(lra) ltac:(lia) KL) as DK.
    pose proof (run_durations _ _ _ _ _ _ _ _ _ _ 0 R) as DD0. pose proof (kept_first dim wps w0 ws 0 W ACC (tr_init _ _ _ _ _ _ _ _ _ _ R) ltac:(lra) ltac:(lia) KF) as DK0.
    destruct (tr_grew3 _ _ _ _ _ _ _ _ _ _ R) as [Q|(Q & _)].
    - destruct (tr_grew2 _ _ _ _ _ _ _ _ _ _ R) as [Q'|(Q' & _)]; [congruence|]. exfalso. pose proof (v_dur _ _ (tr_v1 _ _ _ _ _ _ _ _ _ _ R) 0%nat ltac:(unfold n_of in N1; lia)). lra.
    - exfalso. replace (n_of w2 - 1)%nat with (length wps - 2)%nat in Q by (rewrite N2; unfold n_of; lia). pose proof (v_dur _ _ (tr_v2 _ _ _ _ _ _ _ _ _ _ R) (length wps - 2)%nat ltac:(unfold n_of in N2; lia)). lra. }
  assert (KE : forall i, knot ws tau j i = knot w1 tau j i).
  { intros i. apply same_durations; [congruence|unfold n_of in N3 |- *; lia|intros q _; rewrite EQ; apply DU|intros q; now rewrite AN, A1]. }
  destruct (joint_curve false dim ws tau (lead_time w2 k) j (tr_v3 _ _ _ _ _ _ _ _ _ _ R) L33 TP) as (_ & _ & SG & _ & K0 & KN & _). rewrite N3 in KN.
  assert (KB : forall i, (i <= n_of wps)%nat -> Rabs (knot ws tau j i) <= Rabs (nth j acc 0)).
  { intros i I. destruct (Nat.eq_dec i 0) as [->|NZ]; [rewrite K0, Rabs_R0; apply Rabs_pos|]. destruct (Nat.eq_dec i (n_of wps)) as [->|NN]; [rewrite KN, Rabs_R0; apply Rabs_pos|]. rewrite KE.
    eapply Rle_trans; [apply (tr_knots _ _ _ _ _ _ _ _ _ _ R i ltac:(lia) j J)|apply Rle_abs]. }
  destruct (run_ends _ _ _ _ _ _ _ _ _ _ _ R L3 TP J) as ((_ & _ & _ & _ & _ & _ & _ & Q8) & (_ & _ & _ & _ & _ & _ & _ & B8)). cbv zeta in *.
  eexists _, _, _. split; [apply (run_observed _ _ _ _ _ _ _ _ _ _ _ R L3 TP J)|]. cbv zeta. set (t := lead_time w2 k) in *. set (T0 := tr_end w2 ws k - trail_time ws k') in *. intros x X. unfold path.
  destruct (Rle_dec x (2 * t)) as [X1|X1]; [rewrite glue_l by lra; apply Rlt_le, Q8; lra|]. rewrite glue_r by lra.
  destruct (Rle_dec x T0) as [X2|X2]; [|rewrite glue_r by lra; apply Rlt_le, B8; lra]. rewrite glue_l by lra.
  destruct (find_segment ws (x - t) (n_of wps)) as (i & I & B); [lia| |unfold n_of; lia|]. { rewrite <- N3, elapsed_n. unfold T0, tr_end in X2. fold t in X2. lra. }
  destruct (SG i x ltac:(lia) ltac:(lra)) as (_ & _ & ->). pose proof (v_dur _ _ (tr_v3 _ _ _ _ _ _ _ _ _ _ R) i ltac:(unfold n_of in N3, I; lia)) as DP. pose proof (elapsed_succ ws i ltac:(lia)) as ES'.
  apply te2_bound; cbn [t_x0 t_xf t_z0 t_zf]; try lra; apply KB; lia.
Qed.
Print Assumptions C170_accelerations_partial.

(** With large enough bounds nothing is lengthened. *)
Theorem C170_ample_bounds : forall dim wps tau, (1 <= dim)%nat -> Forall (wp_ok dim) wps -> 0 < tau -> acceptable dim wps -> (3 <= length wps)%nat ->
  exists A, 0 < A /\ forall debug acc fuel T fss ws, length acc = dim -> (forall j, (j < dim)%nat -> A <= nth j acc 0) -> tension_interpolate debug fuel wps acc tau = FOk (Some (T, fss, ws)) -> forall i, (S i < length wps)%nat -> kept dim wps ws i.
Proof.
  intros dim wps tau D1 W TP ACC L3. destruct (acceptable_init dim wps W ACC) as (w0 & EI & V0 & E0). destruct (settle_ends_spec dim w0 V0) as (VS & ES & DU & _). pose proof (evolves_n _ _ _ E0) as N0. pose proof (evolves_n _ _ _ ES) as NS. assert (L30 : (3 <= length w0)%nat) by (rewrite (e_len _ _ _ E0); exact L3). assert (L3S : (3 <= length (settle_ends w0))%nat) by (rewrite (e_len _ _ _ ES); exact L30).
  destruct (lead_good dim tau _ TP VS L3S) as (K1 & G1). destruct (trail_good dim tau _ TP VS L3S) as (K2 & G2). destruct (bounded_seq2 (fun i j => knot w0 tau j i) (n_of w0) dim) as (B & B0 & KB).
  assert (N2 : (2 <= n_of wps)%nat) by (unfold n_of; lia). set (d0 := w_duration (wp w0 0)). set (dn := w_duration (wp w0 (n_of w0 - 1))).
  assert (P0 : 0 < d0) by (apply (v_dur _ _ V0); lia). assert (PN : 0 < dn) by (apply (v_dur _ _ V0); unfold n_of; lia).
  assert (NN : forall K d, 0 < d -> 0 <= Rabs K / d). { intros K d DP. apply Rmult_le_pos; [apply Rabs_pos|apply Rlt_le, Rinv_0_lt_compat; exact DP]. }
  assert (SMALL : forall K d A, 0 < d -> Rabs K / d < A -> K / A < d). { intros K d A DP H. pose proof (NN K d DP). apply Rmult_lt_reg_r with A; [lra|]. unfold Rdiv. rewrite Rmult_assoc, Rinv_l, Rmult_1_r by lra. pose proof (Rle_abs K). apply Rmult_lt_compat_l with (r := d) in H; [|exact DP]. replace (d * (Rabs K / d)) with (Rabs K) in H by (field; lra). lra. }
  pose proof (NN K1 d0 P0). pose proof (NN K2 dn PN). set (A := 1 + B + Rabs K1 / d0 + Rabs K2 / dn). assert (AP : 0 < A) by (unfold A; lra). exists A. split; [exact AP|]. intros debug acc fuel T fss ws LA AL E i I.
  destruct (suits_run debug dim wps acc tau fuel T fss ws D1 LA W TP ltac:(right; split; assumption) E) as (_ & w0' & w1 & w2 & k & k' & R & _ & _). pose proof (tr_init _ _ _ _ _ _ _ _ _ _ R) as EI'. rewrite EI in EI'. injection EI' as <-.
  assert (W1 : w1 = w0). { destruct (tr_grew1 _ _ _ _ _ _ _ _ _ _ R) as [Q|(Q & _)]; [exact Q|]. exfalso. apply Q. intros q QI j J. eapply Rle_trans; [apply (KB q j ltac:(lia) J)|]. eapply Rle_trans; [|apply (AL j J)]. unfold A. lra. } subst w1.
  assert (W2 : w2 = settle_ends w0). { destruct (tr_grew2 _ _ _ _ _ _ _ _ _ _ R) as [Q|(_ & j & J & Q)]; [exact Q|]. exfalso. pose proof (G1 acc A _ AP AL VS (longer_refl _ _) ltac:(rewrite DU; fold d0; apply SMALL; [exact P0|unfold A; lra]) j J). lra. } subst w2.
  assert (W3 : ws = settle_ends w0). { destruct (tr_grew3 _ _ _ _ _ _ _ _ _ _ R) as [Q|(_ & j & J & Q)]; [exact Q|]. exfalso. pose proof (G2 (2 * lead_time (settle_ends w0) k) acc A _ AP AL VS (longer_refl _ _) ltac:(rewrite DU, NS; fold dn; apply SMALL; [exact PN|unfold A; lra]) j J) as H'. replace (2 * lead_time (settle_ends w0) k / 2) with (lead_time (settle_ends w0) k) in H' by lra. lra. } subst ws.
  destruct ACC as (L2 & P & AC). destruct (initialise_iff dim wps) as (w' & b & EI' & _ & _ & _ & TT & _); auto; [destruct wps; [cbn in L2; lia|discriminate]|]. rewrite EI in EI'. injection EI' as <- <-. destruct (TT eq_refl i I) as (Q & [Q1 Q2 Q3]). unfold kept. rewrite DU. exact Q3.
Qed.
Print Assumptions C170_ample_bounds.

(** Five waypoints in a line, passed at their nominal rate: starting from rest, the bound is exceeded elsewhere. *)
Lemma line_evolves ws r s i : evolves 1 (five 0 1 2 3 4 r s) ws -> angle (wp ws i) 0 = nth i [0; 1; 2; 3; 4] 0.
Proof. intros E. unfold angle. rewrite (e_angles _ _ _ E). destruct i as [|[|[|[|[|i]]]]]; try reflexivity. cbn. destruct i; reflexivity. Qed.
Lemma line_flat ws tau r s : valid 1 ws -> evolves 1 (five 0 1 2 3 4 r s) ws -> (forall i, (i < 4)%nat -> w_duration (wp ws i) = 1) -> 0 < tau -> forall i, (i <= 4)%nat -> knot ws tau 0 i = 0.
Proof.
  intros V E D TP i I. pose proof (evolves_n _ _ _ E) as N. change (n_of (five 0 1 2 3 4 r s)) with 4%nat in N. destruct (joint_curve false 1 ws tau 0 0 V ltac:(unfold n_of in N; lia) TP) as (_ & _ & _ & _ & Z0 & Z4 & ROW). rewrite N in Z4. set (z := knot ws tau 0) in *.
  pose proof (ROW 1%nat ltac:(lia) ltac:(lia)) as R1. pose proof (ROW 2%nat ltac:(lia) ltac:(lia)) as R2. pose proof (ROW 3%nat ltac:(lia) ltac:(lia)) as R3. cbv zeta in R1, R2, R3. cbn [Nat.sub Nat.add] in R1, R2, R3. pose proof (fun q => line_evolves ws r s q E) as AE. rewrite !AE in R1, R2, R3. rewrite !D in R1, R2, R3 by lia. cbn [nth] in R1, R2, R3. rewrite Z0 in R1. rewrite Z4 in R3.
  pose proof (alpha_beta tau 1 TP ltac:(lra)) as [A1 A2]. set (a := alpha tau 1) in *. set (b := beta tau 1) in *.
  assert (E1 : 2 * b * z 1%nat + a * z 2%nat = 0) by lra. assert (E2 : a * z 1%nat + 2 * b * z 2%nat + a * z 3%nat = 0) by lra. assert (E3 : a * z 2%nat + 2 * b * z 3%nat = 0) by lra.
  assert (B2 : 0 < 2 * b * b - a * a) by nra. assert (Y2 : z 2%nat = 0). { apply (same_factor (2 * b * b - a * a)); [exact B2|]. replace ((2 * b * b - a * a) * z 2%nat) with (b * (a * z 1%nat + 2 * b * z 2%nat + a * z 3%nat) - a / 2 * (2 * b * z 1%nat + a * z 2%nat) - a / 2 * (a * z 2%nat + 2 * b * z 3%nat)) by field. rewrite E1, E2, E3. ring. }
  rewrite Y2 in E1, E3. assert (Y1 : z 1%nat = 0) by (apply (same_factor (2 * b)); lra). assert (Y3 : z 3%nat = 0) by (apply (same_factor (2 * b)); lra). destruct i as [|[|[|[|[|i]]]]]; try assumption; lia.
Qed.
Theorem C170_accelerations_refuted : exists wps acc fuel T fss ws, acceptable 1 wps /\ Forall (wp_ok 1) wps /\ (5 <= length wps)%nat /\ 0 < nth 0 acc 0 /\ tension_interpolate true fuel wps acc 1 = FOk (Some (T, fss, ws))
  /\ exists p v a t, observed fss 0 T p v a /\ 0 < t < T /\ nth 0 acc 0 < Rabs (a t).
Proof.
  set (wps := five 0 1 2 3 4 None None). destruct (five_finishes true 0 1 2 3 4 None None 1 (1 / 100) ltac:(lra) ltac:(lra)) as (fuel & T & fss & ws & E). fold wps in E. exists wps, [1 / 100], fuel, T, fss, ws.
  assert (W : Forall (wp_ok 1) wps) by apply five_ok. assert (ACC : acceptable 1 wps) by apply five_acceptable. split; [exact ACC|]. split; [exact W|]. split; [cbn; lia|]. split; [cbn; lra|]. split; [exact E|].
  destruct (suits_run true 1 wps [1 / 100] 1 fuel T fss ws (le_n 1) eq_refl W ltac:(lra) ltac:(now left) E) as (L3 & w0 & w1 & w2 & k & k' & R & -> & ->).
  destruct (run_facts _ _ _ _ _ _ _ _ _ _ R L3) as (EV & N3 & N2 & N1 & L33 & L32 & DE & AN & AN2 & RT & LB & TB & MID). change (n_of wps) with 4%nat in *.
  assert (D0 : forall i, (i < 4)%nat -> w_duration (wp w0 i) = 1). { apply (five_first 0 1 2 3 4 None None); [| | | |exact (tr_init _ _ _ _ _ _ _ _ _ _ R)]; unfold Rabs; destruct (Rcase_abs _); lra. }
  pose proof (line_flat w0 1 None None (tr_v0 _ _ _ _ _ _ _ _ _ _ R) (tr_e0 _ _ _ _ _ _ _ _ _ _ R) D0 ltac:(lra)) as K0.
  assert (W1 : w1 = w0). { destruct (tr_grew1 _ _ _ _ _ _ _ _ _ _ R) as [Q|(Q & _)]; [exact Q|]. exfalso. apply Q. intros i I j J. assert (j = 0%nat) as -> by lia. rewrite (evolves_n _ _ _ (tr_e0 _ _ _ _ _ _ _ _ _ _ R)) in I. change (n_of wps) with 4%nat in I. rewrite K0, Rabs_R0 by lia. cbn. lra. }
  subst w1. destruct (settle_ends_spec 1 w0 (tr_v0 _ _ _ _ _ _ _ _ _ _ R)) as (VS & ES & DU & _).
  assert (D2 : forall i, (1 <= i < 4)%nat -> w_duration (wp w2 i) = 1). { intros i I. rewrite (tr_inner2 _ _ _ _ _ _ _ _ _ _ R i ltac:(lia)). rewrite DU. apply D0. lia. }
  assert (G2 : 11 / 10 <= w_duration (wp w2 0)).
  { destruct (tr_grew2 _ _ _ _ _ _ _ _ _ _ R) as [Q|(Q & _)]; [|rewrite D0 in Q by lia; lra]. exfalso. subst w2. set (w := settle_ends w0) in *. assert (EVS : evolves 1 wps w) by (eapply evolves_trans; [apply (tr_e0 _ _ _ _ _ _ _ _ _ _ R)|exact ES]).
    pose proof (tr_lead _ _ _ _ _ _ _ _ _ _ R 0%nat ltac:(lia)) as PT. unfold lead_m in PT. destruct (RT 0%nat ltac:(lia)) as [RV _]. rewrite RV in PT. change (end_rate (wp wps 0) 0) with 0 in PT. cbn [nth] in PT. set (t := lead_time w k) in *.
    assert (DW : w_duration (wp w 0) = 1) by (rewrite DU; apply D0; lia). rewrite DE, DW in LB.
    pose proof (line_flat w 1 None None VS EVS ltac:(intros i I; rewrite DU; apply D0; exact I) ltac:(lra)) as KW.
    destruct (joint_curve false 1 w 1 t 0 VS L32 ltac:(lra)) as (_ & _ & SG & _). destruct (SG 0%nat (2 * t) ltac:(lia)) as (_ & VE & _). { rewrite elapsed_succ, elapsed_0, DW by lia. lra. }
    assert (V1 : vel w 1 t 0 (2 * t) = 1). { rewrite VE. unfold te1. cbn [t_x0 t_xf t_y0 t_yf t_z0 t_zf]. pose proof (fun q => line_evolves w None None q EVS) as AE. rewrite !KW, !AE by lia. rewrite elapsed_succ, elapsed_0, DW by lia. cbn [nth]. replace (t + (0 + 1) - (t + 0)) with 1 by ring. pose proof (sinh_pos (1 * 1) ltac:(lra)). field. lra. }
    rewrite V1 in PT. pose proof (peak_mean 0 (angle (wp w 0) 0) 0 (2 * t) (pos w 1 t 0 (2 * t)) 1 ltac:(lra)) as PM. set (m := peak _ _ _ _ _ _) in *. rewrite (Rabs_right (1 / 100)) in PT by lra. rewrite Rminus_0_r, Rabs_R1 in PM. destruct LB as [LB0 LB1]. destruct (Rlt_dec m 0) as [MN|MN]; [assert (0 < (- m) * (2 * t)) by (apply Rmult_lt_0_compat; lra); lra|]. assert (m * (2 * t) <= 1 / 100 * 1) by (apply Rmult_le_compat; lra). lra. }
  assert (V3 : forall i, (1 <= i < 3)%nat -> w_duration (wp ws i) = 1). { intros i I. rewrite (tr_inner3 _ _ _ _ _ _ _ _ _ _ R i ltac:(lia)). apply D2. lia. }
  destruct (joint_curve false 1 ws 1 (lead_time w2 k) 0 (tr_v3 _ _ _ _ _ _ _ _ _ _ R) L33 ltac:(lra)) as (_ & _ & _ & KN & Z0 & _ & ROW). rewrite N3 in *.
  pose proof (ROW 1%nat ltac:(lia) ltac:(lia)) as R1. cbv zeta in R1. cbn [Nat.sub Nat.add] in R1. pose proof (fun q => line_evolves ws None None q EV) as AE. rewrite !AE in R1. rewrite Z0, (V3 1%nat), DE in R1 by lia. cbn [nth] in R1.
  set (d := w_duration (wp w2 0)) in *. pose proof (alpha_beta 1 1 ltac:(lra) ltac:(lra)) as AB. pose proof (beta_le_tau 1 1 ltac:(lra) ltac:(lra)) as B1. pose proof (beta_le_tau 1 d ltac:(lra) ltac:(lra)) as B0. pose proof (alpha_beta 1 d ltac:(lra) ltac:(lra)) as AB0.
  assert (IV : / d <= 10 / 11) by (replace (10 / 11) with (/ (11 / 10)) by field; apply Rinv_le_contravar; lra).
  assert (BIG : exists i, (1 <= i <= 2)%nat /\ 1 / 100 < Rabs (knot ws 1 0 i)).
  { destruct (Rlt_dec (1 / 100) (Rabs (knot ws 1 0 1))) as [H1|H1]; [exists 1%nat; split; [lia|exact H1]|]. destruct (Rlt_dec (1 / 100) (Rabs (knot ws 1 0 2))) as [H2|H2]; [exists 2%nat; split; [lia|exact H2]|]. exfalso.
    apply Rnot_lt_le, Rabs_le_inv in H1. apply Rnot_lt_le, Rabs_le_inv in H2. unfold Rdiv in R1. rewrite Rinv_1 in R1. set (z1 := knot ws 1 0 1) in *. set (z2 := knot ws 1 0 2) in *. set (b0 := beta 1 d) in *. set (b1 := beta 1 1) in *. set (a1 := alpha 1 1) in *.
    assert (b0 * z1 <= 1 / 100) by nra. assert (b1 * z1 <= 1 / 100) by nra. assert (a1 * z2 <= 1 / 100) by nra. lra. }
  destruct BIG as (i & I & BIG). eexists _, _, _, (lead_time w2 k + elapsed ws i). split; [apply (run_observed _ _ _ _ _ _ _ _ _ _ 0%nat R L3 ltac:(lra) ltac:(lia))|]. cbv zeta.
  assert (E1 : elapsed ws 1 = d) by (rewrite elapsed_succ, elapsed_0 by lia; lra). assert (E2 : elapsed ws 2 = d + 1) by (rewrite (elapsed_succ ws 1), E1, V3 by lia; reflexivity).
  assert (E4 : total (durations ws) = d + 2 + w_duration (wp ws 3)). { rewrite <- elapsed_n, N3. rewrite (elapsed_succ ws 3), (elapsed_succ ws 2), E2, V3 by lia. ring. }
  assert (EI : d <= elapsed ws i <= d + 1). { destruct i as [|[|[|i]]]; try lia; lra. } change (4 - 1)%nat with 3%nat in *. set (t := lead_time w2 k) in *. set (T0 := tr_end w2 ws k - trail_time ws k') in *. assert (TT : T0 = t + (d + 2 + w_duration (wp ws 3)) - trail_time ws k') by (unfold T0, tr_end; fold t; rewrite E4; reflexivity).
  split; [unfold T0 in TT; lra|]. unfold path. rewrite glue_r by lra. rewrite glue_l by lra. destruct (KN i ltac:(lia)) as [_ ->]. cbn [nth]. exact BIG.
Qed.
Print Assumptions C170_accelerations_refuted.

(** The acceleration itself jumps where the leading curve meets the spline. *)
Theorem C170_leading_jump_refuted : exists wps, acceptable 1 wps /\ Forall (wp_ok 1) wps /\ (5 <= length wps)%nat /\ (forall debug m tau, 0 < m -> 0 < tau -> exists fuel T fss ws, tension_interpolate debug fuel wps [m] tau = FOk (Some (T, fss, ws))) /\
  forall debug fuel m tau T fss ws, 0 < m -> 0 < tau ->
  tension_interpolate debug fuel wps [m] tau = FOk (Some (T, fss, ws)) ->
  exists p v a L, observed fss 0 T p v a /\ 0 < L < T /\ ~ continuity_pt a L.
Proof.
  set (wps := five 0 1 0 0 0 None None). exists wps. assert (W : Forall (wp_ok 1) wps) by apply five_ok. assert (ACC : acceptable 1 wps) by apply five_acceptable. split; [exact ACC|]. split; [exact W|]. split; [cbn; lia|]. split; [intros; now apply five_finishes|]. intros debug fuel m tau T fss ws M TP E.
  destruct (suits_run debug 1 wps [m] tau fuel T fss ws (le_n 1) eq_refl W TP ltac:(right; split; [exact ACC|cbn; lia]) E) as (L3 & w0 & w1 & w2 & k & k' & R & -> & ->).
  destruct (run_facts _ _ _ _ _ _ _ _ _ _ R L3) as (EV & N3 & N2 & N1 & L33 & L32 & DE & AN & AN2 & RT & LB & TB & MID). change (n_of wps) with 4%nat in *. cbn [Nat.sub] in *.
  assert (B3 : bump_like ws) by (apply (bump_evolves ws None None); [apply (tr_v3 _ _ _ _ _ _ _ _ _ _ R)|exact EV]).
  eexists _, _, _, (2 * lead_time w2 k). split; [apply (run_observed _ _ _ _ _ _ _ _ _ _ 0%nat R L3 ltac:(lra) ltac:(lia))|]. cbv zeta. split; [lra|].
  destruct (run_ends _ _ _ _ _ _ _ _ _ _ 0%nat R L3 TP ltac:(lia)) as ((_ & _ & _ & _ & _ & A6 & _) & _). cbv zeta in A6.
  destruct (joint_curve false 1 ws tau (lead_time w2 k) 0 (tr_v3 _ _ _ _ _ _ _ _ _ _ R) L33 TP) as (_ & SM & SG & _ & Z0 & _). set (t := lead_time w2 k) in *. set (T0 := tr_end w2 ws k - trail_time ws k') in *.
  assert (LT0 : 2 * t < T0) by (unfold T0; lra). unfold path. apply glue_jump.
  - intros e EP. destruct (SM (2 * t)) as (_ & _ & CA). destruct (CA e EP) as (d & DP & H). exists (Rmin d (T0 - 2 * t)). split; [apply Rmin_pos; lra|]. intros x [XD X]. pose proof (Rmin_l d (T0 - 2 * t)). pose proof (Rmin_r d (T0 - 2 * t)). cbn in X |- *. unfold R_dist in *. pose proof (Rle_abs (x - 2 * t)).
    rewrite !glue_l by lra. apply H. split; [exact XD|]. cbn. unfold R_dist. lra.
  - rewrite glue_l by lra. rewrite A6. destruct (SG 0%nat (2 * t) ltac:(lia)) as (_ & _ & ->). { rewrite elapsed_succ, elapsed_0 by lia. lra. }
    unfold te2. cbn [t_x0 t_xf t_z0 t_zf]. rewrite Z0, elapsed_succ, elapsed_0 by lia. pose proof (bump_nonzero ws tau B3 TP) as NZ. set (d := w_duration (wp ws 0)) in *. pose proof (sinh_pos (tau * (2 * t - (t + 0))) ltac:(nra)) as P1. pose proof (sinh_pos (tau * (t + (0 + d) - (t + 0))) ltac:(nra)) as P2.
    set (q := sinh (tau * (2 * t - (t + 0)))) in *. set (r := sinh (tau * (t + (0 + d) - (t + 0)))) in *. intros Q. assert (H : knot ws tau 0 1 * q = 0). { apply Rmult_eq_reg_r with (/ r); [|apply Rinv_neq_0_compat; lra]. rewrite Rmult_0_l, Q. field. lra. }
    apply Rmult_integral in H. destruct H; lra.
Qed.
Print Assumptions C170_leading_jump_refuted.

(** Both partial theorems apply to a path that turns around twice. *)
Example C170_example : exists A fuel T fss ws, 0 < A /\ tension_interpolate true fuel (five 0 1 0 2 3 (Some 4) (Some (-5))) [A] 3 = FOk (Some (T, fss, ws)) /\ kept 1 (five 0 1 0 2 3 (Some 4) (Some (-5))) ws 0 /\ kept 1 (five 0 1 0 2 3 (Some 4) (Some (-5))) ws 3.
Proof.
  destruct (C170_ample_bounds 1 (five 0 1 0 2 3 (Some 4) (Some (-5))) 3 (le_n 1) (five_ok _ _ _ _ _ _ _) ltac:(lra) (five_acceptable _ _ _ _ _ _ _) ltac:(cbn; lia)) as (A & AP & H).
  destruct (five_finishes true 0 1 0 2 3 (Some 4) (Some (-5)) 3 A ltac:(lra) AP) as (fuel & T & fss & ws & E). exists A, fuel, T, fss, ws. split; [exact AP|]. split; [exact E|].
  assert (AL : forall j, (j < 1)%nat -> A <= nth j [A] 0) by (intros j J; assert (j = 0%nat) as -> by lia; cbn; lra). split; apply (H true [A] fuel T fss ws eq_refl AL E); cbn; lia.
Qed.
