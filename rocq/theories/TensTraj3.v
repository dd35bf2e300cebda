(** The loops of the tension interpolation end, and what they leave. *)
From Verif Require Import RBase PolyModel SplineModel PolyProofs RootsProofs SplineProofs CubicProofs TensionProofs TensCurve SmoothProofs SplineProperties PolyProperties TrajModel TrajProofs LinearProofs TensTraj1 TensTraj2.
Open Scope R_scope.

(** * Around the knots *)

Lemma knots_loop_spec debug dim acc tau : 0 < tau -> length acc = dim -> (1 <= dim)%nat -> forall fuel wps, valid dim wps -> (3 <= length wps)%nat ->
  knots_loop debug fuel acc tau wps = FOk None
  \/ exists ws, knots_loop debug fuel acc tau wps = FOk (Some ws) /\ valid dim ws /\ longer dim wps ws /\ all_respect ws tau acc dim /\ (ws = wps \/ ~ all_respect wps tau acc dim /\ exists e, (e < n_of wps)%nat /\ 11 / 10 * w_duration (wp wps e) <= w_duration (wp ws e)).
Proof.
  intros T LA D1. induction fuel as [|fuel IH]; intros wps V L3; [now left|].
  destruct (knots_round debug dim wps acc tau fuel V L3 T LA D1) as [(R & E)|(ws & E & V' & LG & NR & e & h & HE & HH & GR & _)]; rewrite E.
  - right. exists wps. split; [reflexivity|]. split; [exact V|]. split; [apply longer_refl|]. split; [exact R|now left].
  - destruct (IH ws V' ltac:(rewrite (longer_len _ _ _ LG); exact L3)) as [->|(w2 & E2 & V2 & LG2 & R2 & _)]; [now left|right]. exists w2. split; [exact E2|]. split; [exact V2|]. split; [eapply longer_trans; eauto|]. split; [exact R2|]. right. split; [exact NR|]. exists e. split; [exact HE|].
    pose proof (longer_dur dim ws w2 e LG2). pose proof (v_dur _ _ V e ltac:(unfold n_of in HE; lia)). lra.
Qed.

Fixpoint rsum (f : nat -> R) (n : nat) : R := match n with O => 0 | S n' => rsum f n' + f n' end.
Lemma rsum_le f g n : (forall i, (i < n)%nat -> f i <= g i) -> rsum f n <= rsum g n.
Proof. induction n as [|n IH]; intros H; cbn; [lra|]. specialize (IH ltac:(intros; apply H; lia)). specialize (H n ltac:(lia)). lra. Qed.
Lemma rsum_gain f g n e k : (forall i, (i < n)%nat -> f i <= g i) -> (e < n)%nat -> f e + k <= g e -> rsum f n + k <= rsum g n.
Proof.
  induction n as [|n IH]; intros H E K; [lia|]. cbn. destruct (Nat.eq_dec e n) as [->|NE].
  - pose proof (rsum_le f g n ltac:(intros; apply H; lia)). lra.
  - specialize (IH ltac:(intros; apply H; lia) ltac:(lia) K). specialize (H n ltac:(lia)). lra.
Qed.
Lemma rsum_const c n : rsum (fun _ => c) n = INR n * c.
Proof. induction n as [|n IH]; [cbn; lra|]. cbn [rsum]. rewrite IH, S_INR. lra. Qed.

Lemma bounded_seq (f : nat -> R) n : exists M, 0 <= M /\ forall i, (i < n)%nat -> Rabs (f i) <= M.
Proof.
  induction n as [|n (M & M0 & H)]; [exists 0; split; [lra|]; intros; lia|]. exists (Rmax M (Rabs (f n))). pose proof (Rmax_l M (Rabs (f n))). pose proof (Rmax_r M (Rabs (f n))). split; [lra|].
  intros i I. destruct (Nat.eq_dec i n) as [->|]; [assumption|]. specialize (H i ltac:(lia)). lra.
Qed.
Lemma bounded_seq2 (f : nat -> nat -> R) n k : exists M, 0 <= M /\ forall i j, (i < n)%nat -> (j < k)%nat -> Rabs (f i j) <= M.
Proof.
  induction n as [|n (M & M0 & H)]; [exists 0; split; [lra|]; intros; lia|]. destruct (bounded_seq (f n) k) as (M' & M0' & H'). exists (Rmax M M'). pose proof (Rmax_l M M'). pose proof (Rmax_r M M'). split; [lra|].
  intros i j I J. destruct (Nat.eq_dec i n) as [->|]; [specialize (H' j J); lra|]. specialize (H i j ltac:(lia) J). lra.
Qed.
(** A positive lower bound for the durations and for the bounds. *)
Lemma positive_below (f : nat -> R) n : (forall i, (i < n)%nat -> 0 < f i) -> exists d, 0 < d /\ forall i, (i < n)%nat -> d <= f i.
Proof.
  induction n as [|n IH]; intros H; [exists 1; split; [lra|]; intros; lia|]. destruct IH as (d & D & L); [intros; apply H; lia|]. exists (Rmin d (f n)). pose proof (Rmin_l d (f n)). pose proof (Rmin_r d (f n)). specialize (H n ltac:(lia)). split; [unfold Rmin; destruct (Rle_dec _ _); lra|].
  intros i I. destruct (Nat.eq_dec i n) as [->|]; [assumption|]. specialize (L i ltac:(lia)). lra.
Qed.
Lemma steps_enough a b : 0 < b -> exists k, a < INR k * b.
Proof.
  intros B. exists (Z.to_nat (up (a / b)) + 1)%nat. destruct (archimed (a / b)) as [A _]. rewrite plus_INR. cbn [INR].
  assert (Q : a / b < INR (Z.to_nat (up (a / b))) + 1).
  { destruct (Z_lt_le_dec (up (a / b)) 0) as [N|N].
    - apply Rlt_trans with (IZR (up (a / b))); [lra|]. apply Rlt_trans with 0; [apply (IZR_lt _ 0); exact N|]. pose proof (pos_INR (Z.to_nat (up (a / b)))). lra.
    - rewrite INR_IZR_INZ, Z2Nat.id by exact N. lra. }
  apply Rmult_lt_compat_r with (r := b) in Q; [|exact B]. replace (a / b * b) with a in Q by (field; lra). lra.
Qed.

Lemma knots_finishes debug dim acc tau wps : 0 < tau -> length acc = dim -> (1 <= dim)%nat -> (forall j, (j < dim)%nat -> 0 < nth j acc 0) -> valid dim wps -> (3 <= length wps)%nat ->
  exists F, forall fuel, (F <= fuel)%nat -> exists ws, knots_loop debug fuel acc tau wps = FOk (Some ws).
Proof.
  intros T LA D1 AP V L3. destruct (positive_below (fun j => nth j acc 0) dim AP) as (am & AM & AL).
  destruct (positive_below (fun i => w_duration (wp wps i)) (n_of wps)) as (d & DP & DL). { intros i I. apply (v_dur _ _ V). unfold n_of in I. lia. }
  destruct (bounded_seq2 (fun i j => angle (wp wps (S i)) j - angle (wp wps i) j) (n_of wps) dim) as (Y & Y0 & YB).
  pose proof (lang_bounds (tau * d / 2) ltac:(nra)) as LB. set (eps := lang (tau * d / 2) * am / (11 / 10 * tau)). assert (EP : 0 < eps) by (unfold eps; apply Rdiv_lt_0_compat; nra). set (Dm := Y / eps).
  assert (DM0 : 0 <= Dm) by (unfold Dm; apply Rmult_le_pos; [exact Y0|apply Rlt_le, Rinv_0_lt_compat; exact EP]).
  set (cap := 11 / 10 * Dm). set (mu := fun ws : list waypoint => rsum (fun i => Rmin (w_duration (wp ws i)) cap) (n_of wps)).
  assert (MU : forall ws, mu ws <= INR (n_of wps) * cap). { intros ws. rewrite <- rsum_const. apply rsum_le. intros i _. apply Rmin_r. }
  assert (STEP : forall fuel ws, valid dim ws -> longer dim wps ws -> INR (n_of wps) * cap - mu ws < INR fuel * (d / 10) -> exists ws', knots_loop debug fuel acc tau ws = FOk (Some ws')).
  { induction fuel as [|fuel IH]; intros ws VW LW H. { exfalso. cbn in H. specialize (MU ws). lra. }
    assert (L3' : (3 <= length ws)%nat) by (rewrite (longer_len _ _ _ LW); exact L3). pose proof (longer_n _ _ _ LW) as NW.
    destruct (knots_round debug dim ws acc tau fuel VW L3' T LA D1) as [(R & E)|(w2 & E & V2 & LG & _ & e & h & HE & HH & GR & ST)]; rewrite E; [eauto|]. rewrite NW in HE.
    assert (DW : forall i, (i < n_of ws)%nat -> d <= w_duration (wp ws i)). { intros i I. rewrite NW in I. specialize (DL i I). pose proof (longer_dur dim wps ws i LW). lra. }
    specialize (ST d DP DW). apply IH; [exact V2|eapply longer_trans; eauto|].
    pose proof (DW e ltac:(lia)) as DE.
    assert (SE : eps <= steep ws h e).
    { unfold eps. specialize (AL h HH). apply Rmult_le_reg_r with (11 / 10 * tau); [nra|]. unfold Rdiv at 1. rewrite Rmult_assoc, Rinv_l by nra. rewrite Rmult_1_r. apply Rle_trans with (lang (tau * d / 2) * nth h acc 0); [nra|]. lra. }
    assert (DE2 : w_duration (wp ws e) <= Dm).
    { unfold Dm. apply Rmult_le_reg_r with eps; [exact EP|]. unfold Rdiv. rewrite Rmult_assoc, Rinv_l, Rmult_1_r by lra. unfold steep in SE. rewrite !(longer_angle dim wps ws _ _ LW) in SE. unfold Rdiv in SE. rewrite Rabs_mult, (Rabs_right (/ _)) in SE by (apply Rle_ge, Rlt_le, Rinv_0_lt_compat; lra).
      specialize (YB e h HE HH). set (a := Rabs _) in *. apply Rmult_le_compat_l with (r := w_duration (wp ws e)) in SE; [|lra]. replace (w_duration (wp ws e) * (a * / w_duration (wp ws e))) with a in SE by (field; lra). lra. }
    assert (G : mu ws + d / 10 <= mu w2).
    { unfold mu. apply rsum_gain with (e := e); [|exact HE|].
      - intros i I. pose proof (longer_dur dim ws w2 i LG). unfold Rmin. destruct (Rle_dec _ _), (Rle_dec _ _); lra.
      - unfold cap. unfold Rmin. destruct (Rle_dec _ _), (Rle_dec _ _); lra. }
    rewrite S_INR in H. lra. }
  destruct (steps_enough (INR (n_of wps) * cap - mu wps) (d / 10) ltac:(lra)) as (F & HF). exists F. intros fuel LE. apply STEP; [exact V|apply longer_refl|]. apply le_INR in LE. nra.
Qed.

(** * Bounds on the splines *)

Definition knot_bound (tau Y d : R) : R := 2 * tau * Y / (d * lang (tau * d / 2)).
Definition pos_bound (tau Y d : R) : R := Y + 2 * knot_bound tau Y d / (tau * tau).
Definition vel_bound (tau Y d : R) : R := 2 * knot_bound tau Y d / tau * (cosh (tau * d) / sinh (tau * d)) + (2 * Y + 2 * knot_bound tau Y d / (tau * tau)) / d.
Lemma segment_bounds dim wps tau j d Y : valid dim wps -> (3 <= length wps)%nat -> 0 < tau -> (j < dim)%nat -> 0 < d -> (forall i, (i < n_of wps)%nat -> d <= w_duration (wp wps i)) -> (forall i, (i <= n_of wps)%nat -> Rabs (angle (wp wps i) j) <= Y) ->
  (forall i, (i <= n_of wps)%nat -> Rabs (knot wps tau j i) <= knot_bound tau Y d)
  /\ forall t0 k t, (k < n_of wps)%nat -> t0 + elapsed wps k <= t <= t0 + elapsed wps (S k) -> Rabs (pos wps tau t0 j t) <= pos_bound tau Y d /\ Rabs (vel wps tau t0 j t) <= vel_bound tau Y d.
Proof.
  intros V L3 T J DP DL YB. destruct (times_facts dim wps 0 V) as (LT & INC & NT & HH & _). assert (LC : length (col wps j) = S (n_of wps)) by (rewrite col_len; unfold n_of; lia). assert (N2 : (2 <= n_of wps)%nat) by (unfold n_of; lia).
  destruct (z_largest (t_times wps 0) (col wps j) tau (n_of wps) LT LC N2 INC T) as (m & M & MX & B). specialize (B d DP ltac:(intros i I; rewrite HH by exact I; now apply DL)).
  pose proof (lang_bounds (tau * d / 2) ltac:(nra)) as LB. set (lg := lang (tau * d / 2)) in *. assert (Y0 : 0 <= Y) by (specialize (YB 0%nat ltac:(lia)); pose proof (Rabs_pos (angle (wp wps 0) j)); lra).
  assert (SL : forall s, (s < n_of wps)%nat -> Rabs (slope (t_times wps 0) (col wps j) s) <= 2 * Y / d).
  { intros s S0. unfold slope. fold (hh (t_times wps 0) s). rewrite HH by exact S0. unfold sq. rewrite !col_nth by (unfold n_of in S0; lia). specialize (DL s S0). unfold Rdiv at 1. rewrite Rabs_mult, (Rabs_right (/ _)) by (apply Rle_ge, Rlt_le, Rinv_0_lt_compat; lra).
    apply Rmult_le_compat; [apply Rabs_pos|apply Rlt_le, Rinv_0_lt_compat; lra| |apply Rinv_le_contravar; lra]. pose proof (YB s ltac:(lia)) as Q1. pose proof (YB (S s) ltac:(lia)) as Q2. apply Rabs_le. apply Rabs_le_inv in Q1, Q2. lra. }
  pose proof (SL (m - 1)%nat ltac:(lia)) as S1. pose proof (SL m ltac:(lia)) as S2.
  assert (KB : forall i, Rabs (knot wps tau j i) <= knot_bound tau Y d).
  { intros i. apply Rle_trans with (1 := MX i). unfold knot_bound. fold lg. apply Rmult_le_reg_r with (d * lg); [nra|]. replace (2 * tau * Y / (d * lg) * (d * lg)) with (2 * tau * Y) by (field; lra).
    set (z := Rabs (sq (z_of (t_times wps 0) (col wps j) tau) m)) in *. assert (Q : 2 * lg * z <= tau * (2 * Y / d + 2 * Y / d)) by (apply Rle_trans with (1 := B); apply Rmult_le_compat_l; lra).
    apply Rmult_le_compat_r with (r := d) in Q; [|lra]. replace (tau * (2 * Y / d + 2 * Y / d) * d) with (4 * tau * Y) in Q by (field; lra). lra. }
  split; [intros i _; apply KB|]. intros t0 k t K R. destruct (joint_curve false dim wps tau t0 j V L3 T) as (_ & _ & SG & _). destruct (SG k t K R) as (-> & -> & _). rewrite elapsed_succ in * by exact K. specialize (DL k K).
  split; [apply te_bound|apply te1_bound]; cbn [t_x0 t_xf t_y0 t_yf t_z0 t_zf]; try apply KB; try (apply YB; lia); try exact R; try lra.
Qed.

(** * The ends *)

Lemma leading_loop_spec debug dim acc tau : 0 < tau -> length acc = dim -> (1 <= dim)%nat -> forall fuel wps, valid dim wps -> (3 <= length wps)%nat ->
  leading_loop debug fuel acc tau wps = FOk None
  \/ exists ws k, (1 <= k <= 5)%Z /\ leading_loop debug fuel acc tau wps = FOk (Some (ws, 2 * lead_time ws k, map (lead_q ws tau (lead_time ws k)) (seq 0 dim)))
      /\ valid dim ws /\ longer dim wps ws /\ (forall i, (1 <= i)%nat -> wp ws i = wp wps i) /\ (ws = wps \/ 11 / 10 * w_duration (wp wps 0) <= w_duration (wp ws 0) /\ exists j, (j < dim)%nat /\ Rabs (nth j acc 0) <= lead_m wps tau (lead_time wps 5) j)
      /\ (forall j, (j < dim)%nat -> lead_m ws tau (lead_time ws k) j < Rabs (nth j acc 0)).
Proof.
  intros T LA D1. induction fuel as [|fuel IH]; intros wps V L3; cbn [leading_loop]; [now left|].
  destruct (leading_tries_spec debug dim wps acc tau V L3 T LA 5 1 ltac:(lia) ltac:(lia)) as [(k & K & PS & _ & E)|(FL & E)]; rewrite E; cbn [fbind].
  - right. exists wps, k. split; [exact K|]. split; [reflexivity|]. split; [exact V|]. split; [apply longer_refl|]. split; [auto|]. split; [now left|exact PS].
  - destruct (stretch_longer dim wps 0 V ltac:(lia)) as (w1 & ES & V1 & L1 & K1 & DU). change (Z.of_nat 0) with 0%Z in ES. rewrite ES. cbn [fbind].
    destruct (IH w1 V1 ltac:(rewrite (longer_len _ _ _ L1); exact L3)) as [->|(ws & k & K & E2 & V2 & L2 & K2 & _ & PS)]; [now left|right]. exists ws, k. split; [exact K|]. split; [exact E2|]. split; [exact V2|]. split; [eapply longer_trans; eauto|]. split; [|split; [right|exact PS]].
    + intros i I. rewrite K2 by exact I. apply K1. lia.
    + split; [|apply FL; lia]. pose proof (longer_dur dim w1 ws 0 L2). pose proof (v_dur _ _ V 0%nat ltac:(lia)). lra.
Qed.
Lemma trailing_loop_spec debug dim acc tau leading : 0 < tau -> length acc = dim -> (1 <= dim)%nat -> forall fuel wps, valid dim wps -> (3 <= length wps)%nat ->
  trailing_loop debug fuel acc tau leading wps = FOk None
  \/ exists ws k, let tf := leading / 2 + total (durations ws) in (1 <= k <= 5)%Z /\ trailing_loop debug fuel acc tau leading wps = FOk (Some (ws, map (spl ws tau (leading / 2)) (seq 0 dim), (tf - trail_time ws k, tf + trail_time ws k, map (trail_q ws tau (leading / 2) (trail_time ws k)) (seq 0 dim))))
      /\ valid dim ws /\ longer dim wps ws /\ (forall i, i <> (n_of wps - 1)%nat -> wp ws i = wp wps i) /\ (ws = wps \/ 11 / 10 * w_duration (wp wps (n_of wps - 1)) <= w_duration (wp ws (n_of wps - 1)) /\ exists j, (j < dim)%nat /\ Rabs (nth j acc 0) <= trail_m wps tau (leading / 2) (trail_time wps 5) j)
      /\ (forall j, (j < dim)%nat -> trail_m ws tau (leading / 2) (trail_time ws k) j < Rabs (nth j acc 0)).
Proof.
  intros T LA D1. induction fuel as [|fuel IH]; intros wps V L3; cbn [trailing_loop]; [now left|].
  rewrite LA. rewrite generate_spec_t by assumption. cbn [fbind]. destruct dim as [|dim']; [lia|]. cbn [seq map]. change (aget (?s :: ?l) 0) with (FOk s). 
  change (aget (spl wps tau (leading / 2) 0 :: map (spl wps tau (leading / 2)) (seq 1 dim')) 0) with (FOk (spl wps tau (leading / 2) 0)). cbn [fbind]. change (ts_domain (spl wps tau (leading / 2) 0)) with (t_times wps (leading / 2)).
  destruct (times_facts (S dim') wps (leading / 2) V) as (_ & _ & _ & _ & LT). rewrite LT. change (spl wps tau (leading / 2) 0 :: map (spl wps tau (leading / 2)) (seq 1 dim')) with (map (spl wps tau (leading / 2)) (seq 0 (S dim'))).
  destruct (trailing_tries_spec debug (S dim') wps acc tau (leading / 2) V L3 T LA 5 1 ltac:(lia) ltac:(lia)) as [(k & K & PS & _ & E)|(FL & E)]; rewrite E; cbn [fbind].
  - right. exists wps, k. cbv zeta. split; [exact K|]. split; [reflexivity|]. split; [exact V|]. split; [apply longer_refl|]. split; [auto|]. split; [now left|exact PS].
  - assert (NW : (1 <= n_of wps)%nat) by (unfold n_of; lia). replace (Zlen wps - 2)%Z with (Z.of_nat (n_of wps - 1)) by (unfold Zlen, n_of; lia).
    destruct (stretch_longer (S dim') wps (n_of wps - 1) V ltac:(unfold n_of; lia)) as (w1 & ES & V1 & L1 & K1 & DU). rewrite ES. cbn [fbind]. pose proof (longer_n _ _ _ L1) as N1.
    destruct (IH w1 V1 ltac:(rewrite (longer_len _ _ _ L1); exact L3)) as [->|(ws & k & K & E2 & V2 & L2 & K2 & _ & PS)]; [now left|right]. exists ws, k. cbv zeta. split; [exact K|]. split; [exact E2|]. split; [exact V2|]. split; [eapply longer_trans; eauto|]. split; [|split; [right|exact PS]].
    + intros i I. rewrite K2 by (rewrite N1; exact I). apply K1. exact I.
    + split; [|apply FL; lia]. pose proof (longer_dur _ w1 ws (n_of wps - 1)%nat L2). pose proof (v_dur _ _ V (n_of wps - 1)%nat ltac:(unfold n_of; lia)). lra.
Qed.

Lemma growth a b : 0 < a -> exists F, forall k, (F <= k)%nat -> b < a * (11 / 10) ^ k.
Proof.
  intros A. destruct (steps_enough b (a / 10) ltac:(lra)) as (F & HF). exists F. intros k K. assert (G : 1 + INR k / 10 <= (11 / 10) ^ k).
  { clear. induction k as [|k IH]; [cbn; lra|]. rewrite S_INR. cbn [pow]. pose proof (pos_INR k). nra. }
  apply le_INR in K. nra.
Qed.
(** From some duration on, the longest leading curves respect bounds of at least [am]. *)
Lemma lead_good dim tau wps : 0 < tau -> valid dim wps -> (3 <= length wps)%nat ->
  exists K, forall acc am ws, 0 < am -> (forall j, (j < dim)%nat -> am <= nth j acc 0) -> valid dim ws -> longer dim wps ws -> K / am < w_duration (wp ws 0) -> forall j, (j < dim)%nat -> lead_m ws tau (lead_time ws 5) j < Rabs (nth j acc 0).
Proof.
  intros T V L3. assert (N2 : (2 <= n_of wps)%nat) by (unfold n_of; lia).
  destruct (positive_below (fun i => w_duration (wp wps i)) (n_of wps)) as (d & DP & DL). { intros i I. apply (v_dur _ _ V). unfold n_of in I. lia. }
  destruct (bounded_seq2 (fun i j => angle (wp wps i) j) (S (n_of wps)) dim) as (Y & Y0 & YB). destruct (bounded_seq (fun j => nth j (w_rates (wp wps 0)) 0) dim) as (W & W0 & WB).
  set (CP := pos_bound tau Y d). set (CV := vel_bound tau Y d). set (K := 360 * (CP + Y) / d + 192 * W + 168 * CV). exists K. intros acc am ws AM AL.
  intros VW LW H j J. assert (L3' : (3 <= length ws)%nat) by (rewrite (longer_len _ _ _ LW); exact L3). pose proof (longer_n _ _ _ LW) as NW. set (D := w_duration (wp ws 0)) in *.
      assert (DD : d <= D). { specialize (DL 0%nat ltac:(lia)). pose proof (longer_dur dim wps ws 0 LW). unfold D. lra. }
      destruct (segment_bounds dim ws tau j d Y VW L3' T J DP) as (_ & SB). { intros i I. rewrite NW in I. specialize (DL i I). pose proof (longer_dur dim wps ws i LW). lra. } { intros i I. rewrite (longer_angle dim wps ws _ _ LW). apply YB; [lia|exact J]. }
      assert (TE : 2 * lead_time ws 5 = D) by (unfold lead_time; fold D; lra). assert (TL : lead_time ws 5 = D / 2) by lra.
      destruct (SB (lead_time ws 5) 0%nat (2 * lead_time ws 5) ltac:(lia)) as (B1 & B2). { rewrite elapsed_succ, elapsed_0 by lia. fold D. lra. }
      unfold lead_m. rewrite TE in *. set (y1 := pos ws tau (lead_time ws 5) j D) in *. set (v1 := vel ws tau (lead_time ws 5) j D) in *. fold CP in B1. fold CV in B2.
      pose proof (peak_small 0 (angle (wp ws 0) j) (nth j (w_rates (wp ws 0)) 0) D y1 v1 ltac:(lra)) as PK. cbv zeta in PK. replace (D - 0) with D in PK by ring. eapply Rle_lt_trans; [exact PK|].
      rewrite (longer_angle dim wps ws _ _ LW). rewrite (lg_rates _ _ _ LW). pose proof (YB 0%nat j ltac:(lia) J) as YQ. pose proof (WB j J) as WQ.
      assert (Q1 : Rabs (y1 - angle (wp wps 0) j) <= CP + Y). { eapply Rle_trans; [apply Rabs_triang|]. rewrite Rabs_Ropp. lra. }
      apply Rle_lt_trans with (K / D).
      - unfold K. replace ((360 * (CP + Y) / d + 192 * W + 168 * CV) / D) with (360 * (CP + Y) / (d * D) + 192 * W / D + 168 * CV / D) by (field; lra). repeat apply Rplus_le_compat.
        + unfold Rdiv. apply Rmult_le_compat; [pose proof (Rabs_pos (y1 - angle (wp wps 0) j)); lra|apply Rlt_le, Rinv_0_lt_compat; nra|lra|apply Rinv_le_contravar; nra].
        + apply Rmult_le_compat_r; [apply Rlt_le, Rinv_0_lt_compat; lra|lra].
        + apply Rmult_le_compat_r; [apply Rlt_le, Rinv_0_lt_compat; lra|lra].
      - specialize (AL j J). rewrite Rabs_right by lra. apply Rlt_le_trans with am; [|exact AL]. apply Rmult_lt_reg_r with D; [lra|]. unfold Rdiv. rewrite Rmult_assoc, Rinv_l, Rmult_1_r by lra.
        apply Rmult_lt_compat_r with (r := am) in H; [|exact AM]. replace (K / am * am) with K in H by (field; lra). lra.
Qed.
Lemma leading_finishes debug dim acc tau wps : 0 < tau -> length acc = dim -> (1 <= dim)%nat -> (forall j, (j < dim)%nat -> 0 < nth j acc 0) -> valid dim wps -> (3 <= length wps)%nat ->
  exists F, forall fuel, (F <= fuel)%nat -> leading_loop debug fuel acc tau wps <> FOk None.
Proof.
  intros T LA D1 AP V L3. destruct (positive_below (fun j => nth j acc 0) dim AP) as (am & AM & AL). assert (N2 : (2 <= n_of wps)%nat) by (unfold n_of; lia).
  destruct (lead_good dim tau wps T V L3) as (K & GOOD').
  assert (STEP : forall fuel ws, valid dim ws -> longer dim wps ws -> K / am < w_duration (wp ws 0) * (11 / 10) ^ fuel -> leading_loop debug (S fuel) acc tau ws <> FOk None).
  { assert (GOOD : forall ws, valid dim ws -> longer dim wps ws -> K / am < w_duration (wp ws 0) -> forall j, (j < dim)%nat -> lead_m ws tau (lead_time ws 5) j < Rabs (nth j acc 0)).
    { intros ws. now apply GOOD'. }
    assert (ONE : forall fuel ws, valid dim ws -> longer dim wps ws -> K / am < w_duration (wp ws 0) -> leading_loop debug (S fuel) acc tau ws <> FOk None).
    { intros fuel ws VW LW H. cbn [leading_loop]. assert (L3' : (3 <= length ws)%nat) by (rewrite (longer_len _ _ _ LW); exact L3).
      destruct (leading_tries_spec debug dim ws acc tau VW L3' T LA 5 1 ltac:(lia) ltac:(lia)) as [(k & _ & _ & _ & E)|(FL & _)]; [rewrite E; discriminate|]. exfalso. destruct (FL 5%Z ltac:(lia)) as (j & J & Q). pose proof (GOOD ws VW LW H j J). lra. }
    induction fuel as [|fuel IH]; intros ws VW LW H. { apply ONE; auto. cbn in H. lra. }
    assert (L3' : (3 <= length ws)%nat) by (rewrite (longer_len _ _ _ LW); exact L3). change (leading_loop debug (S (S fuel)) acc tau ws) with (r <-- leading_tries debug ws acc tau 5 1 ;; match r with Some (t, qs) => FOk (Some (ws, t, qs)) | None => w2 <-- stretch ws 0 (11 / 10) ;; leading_loop debug (S fuel) acc tau w2 end).
    destruct (leading_tries_spec debug dim ws acc tau VW L3' T LA 5 1 ltac:(lia) ltac:(lia)) as [(k & _ & _ & _ & E)|(_ & E)]; rewrite E; cbn [fbind]; [discriminate|].
    destruct (stretch_longer dim ws 0 VW ltac:(lia)) as (w1 & ES & V1 & L1 & K1 & DU). change (Z.of_nat 0) with 0%Z in ES. rewrite ES. cbn [fbind]. apply IH; [exact V1|eapply longer_trans; eauto|]. rewrite DU. cbn [pow] in H. lra. }
  pose proof (v_dur _ _ V 0%nat ltac:(lia)) as D0. destruct (growth (w_duration (wp wps 0)) (K / am) D0) as (F & HF). exists (S F). intros fuel LE. destruct fuel as [|fuel]; [lia|]. apply STEP; [exact V|apply longer_refl|]. apply HF. lia.
Qed.
(** The longest trailing curves, likewise. *)
Lemma trail_good dim tau wps : 0 < tau -> valid dim wps -> (3 <= length wps)%nat ->
  exists K, forall leading acc am ws, 0 < am -> (forall j, (j < dim)%nat -> am <= nth j acc 0) -> valid dim ws -> longer dim wps ws -> K / am < w_duration (wp ws (n_of wps - 1)) -> forall j, (j < dim)%nat -> trail_m ws tau (leading / 2) (trail_time ws 5) j < Rabs (nth j acc 0).
Proof.
  intros T V L3. assert (N2 : (2 <= n_of wps)%nat) by (unfold n_of; lia). set (n := n_of wps) in *.
  destruct (positive_below (fun i => w_duration (wp wps i)) n) as (d & DP & DL). { intros i I. apply (v_dur _ _ V). unfold n, n_of in I. lia. }
  destruct (bounded_seq2 (fun i j => angle (wp wps i) j) (S n) dim) as (Y & Y0 & YB). destruct (bounded_seq (fun j => nth j (w_rates (wp wps n)) 0) dim) as (W & W0 & WB).
  set (CP := pos_bound tau Y d). set (CV := vel_bound tau Y d). set (K := 360 * (Y + CP) / d + 192 * CV + 168 * W). exists K. intros leading acc am ws AM AL.
  intros VW LW H j J. assert (L3' : (3 <= length ws)%nat) by (rewrite (longer_len _ _ _ LW); exact L3). pose proof (longer_n _ _ _ LW) as NW. fold n in NW. set (D := w_duration (wp ws (n - 1))) in *.
    assert (DD : d <= D). { specialize (DL (n - 1)%nat ltac:(lia)). pose proof (longer_dur dim wps ws (n - 1)%nat LW). unfold D. lra. }
    destruct (segment_bounds dim ws tau j d Y VW L3' T J DP) as (_ & SB). { intros i I. rewrite NW in I. specialize (DL i I). pose proof (longer_dur dim wps ws i LW). lra. } { intros i I. rewrite (longer_angle dim wps ws _ _ LW). apply YB; [lia|exact J]. }
    assert (TL : trail_time ws 5 = D / 2) by (unfold trail_time; rewrite NW; fold D; lra).
    unfold trail_m. rewrite TL. cbv zeta. set (tf := leading / 2 + total (durations ws)) in *.
    destruct (SB (leading / 2) (n - 1)%nat (tf - D / 2) ltac:(lia)) as (B1 & B2).
    { assert (EL : elapsed ws (S (n - 1)) = total (durations ws)) by (replace (S (n - 1)) with (n_of ws) by lia; apply elapsed_n). pose proof (elapsed_succ ws (n - 1) ltac:(lia)) as ES. fold D in ES. rewrite EL in *. unfold tf. lra. }
    rewrite NW. set (y1 := pos ws tau (leading / 2) j (tf - D / 2)) in *. set (v1 := vel ws tau (leading / 2) j (tf - D / 2)) in *. fold CP in B1. fold CV in B2.
    pose proof (peak_small (tf - D / 2) y1 v1 (tf + D / 2) (angle (wp ws n) j) (nth j (w_rates (wp ws n)) 0) ltac:(lra)) as PK. cbv zeta in PK. replace (tf + D / 2 - (tf - D / 2)) with D in PK by lra. eapply Rle_lt_trans; [exact PK|].
    rewrite (longer_angle dim wps ws _ _ LW). rewrite (lg_rates _ _ _ LW). pose proof (YB n j ltac:(lia) J) as YQ. pose proof (WB j J) as WQ.
    assert (Q1 : Rabs (angle (wp wps n) j - y1) <= Y + CP). { eapply Rle_trans; [apply Rabs_triang|]. rewrite Rabs_Ropp. lra. }
    apply Rle_lt_trans with (K / D).
    - unfold K. replace ((360 * (Y + CP) / d + 192 * CV + 168 * W) / D) with (360 * (Y + CP) / (d * D) + 192 * CV / D + 168 * W / D) by (field; lra). repeat apply Rplus_le_compat.
      + unfold Rdiv. apply Rmult_le_compat; [pose proof (Rabs_pos (angle (wp wps n) j - y1)); lra|apply Rlt_le, Rinv_0_lt_compat; nra|lra|apply Rinv_le_contravar; nra].
      + apply Rmult_le_compat_r; [apply Rlt_le, Rinv_0_lt_compat; lra|lra].
      + apply Rmult_le_compat_r; [apply Rlt_le, Rinv_0_lt_compat; lra|lra].
    - specialize (AL j J). rewrite Rabs_right by lra. apply Rlt_le_trans with am; [|exact AL]. apply Rmult_lt_reg_r with D; [lra|]. unfold Rdiv. rewrite Rmult_assoc, Rinv_l, Rmult_1_r by lra.
      apply Rmult_lt_compat_r with (r := am) in H; [|exact AM]. replace (K / am * am) with K in H by (field; lra). lra.
Qed.
Lemma trailing_finishes debug dim acc tau leading wps : 0 < tau -> length acc = dim -> (1 <= dim)%nat -> (forall j, (j < dim)%nat -> 0 < nth j acc 0) -> valid dim wps -> (3 <= length wps)%nat ->
  exists F, forall fuel, (F <= fuel)%nat -> trailing_loop debug fuel acc tau leading wps <> FOk None.
Proof.
  intros T LA D1 AP V L3. destruct (positive_below (fun j => nth j acc 0) dim AP) as (am & AM & AL). assert (N2 : (2 <= n_of wps)%nat) by (unfold n_of; lia). set (n := n_of wps) in *.
  destruct (trail_good dim tau wps T V L3) as (K & GOOD'). fold n in GOOD'.
  assert (GOOD : forall ws, valid dim ws -> longer dim wps ws -> K / am < w_duration (wp ws (n - 1)) -> forall j, (j < dim)%nat -> trail_m ws tau (leading / 2) (trail_time ws 5) j < Rabs (nth j acc 0)).
  { intros ws. now apply GOOD'. }
  assert (STEP : forall fuel ws, valid dim ws -> longer dim wps ws -> K / am < w_duration (wp ws (n - 1)) * (11 / 10) ^ fuel -> trailing_loop debug (S fuel) acc tau leading ws <> FOk None).
  { assert (ROUND : forall fuel ws, valid dim ws -> longer dim wps ws -> trailing_loop debug (S fuel) acc tau leading ws <> FOk None
        \/ (~ K / am < w_duration (wp ws (n - 1)) /\ exists w2, trailing_loop debug (S fuel) acc tau leading ws = trailing_loop debug fuel acc tau leading w2 /\ valid dim w2 /\ longer dim ws w2 /\ w_duration (wp w2 (n - 1)) = 11 / 10 * w_duration (wp ws (n - 1)))).
    { intros fuel ws VW LW. assert (L3' : (3 <= length ws)%nat) by (rewrite (longer_len _ _ _ LW); exact L3). pose proof (longer_n _ _ _ LW) as NW. fold n in NW. cbn [trailing_loop]. rewrite LA. rewrite generate_spec_t by assumption. cbn [fbind]. destruct dim as [|dim']; [lia|]. cbn [seq map].
      change (aget (spl ws tau (leading / 2) 0 :: map (spl ws tau (leading / 2)) (seq 1 dim')) 0) with (FOk (spl ws tau (leading / 2) 0)). cbn [fbind]. change (ts_domain (spl ws tau (leading / 2) 0)) with (t_times ws (leading / 2)).
      destruct (times_facts (S dim') ws (leading / 2) VW) as (_ & _ & _ & _ & LT). rewrite LT. change (spl ws tau (leading / 2) 0 :: map (spl ws tau (leading / 2)) (seq 1 dim')) with (map (spl ws tau (leading / 2)) (seq 0 (S dim'))).
      destruct (trailing_tries_spec debug (S dim') ws acc tau (leading / 2) VW L3' T LA 5 1 ltac:(lia) ltac:(lia)) as [(k & _ & _ & _ & E)|(FL & E)]; rewrite E; cbn [fbind]; [left; discriminate|right].
      split. { intros H. destruct (FL 5%Z ltac:(lia)) as (j & J & Q). pose proof (GOOD ws VW LW H j J). lra. }
      replace (Zlen ws - 2)%Z with (Z.of_nat (n - 1)) by (unfold Zlen; unfold n_of in NW; lia). destruct (stretch_longer (S dim') ws (n - 1) VW ltac:(unfold n_of in NW; lia)) as (w1 & ES & V1 & L1 & _ & DU). rewrite ES. cbn [fbind]. exists w1. auto. }
    induction fuel as [|fuel IH]; intros ws VW LW H.
    - destruct (ROUND 0%nat ws VW LW) as [Q|(Q & _)]; [exact Q|]. exfalso. apply Q. cbn in H. lra.
    - destruct (ROUND (S fuel) ws VW LW) as [Q|(_ & w2 & E & V2 & L2 & DU)]; [exact Q|]. rewrite E. apply IH; [exact V2|eapply longer_trans; eauto|]. rewrite DU. cbn [pow] in H. lra. }
  pose proof (v_dur _ _ V (n - 1)%nat ltac:(unfold n, n_of in *; lia)) as D0. destruct (growth (w_duration (wp wps (n - 1))) (K / am) D0) as (F & HF). exists (S F). intros fuel LE. destruct fuel as [|fuel]; [lia|]. apply STEP; [exact V|apply longer_refl|]. apply HF. lia.
Qed.
