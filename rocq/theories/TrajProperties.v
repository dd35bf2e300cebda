(** Properties of joint trajectories (ecl_manipulators). *)
From Verif Require Import RBase PolyModel SplineModel SplineProofs TrajModel TrajProofs LinearProofs.
Open Scope R_scope.

(** * C66: durations *)

(** [wp_ok dim]: a waypoint for [dim] joints. [seg_dur]: long enough for every joint at its nominal rate, and not longer than
    given or needed. *)
Theorem C66_durations : forall dim wps, wps <> [] -> Forall (wp_ok dim) wps -> (forall i, (S i < length wps)%nat -> rates_pos (wp wps i)) ->
  exists ws b, initialise_loop dim wps = FOk (ws, b) /\ length ws = length wps
    /\ (forall i, w_angles (wp ws i) = w_angles (wp wps i) /\ w_nominal (wp ws i) = w_nominal (wp wps i) /\ w_duration (wp wps i) <= w_duration (wp ws i))
    /\ (b = true -> forall i, (S i < length wps)%nat -> let d := w_duration (wp ws i) in
          0 < d
          /\ (forall j, (j < dim)%nat -> Rabs (angle (wp wps (S i)) j - angle (wp wps i) j) <= nominal (wp wps i) j * d)
          /\ (d = w_duration (wp wps i) \/ exists j, (j < dim)%nat /\ Rabs (angle (wp wps (S i)) j - angle (wp wps i) j) = nominal (wp wps i) j * d))
    /\ (b = false <-> exists i, (S i < length wps)%nat /\ w_duration (wp wps i) <= 0 /\ forall j, (j < dim)%nat -> angle (wp wps (S i)) j = angle (wp wps i) j).
Proof.
  intros dim wps NE W P. destruct (initialise_iff dim wps NE W P) as (ws & b & E & L & S & _ & T & F). exists ws, b. split; [exact E|]. split; [exact L|]. split; [|split; [|exact F]].
  - intros i. destruct (S i) as [(A & B & C & D) G]. auto.
  - intros B i I. destruct (T B i I) as (Q & [Q1 Q2 Q3]). cbn zeta. auto.
Qed.
Print Assumptions C66_durations.

(** A waypoint for one joint. *)
Definition at_angle (d a : R) (rates : option R) : waypoint :=
  mk_wp d [a] [match rates with Some r => r | None => 0 end] (match rates with Some _ => true | None => false end) [1].
Lemma at_angle_ok d a r : wp_ok 1 (at_angle d a r). Proof. repeat split. Qed.
Lemma at_angle_rates d a r : rates_pos (at_angle d a r). Proof. repeat constructor. cbn. lra. Qed.
Ltac singles := repeat constructor.

Example C66_example : exists ws, initialise_loop 1 [at_angle 0 0 None; at_angle 5 2 None; at_angle 0 3 None] = FOk (ws, true).
Proof.
  destruct (C66_durations 1 [at_angle 0 0 None; at_angle 5 2 None; at_angle 0 3 None]) as (ws & b & E & _ & _ & _ & F); [discriminate|singles|intros [|[|[|i]]]; cbn; try lia; intros _; apply at_angle_rates|].
  destruct b; [now exists ws|]. exfalso. destruct F as [F _]. destruct (F eq_refl) as ([|[|[|i]]] & I & D & A); cbn in *; try lia; try lra. specialize (A 0%nat ltac:(lia)). unfold angle in A. cbn in A. lra.
Qed.

(** validateWaypoints(min) and initialiseWaypointDurations on a trajectory without waypoints: the number of segments wraps. *)
Theorem C151_no_waypoints_refuted : exists wps : list waypoint, validate 0 wps = FUB /\ initialise_loop 1 wps = FUB.
Proof. exists []. split; reflexivity. Qed.
Print Assumptions C151_no_waypoints_refuted.
Theorem C151_validate : forall min wps, wps <> [] ->
  exists b, validate min wps = FOk b /\ (b = true <-> (min <= Zlen wps)%Z /\ forall i, (S i < length wps)%nat -> rates_pos (wp wps i)).
Proof.
  intros min wps NE. unfold validate. destruct (Z.ltb_spec (Zlen wps) min) as [L|L].
  - exists false. split; [reflexivity|]. split; [discriminate|lia].
  - destruct wps as [|w tl]; [congruence|]. exists (validate_loop (w :: tl)). split; [reflexivity|]. rewrite validate_spec. split; [auto|]. now intros [_ H].
Qed.
Print Assumptions C151_validate.

(** * C152: linear interpolation, when it finishes *)

(** Every outcome: waypoints that are not acceptable throw, others never fail; the waypoints keep their angles and their
    durations only grow. [None]: the rounds given did not suffice. *)
Theorem C152_linear_outcome : forall dim wps acc fuel, (1 <= dim)%nat -> length acc = dim -> Forall (wp_ok dim) wps ->
  (~ acceptable dim wps /\ linear_interpolate fuel wps acc = FThrow ConfigurationError)
  \/ (acceptable dim wps /\ exists o ws, linear_interpolate fuel wps acc = FOk (o, ws) /\ length ws = length wps
       /\ forall i, w_angles (wp ws i) = w_angles (wp wps i) /\ w_duration (wp wps i) <= w_duration (wp ws i)).
Proof.
  intros dim wps acc fuel D1 LA W. destruct (linear_spec dim wps acc fuel D1 LA W) as [H1 H2]. destruct (Classical_Prop.classic (acceptable dim wps)) as [A|A]; [right|left; auto].
  split; [exact A|]. destruct (H2 A) as (ws1 & o & ws & _ & _ & _ & EV & _ & _ & H). destruct o as [ss|].
  - destruct H as (T & _ & _ & E). exists (Some (T, linear_functions ss)), ws. split; [exact E|]. split; [apply (e_len _ _ _ EV)|]. intros i. split; [apply (e_angles _ _ _ EV)|apply (e_dur _ _ _ EV)].
  - exists None, ws. split; [exact H|]. split; [apply (e_len _ _ _ EV)|]. intros i. split; [apply (e_angles _ _ _ EV)|apply (e_dur _ _ _ EV)].
Qed.
Print Assumptions C152_linear_outcome.

(** The path: from the first waypoint's angles and rates to the last one's angles, twice continuously differentiable, with no
    acceleration at the ends and the acceleration within the bound everywhere, and slower than the durations add up to. *)
Theorem C152_linear_path : forall dim wps acc fuel T fss ws, (1 <= dim)%nat -> length acc = dim -> Forall (wp_ok dim) wps ->
  linear_interpolate fuel wps acc = FOk (Some (T, fss), ws) ->
  total (durations ws) < T /\ total (durations wps) < T /\
  forall j, (j < dim)%nat -> exists f f1 f2, observed fss j T f f1 f2
    /\ (forall t, derivable_pt_lim f t (f1 t) /\ derivable_pt_lim f1 t (f2 t) /\ continuity_pt f2 t)
    /\ f 0 = angle (wp wps 0) j /\ f T = angle (wp wps (length wps - 1)) j
    /\ f1 0 = end_rate (wp wps 0) j /\ f2 0 = 0 /\ f2 T = 0
    /\ (forall t, Rabs (f2 t) <= Rabs (nth j acc 0)).
Proof.
  intros dim wps acc fuel T fss ws D1 LA W E. destruct (linear_spec dim wps acc fuel D1 LA W) as [H1 H2]. destruct (Classical_Prop.classic (acceptable dim wps)) as [A|A]; [|rewrite (H1 A) in E; discriminate].
  destruct (H2 A) as (ws1 & o & ws' & _ & _ & _ & EV & V & _ & H). destruct o as [ss|]; [|rewrite H in E; discriminate]. destruct H as (T' & T1 & D & E'). rewrite E' in E. injection E as -> <- <-.
  assert (TT : total (durations wps) < T) by (apply Rle_lt_trans with (2 := T1); apply total_le_n; [symmetry; apply (e_len _ _ _ EV)|apply (e_dur _ _ _ EV)]).
  split; [exact T1|]. split; [exact TT|]. intros j J. pose proof (total_nonneg ws' (v_dur _ _ V)) as T0. destruct (observed_spec dim wps acc T ss j D J ltac:(lra)) as (f & f1 & f2 & O & s & JP). exists f, f1, f2. split; [exact O|]. destruct JP as [P1 P2 P3 P4 P5 P6 [P7 P7'] P8 P9].
  do 6 (split; [assumption|]). intros t. destruct (P8 t) as [->|Q]; [rewrite Rabs_R0; apply Rabs_pos|lra].
Qed.
Print Assumptions C152_linear_path.

(** * C153: the rate at the end *)

(** It is the last waypoint's rate scaled down to at most a half: right only when that waypoint asks for rest. *)
Theorem C153_end_rate_partial : forall dim wps acc fuel T fss ws, (1 <= dim)%nat -> length acc = dim -> Forall (wp_ok dim) wps ->
  linear_interpolate fuel wps acc = FOk (Some (T, fss), ws) ->
  forall j, (j < dim)%nat -> exists r k, traj_joint piece_deriv false fss (Z.of_nat j) T = FOk r /\ 0 < k <= 1 / 2 /\ r = k * end_rate (wp wps (length wps - 1)) j.
Proof.
  intros dim wps acc fuel T fss ws D1 LA W E j J. destruct (linear_spec dim wps acc fuel D1 LA W) as [H1 H2]. destruct (Classical_Prop.classic (acceptable dim wps)) as [A|A]; [|rewrite (H1 A) in E; discriminate].
  destruct (H2 A) as (ws1 & o & ws' & _ & _ & _ & EV & V & _ & H). destruct o as [ss|]; [|rewrite H in E; discriminate]. destruct H as (T' & T1 & D & E'). rewrite E' in E. injection E as -> <- <-.
  pose proof (total_nonneg ws' (v_dur _ _ V)) as T0. destruct (observed_spec dim wps acc T ss j D J ltac:(lra)) as (f & f1 & f2 & O & s & JP). destruct (jp_end_rate _ _ _ _ _ _ _ _ _ _ _ JP) as (k & K & EK). exists (f1 T), k. split; [|split; [exact K|exact EK]]. apply O. lra.
Qed.
Print Assumptions C153_end_rate_partial.

(** * C154: whether it finishes *)

(** Large enough bounds and end segments of a millisecond or more: the first round succeeds. *)
Theorem C154_linear_finishes : forall dim wps, (1 <= dim)%nat -> Forall (wp_ok dim) wps -> acceptable dim wps ->
  (forall i, i = 0%nat \/ i = (length wps - 2)%nat -> exists d, 1 / 1000 <= d /\ (d <= w_duration (wp wps i) \/ exists j, (j < dim)%nat /\ nominal (wp wps i) j * d <= Rabs (angle (wp wps (S i)) j - angle (wp wps i) j))) ->
  exists m, forall acc fuel, length acc = dim -> (forall j, (j < dim)%nat -> m < Rabs (nth j acc 0)) ->
    exists T fss ws, linear_interpolate (S fuel) wps acc = FOk (Some (T, fss), ws).
Proof.
  intros dim wps D1 W A EL. destruct (linear_spec dim wps (repeat 0 dim) 0 D1 (repeat_length _ _) W) as [_ H2]. destruct (H2 A) as (ws1 & _ & _ & EI & V1 & EV1 & _). destruct A as (L2 & P & A). destruct (settle_ends_spec dim ws1 V1) as (VS & ES & DU & _). set (ws2 := settle_ends ws1) in *.
  assert (LE : length ws2 = length wps) by (rewrite (e_len _ _ _ ES); apply (e_len _ _ _ EV1)).
  assert (DD : forall i, i = 0%nat \/ i = (length wps - 2)%nat -> 1 / 1000 <= w_duration (wp ws2 i)).
  { intros i I. rewrite DU. assert (IL : (S i < length wps)%nat) by lia. destruct (EL i I) as (d & D & C). destruct (initialise_iff dim wps) as (w' & b & EI' & _ & S & _ & TT & _); auto; [destruct wps; [cbn in L2; lia|discriminate]|]. rewrite EI in EI'. injection EI' as <- <-.
    destruct (TT eq_refl i IL) as (Q & [Q1 Q2 Q3]). destruct C as [C|(j & J & C)]; [lra|]. pose proof (Q2 j J) as Q4. pose proof (P i IL) as PR. unfold rates_pos in PR. rewrite Forall_forall in PR. pose proof (wp_at dim wps i W ltac:(lia)) as (_ & _ & LN). assert (PN : 0 < nominal (wp wps i) j) by (apply PR; apply nth_In; lia). nra. }
  destruct (generate_large dim ws2 VS D1) as (m & M); [apply DD; now left|unfold n_of; rewrite LE; apply DD; right; lia|]. exists m. intros acc fuel LA H. destruct (M acc LA H) as (ss & EG).
  destruct (linear_spec dim wps acc (S fuel) D1 LA W) as [_ H3]. destruct (H3 (conj L2 (conj P A))) as (ws1' & o & ws' & EI' & _ & _ & _ & _ & ELL & K). rewrite EI in EI'. injection EI' as <-. cbn [linear_loop] in ELL. fold ws2 in ELL. rewrite EG in ELL. cbn [fbind] in ELL. injection ELL as <- <-. destruct K as (T & _ & _ & E). eauto.
Qed.
Print Assumptions C154_linear_finishes.

(** Waypoints for which every round fails and only the first segment is stretched. *)
Theorem C154_never_finishes : forall dim wps ws acc, (1 <= dim)%nat -> length acc = dim -> Forall (wp_ok dim) wps -> acceptable dim wps -> initialise_loop dim wps = FOk (ws, true) ->
  let n := (length ws - 1)%nat in let k := (dim - 1)%nat in let d := w_duration (wp ws (n - 1)) in
  (nth k acc 0 = 0
   \/ (2 <= n)%nat /\ d < 1 / 1000
   \/ (2 <= n)%nat /\ (forall j, (j < dim)%nat -> end_rate (wp ws n) j = 0) /\ 3 / 2 * d * d * Rabs (nth k acc 0) <= Rabs (angle (wp ws n) k - angle (wp ws (n - 1)) k)) ->
  forall fuel, exists ws', linear_interpolate fuel wps acc = FOk (None, ws').
Proof.
  intros dim wps ws acc D1 LA W A EI n k d H fuel. destruct (linear_spec dim wps acc fuel D1 LA W) as [_ H2]. destruct (H2 A) as (ws1 & o & w2 & EI' & V1 & _ & _ & _ & ELL & K). rewrite EI in EI'. injection EI' as <-.
  destruct (hopeless_loop dim acc D1 LA fuel ws V1) as (w3 & E3); [exact H|]. rewrite E3 in ELL. injection ELL as <- <-. now exists w3.
Qed.
Print Assumptions C154_never_finishes.

Lemma pair_acceptable d a b r s : 0 < d -> acceptable 1 [at_angle d a r; at_angle 0 b s].
Proof. intros D. split; [cbn; lia|]. split; [intros [|[|i]]; cbn; try lia; intros _; apply at_angle_rates|]. intros [|[|i]]; cbn; try lia. intros _. now left. Qed.

(** The maximum accelerations a trajectory is created with are zero. *)
Theorem C154_linear_terminates_refuted : exists wps acc, acceptable 1 wps /\ (forall fuel, exists ws, linear_interpolate fuel wps acc = FOk (None, ws)).
Proof.
  set (wps := [at_angle 1 0 None; at_angle 0 1 None]). exists wps, [0]. assert (A : acceptable 1 wps) by (apply pair_acceptable; lra). split; [exact A|].
  assert (W : Forall (wp_ok 1) wps) by singles. destruct (linear_spec 1 wps [0] 0 (le_n 1) eq_refl W) as [_ H2]. destruct (H2 A) as (ws1 & _ & _ & EI & _).
  apply (C154_never_finishes 1 wps ws1 [0] (le_n 1) eq_refl W A EI). now left.
Qed.
Print Assumptions C154_linear_terminates_refuted.
(** Three waypoints a unit apart, a second each, at rest at the end, and a maximum acceleration of a half. *)
Theorem C154_bounded_terminates_refuted : exists wps acc, acceptable 1 wps /\ Forall (fun a => 0 < a) acc /\ (forall i, (S i < length wps)%nat -> w_duration (wp wps i) = 1) /\ (forall fuel, exists ws, linear_interpolate fuel wps acc = FOk (None, ws)).
Proof.
  set (wps := [at_angle 1 0 None; at_angle 1 1 None; at_angle 0 2 None]). exists wps, [1 / 2]. assert (A : acceptable 1 wps).
  { split; [cbn; lia|]. split; [intros [|[|[|i]]]; cbn; try lia; intros _; apply at_angle_rates|]. intros [|[|[|i]]]; cbn; try lia; intros _; left; lra. }
  split; [exact A|]. split; [repeat constructor; lra|]. split; [intros [|[|[|i]]]; cbn; try lia; reflexivity|].
  assert (W : Forall (wp_ok 1) wps) by singles. destruct (initialise_iff 1 wps) as (ws & b & EI & LW & S & _ & T & F); [discriminate|exact W|apply A|].
  destruct b. 2:{ exfalso. destruct F as [F _]. destruct (F eq_refl) as ([|[|[|i]]] & I & D & _); cbn in *; try lia; lra. }
  apply (C154_never_finishes 1 wps ws [1 / 2] (le_n 1) eq_refl W A EI). right; right. rewrite LW. cbn [length wps Nat.sub].
  destruct (S 2%nat) as [(S1 & S2 & S3 & S4) _]. destruct (S 1%nat) as [(U1 & U2 & U3 & U4) U5]. destruct (T eq_refl 1%nat ltac:(cbn; lia)) as (_ & [Q1 Q2 Q3]).
  assert (D : w_duration (wp ws 1) = 1). { destruct Q3 as [Q3|(j & J & Q3)]; [exact Q3|]. assert (j = 0%nat) as -> by lia. unfold angle, nominal in Q3. cbn in Q3. replace (2 - 1) with 1 in Q3 by ring. rewrite Rabs_R1 in Q3. lra. }
  split; [lia|]. split; [intros j J; unfold end_rate; rewrite S3; reflexivity|]. rewrite D. unfold angle. rewrite S1, U1. cbn. replace (2 - 1) with 1 by ring. rewrite Rabs_R1, Rabs_right by lra. lra.
Qed.
Print Assumptions C154_bounded_terminates_refuted.

(** Two waypoints, one joint: finishes for large bounds whatever rates are asked for. *)
Lemma pair_finishes r s : exists m, forall a fuel, m < Rabs a -> exists T fss ws, linear_interpolate (S fuel) [at_angle 1 0 r; at_angle 0 1 s] [a] = FOk (Some (T, fss), ws).
Proof.
  set (wps := [at_angle 1 0 r; at_angle 0 1 s]). assert (W : Forall (wp_ok 1) wps) by singles.
  destruct (C154_linear_finishes 1 wps (le_n 1) W) as (m & M); [apply pair_acceptable; lra| |].
  { intros i I. assert (i = 0%nat) as -> by (cbn in I; lia). exists 1. split; [lra|]. left. cbn. lra. }
  exists m. intros a fuel A. apply M; [reflexivity|]. intros j J. assert (j = 0%nat) as -> by lia. exact A.
Qed.
Example C152_example : exists acc T fss ws, 0 < nth 0 acc 0 /\ linear_interpolate 1 [at_angle 1 0 (Some 3); at_angle 0 1 None] acc = FOk (Some (T, fss), ws).
Proof.
  destruct (pair_finishes (Some 3) None) as (m & M). destruct (M (Rabs m + 1) 0%nat) as (T & fss & ws & E).
  - rewrite Rabs_right; [|pose proof (Rabs_pos m); lra]. pose proof (Rle_abs m). lra.
  - exists [Rabs m + 1], T, fss, ws. split; [|exact E]. cbn. pose proof (Rabs_pos m). lra.
Qed.
(** The last waypoint asks for rate 1 and does not get it. *)
Theorem C153_end_rate_refuted : exists wps acc T fss ws, Forall (wp_ok 1) wps /\ linear_interpolate 1 wps acc = FOk (Some (T, fss), ws) /\
  end_rate (wp wps (length wps - 1)) 0 = 1 /\ exists r, traj_joint piece_deriv false fss 0 T = FOk r /\ r <= 1 / 2.
Proof.
  destruct (pair_finishes None (Some 1)) as (m & M). destruct (M (Rabs m + 1) 0%nat) as (T & fss & ws & E).
  { rewrite Rabs_right; [|pose proof (Rabs_pos m); lra]. pose proof (Rle_abs m). lra. }
  exists [at_angle 1 0 None; at_angle 0 1 (Some 1)], [Rabs m + 1], T, fss, ws. split; [singles|]. split; [exact E|]. split; [reflexivity|].
  destruct (C153_end_rate_partial 1 [at_angle 1 0 None; at_angle 0 1 (Some 1)] [Rabs m + 1] 1 T fss ws (le_n 1) eq_refl ltac:(singles) E 0%nat ltac:(lia)) as (q & k & E1 & K & ->). exists (k * end_rate (wp [at_angle 1 0 None; at_angle 0 1 (Some 1)] (length [at_angle 1 0 None; at_angle 0 1 (Some 1)] - 1)) 0). split; [exact E1|].
  change (end_rate _ 0) with 1. lra.
Qed.
Print Assumptions C153_end_rate_refuted.

(** * C155: evaluating a trajectory *)

(** The pieces of a joint follow one another from time 0. *)
Fixpoint chained (t : R) (fs : list sfun) : Prop := match fs with [] => True | f :: fs' => s_begin f = t /\ t < s_end f /\ chained (s_end f) fs' end.
Fixpoint chain_end (t : R) (fs : list sfun) : R := match fs with [] => t | f :: fs' => chain_end (s_end f) fs' end.
Lemma chain_last t fs f0 : fs <> [] -> s_end (last fs f0) = chain_end t fs.
Proof. revert t. induction fs as [|f fs IH]; [congruence|]. intros t _. destruct fs as [|g fs]; [reflexivity|]. cbn [last chain_end] in *. apply (IH (s_end f)). discriminate. Qed.
Lemma chain_ge fs : forall t, chained t fs -> t <= chain_end t fs.
Proof. induction fs as [|f fs IH]; intros t; cbn; [lra|]. intros (_ & L & C). specialize (IH _ C). lra. Qed.
Lemma first_spec fs : forall t x, chained t fs -> t <= x -> match first_function fs x with Some f => In f fs /\ s_begin f <= x <= s_end f | None => chain_end t fs < x \/ fs = [] end.
Proof.
  induction fs as [|f fs IH]; intros t x C L; cbn [first_function]; [now right|]. destruct C as (B & LT & C). destruct (Rle_dec x (s_end f)) as [Q|Q]; [split; [now left|lra]|].
  specialize (IH (s_end f) x C ltac:(lra)). destruct (first_function fs x) as [g|]; [destruct IH; split; [now right|assumption]|]. left. cbn. destruct IH as [IH|IH]; [exact IH|]. subst. cbn. lra.
Qed.
Lemma in_nonempty {A} (x : A) l : In x l -> l <> []. Proof. destruct l; [contradiction|discriminate]. Qed.
Lemma last_in {A} (l : list A) d : l <> [] -> In (last l d) l.
Proof. induction l as [|a l IH]; [congruence|]. intros _. destruct l as [|b l]; [now left|]. right. apply IH. discriminate. Qed.
Lemma chain_begin fs : forall t f, chained t fs -> In f fs -> s_begin f < s_end f.
Proof. induction fs as [|g fs IH]; intros t f C I; [contradiction|]. destruct C as (B & L & C). destruct I as [->|I]; [lra|]. now apply (IH _ f C). Qed.

Lemma traj_at_unfold how debug fs x : fs <> [] -> exists f0, traj_at how debug fs x =
  if debug && negb ((if Rle_dec 0 x then true else false) && (if Rle_dec x (s_end (last fs f0) + / 10000) then true else false)) then FThrow OutOfRangeError
  else match first_function fs x with Some f => sfun_at how debug f x | None => sfun_at how debug (last fs f0) (s_end (last fs f0)) end.
Proof. destruct fs as [|f0 fs]; [congruence|]. intros _. exists f0. reflexivity. Qed.
(** Within the duration: the value of a piece whose domain contains the time, in either build. Later: the value at the end (in
    debug builds for a tenth of a millisecond, then an exception). Earlier: an exception in debug builds. *)
Theorem C155_evaluate : forall how debug fs x, fs <> [] -> chained 0 fs -> let T := chain_end 0 fs in
  (0 <= x <= T -> exists f, In f fs /\ s_begin f <= x <= s_end f /\ traj_at how debug fs x = how debug (s_piece f) x)
  /\ (T < x -> exists f, In f fs /\ s_end f = T /\ traj_at how debug fs x = if debug && (if Rlt_dec (T + / 10000) x then true else false) then FThrow OutOfRangeError else how debug (s_piece f) T)
  /\ (x < 0 -> debug = true -> traj_at how debug fs x = FThrow OutOfRangeError).
Proof.
  intros how debug fs x NE C. destruct (traj_at_unfold how debug fs x NE) as (f0 & ->). set (T := chain_end 0 fs). pose proof (chain_last 0 fs f0 NE) as CL. fold T in CL. rewrite CL. pose proof (chain_ge fs 0 C) as GE. fold T in GE. cbn zeta. split; [|split].
  - intros B. pose proof (first_spec fs 0 x C ltac:(lra)) as FS. destruct (Rle_dec 0 x); [|lra]. destruct (Rle_dec x (T + / 10000)); [|lra]. cbn [negb andb]. rewrite andb_false_r. destruct (first_function fs x) as [f|].
    + destruct FS as [I [B1 B2]]. exists f. split; [exact I|]. split; [lra|]. unfold sfun_at. destruct (Rle_dec (s_begin f) x); [|lra]. destruct (Rle_dec x (s_end f)); [|lra]. cbn [negb andb]. now rewrite andb_false_r.
    + fold T in FS. destruct FS; [lra|congruence].
  - intros B. exists (last fs f0). pose proof (last_in fs f0 NE) as I. split; [exact I|]. split; [exact CL|]. pose proof (first_spec fs 0 x C ltac:(lra)) as FS. destruct (Rle_dec 0 x); [|lra].
    assert (FN : first_function fs x = None).
    { destruct (first_function fs x) as [f|]; [|reflexivity]. exfalso. destruct FS as [IF [B1 B2]]. assert (H : forall gs t g, chained t gs -> In g gs -> s_end g <= chain_end t gs).
      { induction gs as [|h gs IH]; intros t g CG IG; [contradiction|]. destruct CG as (_ & LG & CG). destruct IG as [->|IG]; cbn; [now apply chain_ge|now apply IH]. }
      specialize (H fs 0 f C IF). fold T in H. lra. }
    rewrite FN. destruct (Rle_dec x (T + / 10000)) as [Q|Q], (Rlt_dec (T + / 10000) x) as [Q'|Q']; try lra; cbn [negb andb]; rewrite ?andb_false_r, ?andb_true_r.
    + unfold sfun_at. rewrite CL. pose proof (chain_begin fs 0 _ C I) as CB. rewrite CL in CB. destruct (Rle_dec (s_begin (last fs f0)) T); [|lra]. destruct (Rle_dec T T); [|lra]. cbn [negb andb]. now rewrite andb_false_r.
    + destruct debug; reflexivity.
  - intros B ->. destruct (Rle_dec 0 x); [lra|]. reflexivity.
Qed.
Print Assumptions C155_evaluate.
(** Before the first interpolation (or after redimension) there are no pieces and the evaluators read outside their arrays in
    both builds. *)
Theorem C155_before_interpolation_refuted : exists fs : list sfun, forall how debug x, traj_at how debug fs x = FUB.
Proof. exists []. intros. reflexivity. Qed.
Print Assumptions C155_before_interpolation_refuted.
Example C155_example : chained 0 [mk_sfun 0 1 (PQuintic [1]); mk_sfun 1 3 (PQuintic [1; 2])] /\ traj_at piece_eval true [mk_sfun 0 1 (PQuintic [1]); mk_sfun 1 3 (PQuintic [1; 2])] 2 = FOk (eval [1; 2] 2).
Proof.
  split; [cbn; repeat split; lra|]. destruct (C155_evaluate piece_eval true [mk_sfun 0 1 (PQuintic [1]); mk_sfun 1 3 (PQuintic [1; 2])] 2) as [H _]; [discriminate|cbn; repeat split; lra|]. destruct H as (f & [<-|[<-|[]]] & B & E); [cbn; lra|cbn in B; lra|exact E].
Qed.

(** * C156: comparing waypoints *)

(** Waypoints for equally many joints: equal exactly when their angles are. *)
Theorem C156_equal : forall v w, length (w_angles v) = length (w_angles w) ->
  exists b, wp_equal v w = FOk b /\ wp_equal w v = FOk b /\ (b = true <-> w_angles v = w_angles w) /\ wp_differ v w = FOk (negb b).
Proof.
  intros v w. unfold wp_differ, wp_equal. generalize (w_angles v) (w_angles w). induction l as [|x a IH]; intros [|y b] L; try discriminate.
  - exists true. cbn. tauto.
  - injection L as L. destruct (IH b L) as (r & E1 & E2 & H & _). cbn [wp_equal_loop]. destruct (Req_EM_T x y) as [->|N].
    + exists r. destruct (Req_EM_T y y); [|congruence]. rewrite E1. cbn. split; [reflexivity|]. split; [exact E2|]. split; [|reflexivity]. rewrite H. split; [congruence|]. intros Q. now injection Q.
    + exists false. destruct (Req_EM_T y x); [congruence|]. cbn. repeat split; auto; try discriminate. intros Q. injection Q. congruence.
Qed.
Print Assumptions C156_equal.
(** Otherwise the comparison reads outside the shorter waypoint or calls different waypoints equal, depending on the order. *)
Theorem C156_dimensions_refuted : exists v w, w_angles v <> w_angles w /\ wp_equal v w = FOk true /\ wp_equal w v = FUB.
Proof.
  exists (mk_wp 0 [] [] false []), (at_angle 0 1 None). split; [discriminate|]. split; reflexivity.
Qed.
Print Assumptions C156_dimensions_refuted.

(** * C157: the memory of a trajectory *)

Definition sane (m : traj_mem) : Prop := NoDup (tm_live m) /\ forall p, In p (tm_live m) -> (p < tm_next m)%Z.
Lemma delete_ok m p : In p (tm_live m) -> sane m -> exists m', tm_delete m p = Ok m' /\ sane m' /\ forall q, In q (tm_live m') <-> In q (tm_live m) /\ q <> p.
Proof.
  intros I [N B]. unfold tm_delete. replace (existsb (Z.eqb p) (tm_live m)) with true.
  2:{ symmetry. apply existsb_exists. exists p. split; [exact I|apply Z.eqb_refl]. }
  eexists. split; [reflexivity|]. cbn. assert (H : forall q, In q (filter (fun q => negb (Z.eqb p q)) (tm_live m)) <-> In q (tm_live m) /\ q <> p).
  { intros q. rewrite filter_In. destruct (Z.eqb_spec p q); cbn; intuition congruence. }
  split; [|exact H]. split; [now apply NoDup_filter|]. cbn. intros q Q. apply H in Q. now apply B.
Qed.
Lemma clear_ok ps : forall m, sane m -> NoDup ps -> (forall p, In p ps -> In p (tm_live m)) -> exists m', tm_clear ps m = Ok m' /\ sane m' /\ forall q, In q (tm_live m') <-> In q (tm_live m) /\ ~ In q ps.
Proof.
  induction ps as [|p ps IH]; intros m S N H; cbn [tm_clear]. { exists m. split; [reflexivity|]. split; [exact S|]. cbn. tauto. }
  inversion N as [|? ? NI N']; subst. destruct (delete_ok m p (H p (or_introl eq_refl)) S) as (m1 & E1 & S1 & H1). rewrite E1. cbn. destruct (IH m1 S1) as (m2 & E2 & S2 & H2); [assumption| |].
  { intros q Q. apply H1. split; [apply H; now right|]. intros ->. contradiction. }
  exists m2. split; [exact E2|]. split; [exact S2|]. intros q. rewrite H2, H1. intuition.
Qed.
Lemma allocs_ok k : forall m, sane m -> let '(ps, m') := tm_allocs k m in sane m' /\ NoDup ps /\ length ps = k /\ (tm_next m <= tm_next m')%Z /\ (forall p, In p ps -> (tm_next m <= p)%Z) /\ forall q, In q (tm_live m') <-> In q (tm_live m) \/ In q ps.
Proof.
  induction k as [|k IH]; intros m S; cbn [tm_allocs]. { split; [exact S|]. split; [constructor|]. split; [reflexivity|]. split; [lia|]. cbn. tauto. }
  unfold tm_alloc. set (m1 := mk_tm _ _). assert (S1 : sane m1). { destruct S as [N B]. split; cbn; [constructor; [intros I; specialize (B _ I); lia|exact N]|]. intros p [<-|I]; [lia|]. specialize (B p I). lia. }
  specialize (IH m1 S1). destruct (tm_allocs k m1) as [ps m2]. destruct IH as (S2 & N2 & L2 & X2 & P2 & H2). cbn in X2. split; [exact S2|]. split.
  - constructor; [|exact N2]. intros I. specialize (P2 _ I). cbn in P2. lia.
  - cbn [length]. split; [lia|]. split; [lia|]. split. { intros p [<-|I]; [lia|]. specialize (P2 p I). cbn in P2. lia. } intros q. rewrite H2. cbn. tauto.
Qed.
(** One trajectory, interpolated again and again and then destroyed: every function is deleted exactly once and nothing is
    left. *)
Fixpoint interpolations (ks : list nat) (own : list Z) (m : traj_mem) : res (list Z * traj_mem) :=
  match ks with [] => Ok (own, m) | k :: ks' => r <- tm_interpolate k own m ;; interpolations ks' (fst r) (snd r) end.
Theorem C157_one_owner : forall ks, exists own m m', interpolations ks [] (mk_tm [] 0) = Ok (own, m) /\ tm_clear own m = Ok m' /\ tm_live m' = [].
Proof.
  intros ks. assert (G : forall ks own m, sane m -> NoDup own -> (forall q, In q (tm_live m) <-> In q own) -> exists own' m', interpolations ks own m = Ok (own', m') /\ sane m' /\ NoDup own' /\ forall q, In q (tm_live m') <-> In q own').
  { clear ks. induction ks as [|k ks IH]; intros own m S N H; cbn [interpolations]; [eauto 6|]. unfold tm_interpolate. destruct (clear_ok own m S N (fun p I => proj2 (H p) I)) as (m1 & E1 & S1 & H1). rewrite E1. cbn [bind].
    pose proof (allocs_ok k m1 S1) as A. destruct (tm_allocs k m1) as [ps m2]. destruct A as (S2 & N2 & _ & _ & _ & H2). cbn [fst snd bind]. apply IH; auto. intros q. rewrite H2, H1, H. tauto. }
  destruct (G ks [] (mk_tm [] 0)) as (own & m & E & S & N & H); [split; [constructor|intros p []]|constructor|cbn; tauto|].
  destruct (clear_ok own m S N (fun p I => proj2 (H p) I)) as (m' & E' & _ & H'). exists own, m, m'. split; [exact E|]. split; [exact E'|]. destruct (tm_live m') as [|q l]; [reflexivity|]. exfalso. destruct (proj1 (H' q) (or_introl eq_refl)) as [A B]. apply B. now apply H.
Qed.
Print Assumptions C157_one_owner.
(** A copy of an interpolated trajectory shares its functions: destroying both deletes them twice. *)
Theorem C157_copies_refuted : exists k own m m1, tm_interpolate k [] (mk_tm [] 0) = Ok (own, m) /\ tm_clear (tm_copy own) m = Ok m1 /\ tm_clear own m1 = UB.
Proof. exists 1%nat, [0%Z], (mk_tm [0%Z] 1), (mk_tm [] 1). repeat split; reflexivity. Qed.
Print Assumptions C157_copies_refuted.

(** * C163: redimensioned waypoints *)

(** Redimensioning gives every array the new size and zeroes the angles ... *)
Theorem C163_redimension_partial : forall w dim, wp_ok dim (wp_redimension w dim) /\
  (forall j, (j < dim)%nat -> angle (wp_redimension w dim) j = 0) /\ w_duration (wp_redimension w dim) = w_duration w.
Proof.
  intros w dim. unfold wp_ok, wp_redimension, angle. cbn. rewrite repeat_length. repeat split; auto.
  intros j L. apply nth_repeat.
Qed.
Print Assumptions C163_redimension_partial.
(** ... but, unlike a new waypoint of that size, it is refused by every interpolation unless the nominal rates are set again:
    a trajectory with one anywhere but at the end never validates. *)
Theorem C163_nominal_rates_refuted : forall w dim min pre post, (1 <= dim)%nat -> post <> [] ->
  rates_pos (wp_new dim) /\ validate min (pre ++ wp_redimension w dim :: post) = FOk false.
Proof.
  intros w dim min pre post D NE. split.
  - unfold rates_pos, wp_new. cbn. apply Forall_forall. intros x I. apply repeat_spec in I. subst. lra.
  - destruct (C151_validate min (pre ++ wp_redimension w dim :: post)) as (b & E & H); [destruct pre; discriminate|].
    rewrite E. f_equal. destruct b; [|reflexivity]. destruct H as [H _]. destruct (H eq_refl) as [_ K].
    specialize (K (length pre)). exfalso. assert (L : (S (length pre) < length (pre ++ wp_redimension w dim :: post))%nat).
    { rewrite app_length. cbn. destruct post; [congruence|cbn; lia]. }
    specialize (K L). unfold wp in K. rewrite app_nth2, Nat.sub_diag in K by lia. cbn in K. unfold rates_pos in K. cbn in K.
    destruct dim; [lia|]. cbn in K. inversion K. lra.
Qed.
Print Assumptions C163_nominal_rates_refuted.

(** Cases meeting the hypotheses of C151 and C156. *)
Example C151_case : validate 2 [at_angle 1 0 None; at_angle 2 1 None] = FOk true.
Proof.
  destruct (C151_validate 2 [at_angle 1 0 None; at_angle 2 1 None]) as (b & -> & H); [discriminate|]. f_equal. apply H. split; [vm_compute; discriminate|]. intros [|[|i]] I; cbn in *; try lia; apply at_angle_rates.
Qed.
Example C156_case : length (w_angles (at_angle 1 0 None)) = length (w_angles (at_angle 2 3 None)). Proof. reflexivity. Qed.
