(** The loops of the tension interpolation. *)
From Verif Require Import RBase PolyModel SplineModel PolyProofs RootsProofs SplineProofs CubicProofs TensionProofs TensCurve SmoothProofs SplineProperties PolyProperties TrajModel TrajProofs LinearProofs TensTraj1.
Open Scope R_scope.

(** * Stretching *)

Definition same_rates (wps ws : list waypoint) : Prop := forall k, w_rates (wp ws k) = w_rates (wp wps k).
(** [ws] is [wps] with longer segments. *)
Record longer (dim : nat) (wps ws : list waypoint) : Prop := { lg_ev : evolves dim wps ws; lg_rates : same_rates wps ws }.
Lemma longer_refl dim wps : longer dim wps wps. Proof. constructor; [apply evolves_refl|intros k; reflexivity]. Qed.
Lemma longer_trans dim a b c : longer dim a b -> longer dim b c -> longer dim a c.
Proof. intros [A1 A2] [B1 B2]. constructor; [eapply evolves_trans; eauto|]. intros k. now rewrite B2. Qed.
Lemma longer_n dim a b : longer dim a b -> n_of b = n_of a. Proof. intros [E _]. now apply (evolves_n dim). Qed.
Lemma longer_len dim a b : longer dim a b -> length b = length a. Proof. intros [E _]. apply (e_len _ _ _ E). Qed.
Lemma longer_angle dim a b i j : longer dim a b -> angle (wp b i) j = angle (wp a i) j. Proof. intros [E _]. unfold angle. now rewrite (e_angles _ _ _ E). Qed.
Lemma longer_dur dim a b i : longer dim a b -> w_duration (wp a i) <= w_duration (wp b i). Proof. intros [E _]. apply (e_dur _ _ _ E). Qed.

Lemma stretch_longer dim wps i : valid dim wps -> (S i < length wps)%nat -> exists ws, stretch wps (Z.of_nat i) (11 / 10) = FOk ws /\ valid dim ws /\ longer dim wps ws
  /\ (forall k, k <> i -> wp ws k = wp wps k) /\ w_duration (wp ws i) = 11 / 10 * w_duration (wp wps i).
Proof.
  intros V L. destruct (stretch_spec dim wps i (11 / 10) V L ltac:(lra)) as (ws & E & V' & EV & K & RS). exists ws. split; [exact E|]. split; [exact V'|]. split; [constructor; [exact EV|intros k; apply RS]|]. split; [exact K|].
  unfold stretch in E. rewrite aget_wp in E by lia. cbn [fbind] in E. injection E as <-. rewrite wp_zset by lia. destruct (Nat.eq_dec i i); [|lia]. cbn. ring.
Qed.

(** * The loop around the knots *)

(** The size of the slope of segment [s]. *)
Definition steep (wps : list waypoint) (j s : nat) : R := Rabs ((angle (wp wps (S s)) j - angle (wp wps s) j) / w_duration (wp wps s)).

Lemma check_knot_spec debug dim wps ws acc tau i : valid dim wps -> (3 <= length wps)%nat -> 0 < tau -> length acc = dim -> valid dim ws -> longer dim wps ws -> (1 <= i)%nat -> (i < n_of wps)%nat ->
  forall k j, (j + k = dim)%nat -> let run := check_knot debug (map (spl wps tau 0) (seq j k)) acc (0 + elapsed wps i) (Z.of_nat i) (Z.of_nat j) ws in
  (run = FOk (ws, true) /\ forall h, (j <= h < dim)%nat -> Rabs (knot wps tau h i) <= nth h acc 0)
  \/ exists h e ws', (j <= h < dim)%nat /\ (forall g, (j <= g < h)%nat -> Rabs (knot wps tau g i) <= nth g acc 0) /\ nth h acc 0 < Rabs (knot wps tau h i) /\ (e = (i - 1)%nat \/ e = i)
     /\ run = FOk (ws', false) /\ stretch ws (Z.of_nat e) (11 / 10) = FOk ws' /\ steep ws h (i - 1) <= steep ws h e /\ steep ws h i <= steep ws h e.
Proof.
  intros V L3 T LA V' LG I1 I2. induction k as [|k IH]; intros j E run; unfold run; clear run; cbn [seq map check_knot]. { left. split; [reflexivity|]. intros h H. lia. }
  destruct (joint_curve debug dim wps tau 0 j V L3 T) as (EV & _ & _ & KN & _). assert (EB : 0 <= elapsed wps i <= total (durations wps)).
  { rewrite <- elapsed_n. split; apply Rlt_le; [rewrite <- (elapsed_0 wps)|]; apply (elapsed_mono dim); auto; lia. }
  destruct (EV (0 + elapsed wps i) ltac:(lra)) as (_ & _ & ->). cbn [fbind]. destruct (KN i ltac:(lia)) as (_ & ->). rewrite rget_nth by lia. cbn [fbind].
  destruct (Rlt_dec (nth j acc 0) (Rabs (knot wps tau j i))) as [Q|Q].
  - right. assert (LL : length ws = length wps) by (apply (longer_len dim); exact LG). unfold n_of in I2.
    replace (Z.of_nat i - 1)%Z with (Z.of_nat (i - 1)) by lia. replace (Z.of_nat i + 1)%Z with (Z.of_nat (S i)) by lia. rewrite !aget_wp by lia. cbn [fbind].
    pose proof (fun n H => proj1 (wp_at dim ws n (v_ok _ _ V') H)) as WL. rewrite !rget_nth by (rewrite WL by lia; lia). cbn [fbind]. pose proof (v_dur _ _ V' (i - 1)%nat ltac:(lia)). pose proof (v_dur _ _ V' i ltac:(lia)). rewrite !fdiv_ok by lra. cbn [fbind].
    change ((nth j (w_angles (wp ws i)) 0 - nth j (w_angles (wp ws (i - 1))) 0)) with (angle (wp ws i) j - angle (wp ws (i - 1)) j). change (nth j (w_angles (wp ws (S i))) 0 - nth j (w_angles (wp ws i)) 0) with (angle (wp ws (S i)) j - angle (wp ws i) j).
    assert (SB : Rabs ((angle (wp ws i) j - angle (wp ws (i - 1)) j) / w_duration (wp ws (i - 1))) = steep ws j (i - 1)) by (unfold steep; replace (S (i - 1)) with i by lia; reflexivity). rewrite SB. fold (steep ws j i).
    exists j. destruct (Rlt_dec (steep ws j i) (steep ws j (i - 1))) as [C|C].
    + destruct (stretch_longer dim ws (i - 1) V' ltac:(lia)) as (w' & ES & _). exists (i - 1)%nat, w'. split; [lia|]. split; [intros; lia|]. split; [exact Q|]. split; [now left|]. rewrite ES. split; [reflexivity|]. split; [reflexivity|]. lra.
    + destruct (stretch_longer dim ws i V' ltac:(lia)) as (w' & ES & _). exists i, w'. split; [lia|]. split; [intros; lia|]. split; [exact Q|]. split; [now right|]. rewrite ES. split; [reflexivity|]. split; [reflexivity|]. lra.
  - replace (Z.of_nat j + 1)%Z with (Z.of_nat (S j)) by lia. destruct (IH (S j) ltac:(lia)) as [(R & H)|(h & e & w' & HB & HG & HV & HE & R & ES & S1 & S2)].
    + left. split; [exact R|]. intros h HB. destruct (Nat.eq_dec h j) as [->|]; [lra|]. apply H. lia.
    + right. exists h, e, w'. split; [lia|]. split; [|auto 8]. intros g G. destruct (Nat.eq_dec g j) as [->|]; [lra|]. apply HG. lia.
Qed.

(** What the waypoints look like when knot [i] is reached. *)
Record midway (dim : nat) (wps ws : list waypoint) (i : nat) : Prop := {
  mw_valid : valid dim ws; mw_longer : longer dim wps ws;
  mw_todo : forall s, (i <= s)%nat -> w_duration (wp ws s) = w_duration (wp wps s);
  mw_last : w_duration (wp ws (i - 1)) <= 11 / 10 * w_duration (wp wps (i - 1)) }.
Definition respects (wps : list waypoint) (tau : R) (acc : list R) (dim i : nat) : Prop := forall h, (h < dim)%nat -> Rabs (knot wps tau h i) <= nth h acc 0.
(** Joint [h] is the first one over its bound at knot [i]. *)
Definition first_over (wps : list waypoint) (tau : R) (acc : list R) (dim i h : nat) : Prop := (h < dim)%nat /\ (forall g, (g < h)%nat -> Rabs (knot wps tau g i) <= nth g acc 0) /\ nth h acc 0 < Rabs (knot wps tau h i).

Lemma check_knots_spec debug dim wps acc tau : valid dim wps -> (3 <= length wps)%nat -> 0 < tau -> length acc = dim -> forall todo i ws ok, (1 <= i)%nat -> (i + todo = n_of wps)%nat -> midway dim wps ws i ->
  exists ws' ok', check_knots debug (map (spl wps tau 0) (seq 0 dim)) acc (map (fun k => 0 + elapsed wps k) (seq i todo)) (Z.of_nat i) ws ok = FOk (ws', ok')
   /\ valid dim ws' /\ longer dim wps ws' /\ longer dim ws ws' /\ (ok' = true -> ok = true /\ ws' = ws /\ forall k, (i <= k < n_of wps)%nat -> respects wps tau acc dim k)
   /\ (ok = true -> ok' = false -> exists k h, (i <= k < n_of wps)%nat /\ first_over wps tau acc dim k h)
   /\ (forall k h, (i <= k < n_of wps)%nat -> first_over wps tau acc dim k h -> exists e, (e = (k - 1)%nat \/ e = k) /\ 11 / 10 * w_duration (wp wps e) <= w_duration (wp ws' e)
         /\ steep wps h (k - 1) <= 11 / 10 * steep wps h e /\ steep wps h k <= 11 / 10 * steep wps h e).
Proof.
  intros V L3 T LA. induction todo as [|todo IH]; intros i ws ok I1 E MW; cbn [seq map check_knots].
  { exists ws, ok. split; [reflexivity|]. destruct MW as [MV ML MT MZ]. split; [exact MV|]. split; [exact ML|]. split; [apply longer_refl|]. split; [intros ->; split; [reflexivity|]; split; [reflexivity|]; intros; lia|]. split; [intros -> ?; discriminate|]. intros k h K. lia. }
  destruct MW as [MV ML MT MZ]. destruct (check_knot_spec debug dim wps ws acc tau i V L3 T LA MV ML I1 ltac:(lia) dim 0%nat eq_refl) as [(R & H)|(h & e & w1 & HB & HG & HV & HE & R & ES & S1 & S2)]; change (Z.of_nat 0) with 0%Z in R.
  - rewrite R. cbn [fbind fst snd]. replace (Z.of_nat i + 1)%Z with (Z.of_nat (S i)) by lia. rewrite Bool.andb_true_r.
    destruct (IH (S i) ws ok ltac:(lia) ltac:(lia)) as (w2 & ok2 & R2 & V2 & L2 & L2' & OK2 & NO2 & P2).
    { constructor; auto. - intros s S0. apply MT. lia. - replace (S i - 1)%nat with i by lia. rewrite MT by lia. pose proof (v_dur _ _ V i ltac:(unfold n_of in E; lia)). lra. }
    exists w2, ok2. split; [exact R2|]. split; [exact V2|]. split; [exact L2|]. split; [exact L2'|]. split; [|split].
    + intros O. destruct (OK2 O) as (O1 & -> & O2). split; [exact O1|]. split; [reflexivity|]. intros k K. destruct (Nat.eq_dec k i) as [->|]; [intros h' H'; apply H; lia|]. apply O2. lia.
    + intros O N. destruct (NO2 O N) as (k & h & K & F). exists k, h. split; [lia|exact F].
    + intros k h K F. destruct (Nat.eq_dec k i) as [->|]; [|apply P2; [lia|exact F]]. destruct F as (F1 & _ & F3). specialize (H h ltac:(lia)). lra.
  - rewrite R. cbn [fbind fst snd]. replace (Z.of_nat i + 1)%Z with (Z.of_nat (S i)) by lia. rewrite Bool.andb_false_r. assert (LL : length ws = length wps) by (apply (longer_len dim); exact ML).
    destruct (stretch_longer dim ws e MV ltac:(unfold n_of in E; lia)) as (w1' & ES' & V1 & L1 & K1 & D1). rewrite ES in ES'. injection ES' as <-.
    destruct (IH (S i) w1 false ltac:(lia) ltac:(lia)) as (w2 & ok2 & R2 & V2 & L2 & L2' & OK2 & NO2 & P2).
    { constructor; auto.
      - eapply longer_trans; eauto.
      - intros s S0. rewrite K1 by lia. apply MT. lia.
      - replace (S i - 1)%nat with i by lia. pose proof (v_dur _ _ V i ltac:(unfold n_of in E; lia)). destruct HE as [->| ->]; [rewrite K1 by lia; rewrite MT by lia; lra|]. rewrite D1, MT by lia. lra. }
    exists w2, ok2. split; [exact R2|]. split; [exact V2|]. split; [exact L2|]. split; [eapply longer_trans; eauto|]. split; [|split].
    + intros O. destruct (OK2 O) as (O1 & _). discriminate.
    + intros _ _. exists i, h. split; [lia|]. split; [lia|]. split; [|exact HV]. intros g G. apply HG. lia.
    + intros k h' K F. destruct (Nat.eq_dec k i) as [->|]; [|apply P2; [lia|exact F]].
      assert (h' = h) as ->. { destruct F as (F1 & F2 & F3). destruct (Nat.lt_total h' h) as [Q|[Q|Q]]; [specialize (HG h' ltac:(lia)); lra|exact Q|specialize (F2 h Q); lra]. }
      exists e. split; [exact HE|]. pose proof (longer_dur dim w1 w2 e L2') as DE. pose proof (longer_dur dim wps ws e ML) as DE0. split; [lra|].
      assert (DP : forall s, (s < n_of wps)%nat -> 0 < w_duration (wp wps s)) by (intros s S0; apply (v_dur _ _ V); unfold n_of in S0; lia).
      assert (SW : forall s, (s < n_of wps)%nat -> steep ws h s = Rabs (angle (wp wps (S s)) h - angle (wp wps s) h) / w_duration (wp ws s)).
      { intros s S0. unfold steep. rewrite !(longer_angle dim wps ws _ _ ML). unfold Rdiv. rewrite Rabs_mult, (Rabs_right (/ _)); [reflexivity|]. pose proof (longer_dur dim wps ws s ML). pose proof (DP s S0). apply Rle_ge, Rlt_le, Rinv_0_lt_compat. lra. }
      assert (SO : forall s, (s < n_of wps)%nat -> steep wps h s = Rabs (angle (wp wps (S s)) h - angle (wp wps s) h) / w_duration (wp wps s)).
      { intros s S0. unfold steep. unfold Rdiv. rewrite Rabs_mult, (Rabs_right (/ _)); [reflexivity|]. pose proof (DP s S0). apply Rle_ge, Rlt_le, Rinv_0_lt_compat. lra. }
      assert (UP : steep ws h e <= steep wps h e).
      { rewrite SW, SO by lia. apply Rmult_le_compat_l; [apply Rabs_pos|]. apply Rinv_le_contravar; [apply DP; lia|exact DE0]. }
      assert (DN : forall s, (s < n_of wps)%nat -> w_duration (wp ws s) <= 11 / 10 * w_duration (wp wps s) -> steep wps h s <= 11 / 10 * steep ws h s).
      { intros s S0 Q. rewrite SW, SO by lia. pose proof (DP s S0) as P. pose proof (longer_dur dim wps ws s ML) as P2'. set (a := Rabs _). assert (0 <= a) by apply Rabs_pos. unfold Rdiv.
        apply Rmult_le_reg_r with (w_duration (wp wps s) * w_duration (wp ws s)); [nra|]. replace (a * / w_duration (wp wps s) * (w_duration (wp wps s) * w_duration (wp ws s))) with (a * w_duration (wp ws s)) by (field; lra).
        replace (11 * / 10 * (a * / w_duration (wp ws s)) * (w_duration (wp wps s) * w_duration (wp ws s))) with (a * (11 / 10 * w_duration (wp wps s))) by (field; lra). apply Rmult_le_compat_l; assumption. }
      pose proof (DN (i - 1)%nat ltac:(lia) MZ) as Q1. pose proof (DP i ltac:(lia)) as DI. pose proof (DN i ltac:(lia) ltac:(rewrite MT by lia; lra)) as Q2. split; lra.
Qed.

Lemma inner_times dim wps : valid dim wps -> (3 <= length wps)%nat -> removelast (tl (t_times wps 0)) = map (fun k => 0 + elapsed wps k) (seq 1 (n_of wps - 1)).
Proof.
  intros V L3. destruct (times_facts dim wps 0 V) as (L & INC & NT & _). assert (N1 : (1 <= n_of wps)%nat) by (unfold n_of; lia).
  assert (LB : length (removelast (tl (t_times wps 0))) = (n_of wps - 1)%nat) by (apply (breaks_len (t_times wps 0) (n_of wps) L N1 INC)).
  apply nth_ext with (d := 0) (d' := 0 + elapsed wps 0); [rewrite LB, map_length, seq_length; reflexivity|]. rewrite LB. intros i I. rewrite (map_nth (fun k => 0 + elapsed wps k)), seq_nth by exact I. fold (breaks (t_times wps 0)).
  rewrite (breaks_nth (t_times wps 0) (n_of wps) L N1 INC) by exact I. rewrite NT by lia. reflexivity.
Qed.

(** One round: either every knot respects its bounds and nothing changes, or some segment that is steep enough grows by a
    tenth. *)
Definition all_respect (wps : list waypoint) (tau : R) (acc : list R) (dim : nat) : Prop := forall k, (1 <= k < n_of wps)%nat -> respects wps tau acc dim k.
Lemma least_over wps tau acc dim : (exists k h, (1 <= k < n_of wps)%nat /\ first_over wps tau acc dim k h) ->
  exists h, (h < dim)%nat /\ (exists k, (1 <= k < n_of wps)%nat /\ nth h acc 0 < Rabs (knot wps tau h k)) /\ forall g k, (g < h)%nat -> (1 <= k < n_of wps)%nat -> Rabs (knot wps tau g k) <= nth g acc 0.
Proof.
  intros (k & h & K & F). revert k K F. induction h as [h IH] using lt_wf_ind. intros k K F.
  destruct (Classical_Prop.classic (exists g k', (g < h)%nat /\ (1 <= k' < n_of wps)%nat /\ nth g acc 0 < Rabs (knot wps tau g k'))) as [(g & k' & G & K' & Q)|N].
  - assert (FO : exists g', (g' <= g)%nat /\ first_over wps tau acc dim k' g').
    { assert (GD : (g < dim)%nat) by (destruct F; lia). clear - Q GD. induction g as [g IHg] using lt_wf_ind. destruct (Classical_Prop.classic (exists f, (f < g)%nat /\ nth f acc 0 < Rabs (knot wps tau f k'))) as [(f & Fl & Fq)|N].
      - destruct (IHg f Fl Fq ltac:(lia)) as (g' & A & B). exists g'. split; [lia|exact B].
      - exists g. split; [lia|]. split; [exact GD|]. split; [|exact Q]. intros f Fl. destruct (Rle_lt_dec (Rabs (knot wps tau f k')) (nth f acc 0)) as [|Z]; [assumption|]. exfalso. apply N. eauto. }
    destruct FO as (g' & GL & FG). apply (IH g' ltac:(lia) k' K' FG).
  - exists h. split; [apply F|]. split; [exists k; split; [exact K|apply F]|]. intros g k' G K'. destruct (Rle_lt_dec (Rabs (knot wps tau g k')) (nth g acc 0)) as [|Z]; [assumption|]. exfalso. apply N. eauto.
Qed.
Lemma knots_round debug dim wps acc tau fuel : valid dim wps -> (3 <= length wps)%nat -> 0 < tau -> length acc = dim -> (1 <= dim)%nat ->
  (all_respect wps tau acc dim /\ knots_loop debug (S fuel) acc tau wps = FOk (Some wps))
  \/ exists ws, knots_loop debug (S fuel) acc tau wps = knots_loop debug fuel acc tau ws /\ valid dim ws /\ longer dim wps ws /\ ~ all_respect wps tau acc dim
      /\ exists e h, (e < n_of wps)%nat /\ (h < dim)%nat /\ 11 / 10 * w_duration (wp wps e) <= w_duration (wp ws e)
         /\ forall d, 0 < d -> (forall i, (i < n_of wps)%nat -> d <= w_duration (wp wps i)) -> lang (tau * d / 2) * nth h acc 0 <= 11 / 10 * tau * steep wps h e.
Proof.
  intros V L3 T LA D1. cbn [knots_loop]. rewrite LA. rewrite generate_spec_t by assumption. cbn [fbind]. destruct dim as [|dim']; [lia|]. cbn [seq map]. change (aget (spl wps tau 0 0 :: map (spl wps tau 0) (seq 1 dim')) 0) with (FOk (spl wps tau 0 0)). cbn [fbind]. cbv zeta. change (ts_domain (spl wps tau 0 0)) with (t_times wps 0).
  change (spl wps tau 0 0 :: map (spl wps tau 0) (seq 1 dim')) with (map (spl wps tau 0) (seq 0 (S dim'))). rewrite (inner_times (S dim') wps V L3).
  destruct (check_knots_spec debug (S dim') wps acc tau V L3 T LA (n_of wps - 1) 1 wps true ltac:(lia) ltac:(unfold n_of; lia)) as (ws & ok & R & V' & LG & _ & OK & NO & PR).
  { constructor; auto; [apply longer_refl|]. pose proof (v_dur _ _ V 0%nat ltac:(lia)). cbn [Nat.sub]. lra. }
  change (Z.of_nat 1) with 1%Z in R. rewrite R. cbn [fbind fst snd]. destruct ok.
  - left. destruct (OK eq_refl) as (_ & -> & H). split; [exact H|reflexivity].
  - right. exists ws. split; [reflexivity|]. split; [exact V'|]. split; [exact LG|]. destruct (least_over wps tau acc (S dim') (NO eq_refl eq_refl)) as (h & HD & (k & K & OV) & LE). split; [intros AR; specialize (AR k K h HD); lra|].
    destruct (times_facts (S dim') wps 0 V) as (LT & INC & NT & HH & _). assert (LC : length (col wps h) = S (n_of wps)) by (rewrite col_len; unfold n_of; lia). assert (N2 : (2 <= n_of wps)%nat) by (unfold n_of; lia).
    destruct (z_largest (t_times wps 0) (col wps h) tau (n_of wps) LT LC N2 INC T) as (m & M & MX & B). fold (knot wps tau h m) in MX, B.
    assert (FO : first_over wps tau acc (S dim') m h).
    { split; [exact HD|]. split; [intros g G; apply LE; [exact G|lia]|]. specialize (MX k). fold (knot wps tau h k) in MX. lra. }
    destruct (PR m h ltac:(lia) FO) as (e & HE & GE & S1 & S2). exists e, h. split; [lia|]. split; [exact HD|]. split; [exact GE|]. intros d DP DL.
    specialize (B d DP). assert (SL : forall s, (s < n_of wps)%nat -> Rabs (slope (t_times wps 0) (col wps h) s) = steep wps h s).
    { intros s S0. unfold slope, steep. fold (hh (t_times wps 0) s). rewrite HH by exact S0. unfold sq. rewrite !col_nth by (unfold n_of in S0; lia). reflexivity. }
    rewrite !SL in B by lia. assert (B' := B ltac:(intros i I; rewrite HH by exact I; now apply DL)). destruct FO as (_ & _ & F3). pose proof (lang_bounds (tau * d / 2) ltac:(nra)) as LB. set (lg := lang (tau * d / 2)) in *. set (z := Rabs (knot wps tau h m)) in *. set (a := nth h acc 0) in *.
    set (s0 := steep wps h (m - 1)) in *. set (s1 := steep wps h m) in *. set (se := steep wps h e) in *. assert (lg * a <= lg * z) by (apply Rmult_le_compat_l; lra). assert (tau * (s0 + s1) <= tau * (11 / 10 * se + 11 / 10 * se)) by (apply Rmult_le_compat_l; lra). lra.
Qed.
