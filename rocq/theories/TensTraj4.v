(** The tension interpolation as a whole. *)
From Verif Require Import RBase PolyModel SplineModel PolyProofs RootsProofs SplineProofs CubicProofs TensionProofs TensCurve SmoothProofs SplineProperties PolyProperties TrajModel TrajProofs LinearProofs TensTraj1 TensTraj2 TensTraj3.
Open Scope R_scope.

(** * The three loops in a row *)

(** What the loops leave: the waypoints after the checks, after the knots, after the start and after the end. *)
Record tension_run (dim : nat) (wps : list waypoint) (acc : list R) (tau : R) (w0 w1 w2 w3 : list waypoint) (k k' : Z) : Prop := {
  tr_init : initialise_loop dim wps = FOk (w0, true);
  tr_v0 : valid dim w0; tr_v1 : valid dim w1; tr_v2 : valid dim w2; tr_v3 : valid dim w3;
  tr_e0 : evolves dim wps w0;
  tr_01 : longer dim w0 w1;
  tr_12 : longer dim (settle_ends w1) w2;
  tr_23 : longer dim w2 w3;
  tr_knots : all_respect w1 tau acc dim;
  tr_grew1 : w1 = w0 \/ ~ all_respect w0 tau acc dim /\ exists e, (e < n_of w0)%nat /\ 11 / 10 * w_duration (wp w0 e) <= w_duration (wp w1 e);
  tr_inner2 : forall i, (1 <= i)%nat -> wp w2 i = wp (settle_ends w1) i;
  tr_grew2 : w2 = settle_ends w1 \/ 11 / 10 * w_duration (wp w1 0) <= w_duration (wp w2 0) /\ exists j, (j < dim)%nat /\ Rabs (nth j acc 0) <= lead_m (settle_ends w1) tau (lead_time (settle_ends w1) 5) j;
  tr_inner3 : forall i, i <> (n_of w2 - 1)%nat -> wp w3 i = wp w2 i;
  tr_grew3 : w3 = w2 \/ 11 / 10 * w_duration (wp w2 (n_of w2 - 1)) <= w_duration (wp w3 (n_of w2 - 1)) /\ exists j, (j < dim)%nat /\ Rabs (nth j acc 0) <= trail_m w2 tau (lead_time w2 k) (trail_time w2 5) j;
  tr_k : (1 <= k <= 5)%Z; tr_k' : (1 <= k' <= 5)%Z;
  tr_lead : forall j, (j < dim)%nat -> lead_m w2 tau (lead_time w2 k) j < Rabs (nth j acc 0);
  tr_trail : forall j, (j < dim)%nat -> trail_m w3 tau (lead_time w2 k) (trail_time w3 k') j < Rabs (nth j acc 0) }.
Definition tr_end (w2 w3 : list waypoint) (k : Z) : R := lead_time w2 k + total (durations w3).
Definition tr_pieces (dim : nat) (tau : R) (w2 w3 : list waypoint) (k k' : Z) (j : nat) : list sfun :=
  [mk_sfun 0 (2 * lead_time w2 k) (PQuintic (lead_q w2 tau (lead_time w2 k) j));
   mk_sfun (2 * lead_time w2 k) (tr_end w2 w3 k - trail_time w3 k') (PTension (spl w3 tau (lead_time w2 k) j));
   mk_sfun (tr_end w2 w3 k - trail_time w3 k') (tr_end w2 w3 k + trail_time w3 k') (PQuintic (trail_q w3 tau (lead_time w2 k) (trail_time w3 k') j))].
Lemma pieces_map {A} leading t0 tf (f : A -> list R) (g : A -> tspline) (h : A -> list R) js :
  tension_pieces leading t0 tf (map f js) (map g js) (map h js) = map (fun j => [mk_sfun 0 leading (PQuintic (f j)); mk_sfun leading t0 (PTension (g j)); mk_sfun t0 tf (PQuintic (h j))]) js.
Proof. induction js as [|j js IH]; [reflexivity|]. cbn [map tension_pieces]. now rewrite IH. Qed.

Lemma acceptable_init dim wps : Forall (wp_ok dim) wps -> acceptable dim wps -> exists w0, initialise_loop dim wps = FOk (w0, true) /\ valid dim w0 /\ evolves dim wps w0.
Proof.
  intros W (L2 & P & A). assert (NE : wps <> []) by (destruct wps; [cbn in L2; lia|discriminate]). destruct (initialise_iff dim wps NE W P) as (ws & b & E & _ & _ & _ & _ & F). destruct b.
  - exists ws. split; [exact E|]. now apply initialised_valid.
  - exfalso. destruct F as [F _]. destruct (F eq_refl) as (i & I & D & AE). destruct (A i I) as [Q|(j & J & Q)]; [lra|]. apply Q. now apply AE.
Qed.
(** The checks: [debug] builds refuse fewer than five waypoints and unacceptable ones. *)
Lemma tension_checks debug dim wps acc tau fuel : (1 <= dim)%nat -> length acc = dim -> Forall (wp_ok dim) wps ->
  (debug = true -> ~ (acceptable dim wps /\ (5 <= length wps)%nat) -> tension_interpolate debug fuel wps acc tau = FThrow ConfigurationError)
  /\ (acceptable dim wps -> (debug = true -> (5 <= length wps)%nat) -> exists w0, initialise_loop dim wps = FOk (w0, true) /\ valid dim w0 /\ evolves dim wps w0 /\
       tension_interpolate debug fuel wps acc tau = (
        k <-- knots_loop debug fuel acc tau w0 ;;
        match k with
        | None => FOk None
        | Some ws1 =>
            l <-- leading_loop debug fuel acc tau (settle_ends ws1) ;;
            match l with
            | None => FOk None
            | Some (ws2, leading, lq) =>
                t <-- trailing_loop debug fuel acc tau leading ws2 ;;
                match t with
                | None => FOk None
                | Some (ws3, ss, (t0, tf, tq)) => FOk (Some (tf, tension_pieces leading t0 tf lq ss tq, ws3))
                end
            end
        end)).
Proof.
  intros D1 LA W. split.
  - intros -> NA. unfold tension_interpolate. cbn [andb]. destruct (Z.ltb_spec (Zlen wps) 5) as [L|L]; [reflexivity|]. unfold validate. replace (Zlen wps <? 5)%Z with false by lia.
    assert (L5 : (5 <= length wps)%nat) by (unfold Zlen in L; lia). assert (NE : wps <> []) by (destruct wps; [cbn in L5; lia|discriminate]).
    assert (EV : forall A (k : bool -> fres A), fbind match wps with [] => FUB | _ => FOk (validate_loop wps) end k = k (validate_loop wps)) by (intros A k; destruct wps; [congruence|reflexivity]). rewrite EV.
    pose proof (validate_spec wps) as VS. destruct (validate_loop wps) eqn:EVL; cbn [negb]; [|reflexivity]. assert (P : forall i, (S i < length wps)%nat -> rates_pos (wp wps i)) by now apply VS. rewrite LA.
    destruct (initialise_iff dim wps NE W P) as (ws & b & E & LW & S & _ & T & F). rewrite E. cbn [fbind]. destruct b; cbn [negb]; [|reflexivity]. exfalso. apply NA. split; [|exact L5]. split; [lia|]. split; [exact P|].
    intros i I. destruct (T eq_refl i I) as (Q & [Q1 Q2 Q3]). destruct (Rlt_dec 0 (w_duration (wp wps i))) as [D|D]; [now left|right].
    destruct Q3 as [Q3|(j & J & Q3)]; [lra|]. exists j. split; [exact J|]. intros EQ. rewrite EQ, Rminus_diag_eq, Rabs_R0 in Q3 by reflexivity.
    pose proof (P i I) as PR. unfold rates_pos in PR. rewrite Forall_forall in PR. pose proof (wp_at dim wps i W ltac:(lia)) as (_ & _ & LN). specialize (PR (nominal (wp wps i) j)). assert (0 < nominal (wp wps i) j) by (apply PR; apply nth_In; lia). nra.
  - intros A L5. destruct (acceptable_init dim wps W A) as (w0 & EI & V & EV). exists w0. split; [exact EI|]. split; [exact V|]. split; [exact EV|].
    unfold tension_interpolate. replace (debug && (Zlen wps <? 5)%Z) with false by (destruct debug; [specialize (L5 eq_refl); unfold Zlen; cbn; symmetry; lia|reflexivity]).
    destruct A as (L2 & P & A).
    assert (VD : exists b, validate 5 wps = FOk b /\ debug && negb b = false).
    { unfold validate. destruct (Z.ltb_spec (Zlen wps) 5) as [L|L]; [exists false; split; [reflexivity|]; destruct debug; [specialize (L5 eq_refl); unfold Zlen in L; lia|reflexivity]|].
      exists (validate_loop wps). split; [destruct wps; [cbn in L2; lia|reflexivity]|]. pose proof (validate_spec wps) as VS. apply VS in P. rewrite P. apply andb_false_r. }
    destruct VD as (b & -> & DB). cbn [fbind]. rewrite DB, LA, EI. cbn [fbind negb]. rewrite andb_false_r. reflexivity.
Qed.
Lemma tension_spec debug dim wps acc tau fuel : (1 <= dim)%nat -> length acc = dim -> Forall (wp_ok dim) wps -> 0 < tau -> acceptable dim wps -> (3 <= length wps)%nat -> (debug = true -> (5 <= length wps)%nat) ->
  tension_interpolate debug fuel wps acc tau = FOk None
  \/ exists w0 w1 w2 w3 k k', tension_run dim wps acc tau w0 w1 w2 w3 k k'
     /\ tension_interpolate debug fuel wps acc tau = FOk (Some (tr_end w2 w3 k + trail_time w3 k', map (tr_pieces dim tau w2 w3 k k') (seq 0 dim), w3)).
Proof.
  intros D1 LA W T A L3 L5. destruct (tension_checks debug dim wps acc tau fuel D1 LA W) as [_ H]. destruct (H A L5) as (w0 & EI & V0 & EV & ->).
  assert (L30 : (3 <= length w0)%nat) by (rewrite (e_len _ _ _ EV); exact L3).
  destruct (knots_loop_spec debug dim acc tau T LA D1 fuel w0 V0 L30) as [->|(w1 & -> & V1 & LG1 & AR & G1)]; cbn [fbind]; [now left|].
  destruct (settle_ends_spec dim w1 V1) as (VS & ES & DU & _). set (ws := settle_ends w1) in *. assert (L3s : (3 <= length ws)%nat) by (rewrite (e_len _ _ _ ES), (longer_len _ _ _ LG1); exact L30).
  destruct (leading_loop_spec debug dim acc tau T LA D1 fuel ws VS L3s) as [->|(w2 & k & K & -> & V2 & LG2 & I2 & G2 & P2)]; cbn [fbind]; [now left|].
  assert (L32 : (3 <= length w2)%nat) by (rewrite (longer_len _ _ _ LG2); exact L3s).
  destruct (trailing_loop_spec debug dim acc tau (2 * lead_time w2 k) T LA D1 fuel w2 V2 L32) as [->|(w3 & k' & K' & -> & V3 & LG3 & I3 & G3 & P3)]; cbn [fbind]; [now left|].
  replace (2 * lead_time w2 k / 2) with (lead_time w2 k) in * by lra. right. exists w0, w1, w2, w3, k, k'. split.
  - constructor; auto. rewrite DU in G2. exact G2.
  - rewrite pieces_map. reflexivity.
Qed.

(** More rounds change nothing. *)
Lemma knots_mono debug acc tau : forall f w r, knots_loop debug f acc tau w = FOk (Some r) -> forall f', (f <= f')%nat -> knots_loop debug f' acc tau w = FOk (Some r).
Proof.
  induction f as [|f IH]; intros w r E f' L; cbn [knots_loop] in E; [discriminate|]. destruct f' as [|f']; [lia|]. cbn [knots_loop].
  destruct (generate_tension debug w (length acc) tau 0) as [ss| | |]; cbn [fbind] in *; try discriminate. destruct (aget ss 0) as [s0| | |]; cbn [fbind] in *; try discriminate. destruct (check_knots _ _ _ _ _ _ _) as [c| | |]; cbn [fbind] in *; try discriminate.
  destruct (snd c); [exact E|]. apply IH; [exact E|lia].
Qed.
Lemma leading_mono debug acc tau : forall f w r, leading_loop debug f acc tau w = FOk (Some r) -> forall f', (f <= f')%nat -> leading_loop debug f' acc tau w = FOk (Some r).
Proof.
  induction f as [|f IH]; intros w r E f' L; cbn [leading_loop] in E; [discriminate|]. destruct f' as [|f']; [lia|]. cbn [leading_loop].
  destruct (leading_tries debug w acc tau 5 1) as [[[t qs]|]| | |]; cbn [fbind] in *; try discriminate; [exact E|]. destruct (stretch w 0 (11 / 10)) as [w'| | |]; cbn [fbind] in *; try discriminate. apply IH; [exact E|lia].
Qed.

Lemma tension_finishes debug dim wps acc tau : (1 <= dim)%nat -> length acc = dim -> Forall (wp_ok dim) wps -> 0 < tau -> acceptable dim wps -> (3 <= length wps)%nat -> (debug = true -> (5 <= length wps)%nat) ->
  (forall j, (j < dim)%nat -> 0 < nth j acc 0) -> exists F, forall fuel, (F <= fuel)%nat -> tension_interpolate debug fuel wps acc tau <> FOk None.
Proof.
  intros D1 LA W T A L3 L5 AP. destruct (tension_checks debug dim wps acc tau 0 D1 LA W) as [_ H]. destruct (H A L5) as (w0 & EI & V0 & EV & _).
  assert (L30 : (3 <= length w0)%nat) by (rewrite (e_len _ _ _ EV); exact L3).
  destruct (knots_finishes debug dim acc tau w0 T LA D1 AP V0 L30) as (F1 & H1). destruct (H1 F1 (le_n _)) as (w1 & E1).
  destruct (knots_loop_spec debug dim acc tau T LA D1 F1 w0 V0 L30) as [N|(w1' & E1' & V1 & LG1 & _ & _)]; [congruence|]. assert (w1' = w1) as -> by congruence. clear E1'.
  destruct (settle_ends_spec dim w1 V1) as (VS & ES & DU & _). assert (L3s : (3 <= length (settle_ends w1))%nat) by (rewrite (e_len _ _ _ ES), (longer_len _ _ _ LG1); exact L30).
  destruct (leading_finishes debug dim acc tau (settle_ends w1) T LA D1 AP VS L3s) as (F2 & H2).
  destruct (leading_loop_spec debug dim acc tau T LA D1 F2 (settle_ends w1) VS L3s) as [N|(w2 & k & K & E2 & V2 & LG2 & _ & _ & _)]; [now apply H2 in N|].
  assert (L32 : (3 <= length w2)%nat) by (rewrite (longer_len _ _ _ LG2); exact L3s).
  destruct (trailing_finishes debug dim acc tau (2 * lead_time w2 k) w2 T LA D1 AP V2 L32) as (F3 & H3).
  exists (F1 + F2 + F3)%nat. intros fuel LE. destruct (tension_checks debug dim wps acc tau fuel D1 LA W) as [_ H']. destruct (H' A L5) as (w0' & EI' & _ & _ & ->). rewrite EI in EI'. injection EI' as <-.
  rewrite (knots_mono _ _ _ _ _ _ E1 fuel ltac:(lia)). cbn [fbind]. rewrite (leading_mono _ _ _ _ _ _ E2 fuel ltac:(lia)). cbn [fbind].
  destruct (trailing_loop_spec debug dim acc tau (2 * lead_time w2 k) T LA D1 fuel w2 V2 L32) as [N|(w3 & k' & K' & -> & _)]; [exfalso; apply (H3 fuel); [lia|exact N]|]. cbn [fbind]. discriminate.
Qed.

(** * What a user sees *)

Lemma glue_below a g h g1 x : x < a -> derivable_pt_lim g x (g1 x) -> derivable_pt_lim (glue a g h) x (g1 x).
Proof.
  intros L D e E. destruct (D e E) as (d & H). assert (DP : 0 < Rmin d (a - x)) by (apply Rmin_pos; [apply cond_pos|lra]). exists (mkposreal _ DP). cbn. intros k K B. pose proof (Rmin_l d (a - x)). pose proof (Rmin_r d (a - x)). pose proof (Rle_abs k). rewrite !glue_l by lra. apply H; [exact K|lra].
Qed.
Lemma glue_above a g h h1 x : a < x -> derivable_pt_lim h x (h1 x) -> derivable_pt_lim (glue a g h) x (h1 x).
Proof.
  intros L D e E. destruct (D e E) as (d & H). assert (DP : 0 < Rmin d (x - a)) by (apply Rmin_pos; [apply cond_pos|lra]). exists (mkposreal _ DP). cbn. intros k K B. pose proof (Rmin_l d (x - a)). pose proof (Rmin_r d (x - a)). pose proof (Rle_abs (- k)) as Q. rewrite Rabs_Ropp in Q. rewrite !glue_r by lra. apply H; [exact K|lra].
Qed.

Definition path (L T0 : R) (a b c : R -> R) : R -> R := glue L a (glue T0 b c).
Lemma run_facts dim wps acc tau w0 w1 w2 w3 k k' : tension_run dim wps acc tau w0 w1 w2 w3 k k' -> (3 <= length wps)%nat ->
  evolves dim wps w3 /\ n_of w3 = n_of wps /\ n_of w2 = n_of wps /\ n_of w1 = n_of wps /\ (3 <= length w3)%nat /\ (3 <= length w2)%nat /\ w_duration (wp w3 0) = w_duration (wp w2 0)
  /\ (forall i j, angle (wp w3 i) j = angle (wp wps i) j) /\ (forall i j, angle (wp w2 i) j = angle (wp wps i) j)
  /\ (forall j, (j < dim)%nat -> nth j (w_rates (wp w2 0)) 0 = end_rate (wp wps 0) j /\ nth j (w_rates (wp w3 (n_of wps))) 0 = end_rate (wp wps (n_of wps)) j)
  /\ 0 < 2 * lead_time w2 k <= w_duration (wp w3 0) /\ 0 < trail_time w3 k' <= w_duration (wp w3 (n_of wps - 1)) / 2
  /\ lead_time w2 k + w_duration (wp w3 0) <= tr_end w2 w3 k - w_duration (wp w3 (n_of wps - 1)).
Proof.
  intros R L3. destruct (settle_ends_spec dim w1 (tr_v1 _ _ _ _ _ _ _ _ _ _ R)) as (VS & ES & DU & RT). pose proof (tr_e0 _ _ _ _ _ _ _ _ _ _ R) as E0. pose proof (tr_01 _ _ _ _ _ _ _ _ _ _ R) as E1. pose proof (tr_12 _ _ _ _ _ _ _ _ _ _ R) as E2. pose proof (tr_23 _ _ _ _ _ _ _ _ _ _ R) as E3.
  assert (EV1 : evolves dim wps w1) by (eapply evolves_trans; [exact E0|apply E1]). assert (EV2 : evolves dim wps w2) by (eapply evolves_trans; [eapply evolves_trans; [exact EV1|exact ES]|apply E2]). assert (EV3 : evolves dim wps w3) by (eapply evolves_trans; [exact EV2|apply E3]).
  pose proof (evolves_n _ _ _ EV1) as N1. pose proof (evolves_n _ _ _ EV2) as N2. pose proof (evolves_n _ _ _ EV3) as N3. assert (NN : (2 <= n_of wps)%nat) by (unfold n_of; lia).
  assert (W0 : wp w3 0 = wp w2 0) by (apply (tr_inner3 _ _ _ _ _ _ _ _ _ _ R); lia).
  pose proof (dur0_le dim w3 (tr_v3 _ _ _ _ _ _ _ _ _ _ R)) as D0. pose proof (durn_le dim w3 (tr_v3 _ _ _ _ _ _ _ _ _ _ R)) as DN. rewrite N3 in DN.
  assert (KR : forall q, (1 <= q <= 5)%Z -> 1 <= IZR q <= 5) by (intros q Q; apply i_range; lia). pose proof (KR k (tr_k _ _ _ _ _ _ _ _ _ _ R)). pose proof (KR k' (tr_k' _ _ _ _ _ _ _ _ _ _ R)).
  split; [exact EV3|]. split; [exact N3|]. split; [exact N2|]. split; [exact N1|]. split; [rewrite (e_len _ _ _ EV3); exact L3|]. split; [rewrite (e_len _ _ _ EV2); exact L3|]. split; [now rewrite W0|].
  split; [intros i j; unfold angle; now rewrite (e_angles _ _ _ EV3)|]. split; [intros i j; unfold angle; now rewrite (e_angles _ _ _ EV2)|].
  split; [|split; [|split]].
  - intros j J. destruct (RT j J) as [RA RB]. rewrite N1 in RB. split.
    + rewrite (lg_rates _ _ _ E2), RA. apply (e_rates _ _ _ EV1); lia.
    + rewrite (lg_rates _ _ _ E3), (lg_rates _ _ _ E2), RB. apply (e_rates _ _ _ EV1); lia.
  - unfold lead_time. rewrite <- W0. nra.
  - unfold trail_time. rewrite N3. nra.
  - unfold tr_end. rewrite <- (elapsed_n w3), N3. assert (EQ : elapsed w3 (n_of wps) = elapsed w3 (n_of wps - 1) + w_duration (wp w3 (n_of wps - 1))) by (rewrite <- elapsed_succ by (rewrite N3; lia); f_equal; lia). rewrite EQ.
    assert (LE : elapsed w3 1 <= elapsed w3 (n_of wps - 1)). { destruct (Nat.eq_dec (n_of wps - 1) 1) as [->|NE]; [lra|]. apply Rlt_le, (elapsed_mono dim); [apply (tr_v3 _ _ _ _ _ _ _ _ _ _ R)|lia|lia]. }
    rewrite elapsed_succ, elapsed_0 in LE by lia. lra.
Qed.

Lemma run_observed dim wps acc tau w0 w1 w2 w3 k k' j : tension_run dim wps acc tau w0 w1 w2 w3 k k' -> (3 <= length wps)%nat -> 0 < tau -> (j < dim)%nat ->
  let t := lead_time w2 k in let L := 2 * t in let T0 := tr_end w2 w3 k - trail_time w3 k' in let T := tr_end w2 w3 k + trail_time w3 k' in
  let lq := lead_q w2 tau t j in let tq := trail_q w3 tau t (trail_time w3 k') j in
  observed (map (tr_pieces dim tau w2 w3 k k') (seq 0 dim)) j T (path L T0 (eval lq) (pos w3 tau t j) (eval tq)) (path L T0 (deriv_at lq) (vel w3 tau t j) (deriv_at tq)) (path L T0 (dderiv_at lq) (accel w3 tau t j) (dderiv_at tq)).
Proof.
  intros R L3 TP J. cbv zeta. destruct (run_facts _ _ _ _ _ _ _ _ _ _ R L3) as (_ & _ & _ & _ & L33 & _ & _ & _ & _ & _ & LB & TB & MID).
  set (t := lead_time w2 k) in *. set (T0 := tr_end w2 w3 k - trail_time w3 k') in *. set (T := tr_end w2 w3 k + trail_time w3 k') in *.
  assert (LT0 : 2 * t < T0) by (unfold T0; lra). assert (T0T : T0 < T) by (unfold T0, T; lra).
  intros debug x B. destruct (joint_curve debug dim w3 tau t j (tr_v3 _ _ _ _ _ _ _ _ _ _ R) L33 TP) as (EV & _). specialize (EV x).
  assert (IN : 2 * t < x -> x <= T0 -> t <= x <= t + total (durations w3)) by (intros Q1 Q2; unfold T0, tr_end in Q2; fold t in Q2; lra).
  unfold traj_joint, aget, zget. replace (Z.of_nat j <? 0)%Z with false by lia. rewrite Nat2Z.id, nth_error_map. rewrite nth_error_nth' with (d := 0%nat) by (rewrite seq_length; exact J). rewrite seq_nth by exact J. cbn [option_map fbind Nat.add].
  unfold traj_at, tr_pieces. fold t T0 T. cbn [last first_function s_end]. destruct (Rle_dec 0 x) as [|]; [|lra]. destruct (Rle_dec x (T + / 10000)) as [|]; [|lra]. cbn [negb andb]. rewrite andb_false_r. unfold path, glue.
  destruct (Rle_dec x (2 * t)) as [X1|X1]; [|destruct (Rle_dec x T0) as [X2|X2]; [|destruct (Rle_dec x T) as [X3|X3]; [|lra]]].
  - unfold sfun_at. cbn [s_begin s_end s_piece piece_eval piece_deriv piece_dderiv]. destruct (Rle_dec 0 x); [|lra]. destruct (Rle_dec x (2 * t)); [|lra]. cbn [negb andb]. rewrite andb_false_r. auto.
  - unfold sfun_at. cbn [s_begin s_end s_piece piece_eval piece_deriv piece_dderiv]. destruct (Rle_dec (2 * t) x); [|lra]. destruct (Rle_dec x T0); [|lra]. cbn [negb andb]. rewrite andb_false_r. apply EV. apply IN; lra.
  - unfold sfun_at. cbn [s_begin s_end s_piece piece_eval piece_deriv piece_dderiv]. destruct (Rle_dec T0 x); [|lra]. destruct (Rle_dec x T); [|lra]. cbn [negb andb]. rewrite andb_false_r. auto.
Qed.
(** The two quintics. *)
Lemma run_ends dim wps acc tau w0 w1 w2 w3 k k' j : tension_run dim wps acc tau w0 w1 w2 w3 k k' -> (3 <= length wps)%nat -> 0 < tau -> (j < dim)%nat ->
  let t := lead_time w2 k in let L := 2 * t in let T0 := tr_end w2 w3 k - trail_time w3 k' in let T := tr_end w2 w3 k + trail_time w3 k' in
  let lq := lead_q w2 tau t j in let tq := trail_q w3 tau t (trail_time w3 k') j in
  (eval lq 0 = angle (wp wps 0) j /\ deriv_at lq 0 = end_rate (wp wps 0) j /\ dderiv_at lq 0 = 0 /\ eval lq L = pos w2 tau t j L /\ deriv_at lq L = vel w2 tau t j L /\ dderiv_at lq L = 0
   /\ (forall x, derivable_pt_lim (eval lq) x (deriv_at lq x) /\ derivable_pt_lim (deriv_at lq) x (dderiv_at lq x)) /\ forall x, 0 <= x <= L -> Rabs (dderiv_at lq x) < Rabs (nth j acc 0))
  /\ (eval tq T0 = pos w3 tau t j T0 /\ deriv_at tq T0 = vel w3 tau t j T0 /\ dderiv_at tq T0 = 0 /\ eval tq T = angle (wp wps (n_of wps)) j /\ deriv_at tq T = end_rate (wp wps (n_of wps)) j /\ dderiv_at tq T = 0
   /\ (forall x, derivable_pt_lim (eval tq) x (deriv_at tq x) /\ derivable_pt_lim (deriv_at tq) x (dderiv_at tq x)) /\ forall x, T0 <= x <= T -> Rabs (dderiv_at tq x) < Rabs (nth j acc 0)).
Proof.
  intros R L3 TP J. cbv zeta. destruct (run_facts _ _ _ _ _ _ _ _ _ _ R L3) as (_ & N3 & _ & _ & L33 & _ & _ & A3 & A2 & RT & LB & TB & MID). destruct (RT j J) as [R1 R2].
  pose proof (tr_lead _ _ _ _ _ _ _ _ _ _ R j J) as PL. pose proof (tr_trail _ _ _ _ _ _ _ _ _ _ R j J) as PT. unfold lead_m in PL. unfold trail_m in PT. cbv zeta in PT. fold (tr_end w2 w3 k) in PT. unfold lead_q, trail_q. cbv zeta. fold (tr_end w2 w3 k).
  set (t := lead_time w2 k) in *. split.
  - rewrite R1, A2 in *. destruct (quint_spec 0 (angle (wp wps 0) j) (end_rate (wp wps 0) j) (2 * t) (pos w2 tau t j (2 * t)) (vel w2 tau t j (2 * t)) ltac:(lra)) as (_ & Q1 & Q2 & Q3 & Q4 & Q5 & Q6 & Q7 & Q8 & _).
    split; [exact Q1|]. split; [exact Q3|]. split; [exact Q5|]. split; [exact Q2|]. split; [exact Q4|]. split; [exact Q6|]. split; [intros x; split; apply Q7|]. intros x B. specialize (Q8 x B). lra.
  - rewrite N3, R2, A3 in *. set (T0 := tr_end w2 w3 k - trail_time w3 k') in *. set (T := tr_end w2 w3 k + trail_time w3 k') in *.
    destruct (quint_spec T0 (pos w3 tau t j T0) (vel w3 tau t j T0) T (angle (wp wps (n_of wps)) j) (end_rate (wp wps (n_of wps)) j) ltac:(unfold T0, T; lra)) as (_ & Q1 & Q2 & Q3 & Q4 & Q5 & Q6 & Q7 & Q8 & _).
    split; [exact Q1|]. split; [exact Q3|]. split; [exact Q5|]. split; [exact Q2|]. split; [exact Q4|]. split; [exact Q6|]. split; [intros x; split; apply Q7|]. intros x B. specialize (Q8 x B). lra.
Qed.

(** Everything C167 says of one joint. *)
Definition shape (dim : nat) (wps ws : list waypoint) (acc : list R) (j : nat) (L T0 T : R) (p v a : R -> R) : Prop :=
  p 0 = angle (wp wps 0) j /\ p T = angle (wp wps (length wps - 1)) j
  /\ v 0 = end_rate (wp wps 0) j /\ v T = end_rate (wp wps (length wps - 1)) j
  /\ a 0 = 0 /\ a T = 0
  /\ (forall i, (0 < i)%nat -> (i < length wps - 1)%nat -> p (L / 2 + total (firstn i (map w_duration ws))) = angle (wp wps i) j)
  /\ (forall t, t <> L -> derivable_pt_lim p t (v t))
  /\ (forall t, t <> L -> t <> T0 -> derivable_pt_lim v t (a t))
  /\ (forall t, 0 <= t <= L \/ T0 < t <= T -> Rabs (a t) < Rabs (nth j acc 0)).
Lemma firstn_removelast {A} i (l : list A) : (i < length l)%nat -> firstn i (removelast l) = firstn i l.
Proof. revert l. induction i as [|i IH]; intros l L; [reflexivity|]. destruct l as [|x [|y l]]; cbn in L; try lia. change (removelast (x :: y :: l)) with (x :: removelast (y :: l)). cbn [firstn]. f_equal. apply IH. cbn. lia. Qed.
Lemma run_shape dim wps acc tau w0 w1 w2 w3 k k' j : tension_run dim wps acc tau w0 w1 w2 w3 k k' -> (3 <= length wps)%nat -> 0 < tau -> (j < dim)%nat ->
  let t := lead_time w2 k in let L := 2 * t in let T0 := tr_end w2 w3 k - trail_time w3 k' in let T := tr_end w2 w3 k + trail_time w3 k' in
  let lq := lead_q w2 tau t j in let tq := trail_q w3 tau t (trail_time w3 k') j in
  shape dim wps w3 acc j L T0 T (path L T0 (eval lq) (pos w3 tau t j) (eval tq)) (path L T0 (deriv_at lq) (vel w3 tau t j) (deriv_at tq)) (path L T0 (dderiv_at lq) (accel w3 tau t j) (dderiv_at tq)).
Proof.
  intros R L3 TP J. cbv zeta. destruct (run_ends _ _ _ _ _ _ _ _ _ _ _ R L3 TP J) as ((A1 & A2 & A3 & A4 & A5 & A6 & A7 & A8) & (B1 & B2 & B3 & B4 & B5 & B6 & B7 & B8)). cbv zeta in *.
  destruct (run_facts _ _ _ _ _ _ _ _ _ _ R L3) as (EV & N3 & _ & _ & L33 & _ & _ & AN & _ & _ & LB & TB & MID).
  destruct (joint_curve false dim w3 tau (lead_time w2 k) j (tr_v3 _ _ _ _ _ _ _ _ _ _ R) L33 TP) as (_ & SM & _ & KN & _).
  set (t := lead_time w2 k) in *. set (T0 := tr_end w2 w3 k - trail_time w3 k') in *. set (T := tr_end w2 w3 k + trail_time w3 k') in *. assert (LT0 : 2 * t < T0) by (unfold T0; lra). assert (T0T : T0 < T) by (unfold T0, T; lra).
  change (length wps - 1)%nat with (n_of wps). unfold shape, path. change (length wps - 1)%nat with (n_of wps).
  assert (GT : forall f g h, glue (2 * t) f (glue T0 g h) T = h T) by (intros; rewrite !glue_r by lra; reflexivity).
  rewrite !GT, !glue_l by lra. do 6 (split; [assumption|]). split; [|split; [|split]].
  - intros i I1 I2. assert (LW : length w3 = S (n_of wps)) by (unfold n_of in N3; unfold n_of; lia). assert (EL : total (firstn i (map w_duration w3)) = elapsed w3 i).
    { unfold elapsed, durations. rewrite !firstn_map. now rewrite firstn_removelast by lia. }
    rewrite EL. replace (2 * t / 2) with t by lra.
    assert (W1 : elapsed w3 1 <= elapsed w3 i). { destruct (Nat.eq_dec i 1) as [->|NE]; [lra|]. apply Rlt_le, (elapsed_mono dim); [apply (tr_v3 _ _ _ _ _ _ _ _ _ _ R)|lia|lia]. } rewrite elapsed_succ, elapsed_0 in W1 by lia.
    assert (W2 : elapsed w3 i <= elapsed w3 (n_of wps - 1)). { destruct (Nat.eq_dec i (n_of wps - 1)) as [->|NE]; [lra|]. apply Rlt_le, (elapsed_mono dim); [apply (tr_v3 _ _ _ _ _ _ _ _ _ _ R)|lia|lia]. }
    assert (W3 : elapsed w3 (n_of wps - 1) + w_duration (wp w3 (n_of wps - 1)) = total (durations w3)). { rewrite <- elapsed_succ by lia. rewrite <- elapsed_n. f_equal. lia. }
    assert (X1 : 2 * t < t + elapsed w3 i) by lra. assert (X2 : t + elapsed w3 i <= T0) by (unfold T0, tr_end; fold t; lra). rewrite glue_r by lra. rewrite glue_l by lra.
    destruct (KN i ltac:(lia)) as [-> _]. apply AN.
  - intros x NE. destruct (Rlt_dec x (2 * t)) as [X|X].
    + rewrite glue_l by lra. apply glue_below; [lra|]. apply A7.
    + rewrite glue_r by lra. apply (glue_above (2 * t) (eval (lead_q w2 tau t j)) (glue T0 (pos w3 tau t j) (eval (trail_q w3 tau t (trail_time w3 k') j))) (glue T0 (vel w3 tau t j) (deriv_at (trail_q w3 tau t (trail_time w3 k') j)))); [lra|]. apply glue_derive; [apply SM|apply B7|symmetry; exact B1|symmetry; exact B2].
  - intros x NE NE2. destruct (Rlt_dec x (2 * t)) as [X|X].
    + rewrite glue_l by lra. apply glue_below; [lra|]. apply A7.
    + rewrite glue_r by lra. destruct (Rlt_dec x T0) as [Y|Y].
      * rewrite glue_l by lra. apply (glue_above (2 * t)); [lra|]. apply glue_below; [lra|]. apply SM.
      * rewrite glue_r by lra. apply (glue_above (2 * t)); [lra|]. apply glue_above; [lra|]. apply B7.
  - intros x [B|B].
    + rewrite glue_l by lra. apply A8. lra.
    + rewrite !glue_r by lra. apply B8. lra.
Qed.
