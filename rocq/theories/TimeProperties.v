(** Theorems about ecl_time (C27-C32, C67, C68). *)
From Verif Require Import Base Numerals TimeModel TimeProofs.

(** C27: addition is exact and normalised, in both forms and both build modes; never throws. *)
Theorem C27_addition_exact : forall debug a b, norm a -> norm b ->
  (exists c, ts_add debug a b = Ok c /\ norm c /\ val c = val a + val b) /\
  norm (ts_add_assign a b) /\ val (ts_add_assign a b) = val a + val b.
Proof. intros debug a b Ha Hb. split; [exact (ts_add_ok debug a b Ha Hb)|exact (add_raw_ok a b Ha Hb)]. Qed.
Print Assumptions C27_addition_exact.

(** C27: the six comparison operators are the order of exact values. *)
Theorem C27_comparisons_exact : forall a b, norm a -> norm b ->
  (ts_eq a b = true <-> val a = val b) /\ (ts_ne a b = true <-> val a <> val b) /\
  (ts_le a b = true <-> val a <= val b) /\ (ts_ge a b = true <-> val a >= val b) /\
  (ts_lt a b = true <-> val a < val b) /\ (ts_gt a b = true <-> val a > val b).
Proof. exact cmp_ok. Qed.
Print Assumptions C27_comparisons_exact.

Example C27_case : norm (TS (-3) (-700000000)) /\ norm (TS 1 900000000) /\
  ts_add true (TS (-3) (-700000000)) (TS 1 900000000) = Ok (TS (-1) (-800000000)).
Proof. unfold norm; cbn; repeat split; lia || reflexivity. Qed.

(** C28 (partial): exact for all normalised operands; normalised unless the operands have opposite signs. *)
Theorem C28_subtraction_exact_partial : forall debug a b, norm a -> norm b ->
  (exists c, ts_sub debug a b = Ok c /\ val c = val a - val b /\ (same_sign a b -> norm c)) /\
  val (ts_sub_assign a b) = val a - val b /\ (same_sign a b -> norm (ts_sub_assign a b)).
Proof.
  intros debug a b Ha Hb. split; [|split; [exact (sub_raw_val a b)|exact (fun H => proj1 (sub_raw_ok a b Ha Hb H))]].
  destruct (sub_signs debug a b Ha Hb) as (c & Hc & Hv). exists c. split; [exact Hc|]. split; [exact Hv|].
  intros Hs. destruct (ts_sub_ok debug a b Ha Hb Hs) as (c' & Hc' & Hn & _). congruence.
Qed.
Print Assumptions C28_subtraction_exact_partial.

(** C28 (partial): the difference is normalised exactly if the nanoseconds differ by less than a second. *)
Theorem C28_normalised_partial : forall debug a b, norm a -> norm b ->
  exists c, ts_sub debug a b = Ok c /\ (norm c <-> Z.abs (nsec a - nsec b) < 1000000000).
Proof.
  intros debug a b Ha Hb. destruct (sub_signs debug a b Ha Hb) as (c & Hc & _). exists c. split; [exact Hc|].
  assert (c = sub_raw a b) as ->. { unfold ts_sub, mk, assert_throw in Hc. destruct debug; cbn [bind] in Hc; repeat match type of Hc with context [if ?x then _ else _] => destruct x end; try discriminate; injection Hc as <-; now destruct (sub_raw a b). }
  clear Hc. destruct a as [sa na], b as [sb nb]. unfold norm, sub_raw, G in *. cbn [sec nsec] in *.
  destruct ((sa - sb >? 0) && (na - nb <? 0)) eqn:E1; [cbn [sec nsec]; lia|]. destruct ((sa - sb <? 0) && (na - nb >? 0)) eqn:E2; cbn [sec nsec]; lia.
Qed.
Print Assumptions C28_normalised_partial.

(** C28: for operands of opposite sign the nanoseconds of the difference can reach 1.8 s. *)
Theorem C28_difference_normalised_refuted : exists a b, norm a /\ norm b /\ forall debug,
  exists c, ts_sub debug a b = Ok c /\ ~ norm c.
Proof.
  exists (TS 1 900000000), (TS (-1) (-900000000)). unfold norm; cbn [sec nsec]. do 2 (split; [lia|]).
  intros debug. exists (TS 2 1800000000). split; [destruct debug; reflexivity|cbn; lia].
Qed.
Print Assumptions C28_difference_normalised_refuted.

(** ... and such a difference compares wrongly: it is reported smaller than a shorter time. *)
Theorem C28_comparison_after_difference_refuted : exists a b t, norm a /\ norm b /\ norm t /\
  exists c, ts_sub false a b = Ok c /\ val t < val c /\ ts_gt t c = true.
Proof.
  exists (TS 1 900000000), (TS (-1) (-900000000)), (TS 3 0). unfold norm; cbn [sec nsec]. do 3 (split; [lia|]).
  eexists. split; [reflexivity|]. split; reflexivity.
Qed.
Print Assumptions C28_comparison_after_difference_refuted.

Example C28_case : norm (TS 5 100) /\ norm (TS 2 700) /\ same_sign (TS 5 100) (TS 2 700) /\
  ts_sub true (TS 5 100) (TS 2 700) = Ok (TS 2 999999400).
Proof. unfold norm, same_sign, val; cbn; repeat split; lia || reflexivity. Qed.

(** C29: every history of a watch (StopWatch after a restart, CpuWatch) under a non-decreasing clock
    reports exact, normalised, non-negative times. *)
Theorem C29_watch_exact : forall debug l w lo,
  Forall reading (map snd l) -> nondec lo (map snd l) -> reading (w_start w) -> reading (w_split w) ->
  val (w_start w) <= lo -> val (w_split w) <= lo ->
  exists w' outs, wrun debug w l = Ok (w', outs) /\
    map wrep outs = wspec (val (w_start w)) (val (w_split w)) (wvals l) /\ Forall good_out outs.
Proof. exact wrun_spec. Qed.
Print Assumptions C29_watch_exact.

(** C29: the splits since a restart add up to the time from the restart to the last split. *)
Theorem C29_splits_add_up : forall debug w r l, Forall reading (r :: map snd l) -> nondec (val r) (map snd l) ->
  ~ In WRestart (map fst l) ->
  exists w' outs, wrun debug w ((WRestart, r) :: l) = Ok (w', None :: outs) /\
    split_sum (map fst l) outs = last_split (val r) l - val r /\ Forall good_out outs.
Proof. exact splits_sum. Qed.
Print Assumptions C29_splits_add_up.

(** C29: the same from the construction of a CpuWatch. *)
Theorem C29_cpuwatch_from_construction : forall debug r l, Forall reading (r :: map snd l) -> nondec (val r) (map snd l) ->
  ~ In WRestart (map fst l) ->
  exists w' outs, wrun debug (cpuwatch_new r) l = Ok (w', outs) /\
    split_sum (map fst l) outs = last_split (val r) l - val r.
Proof.
  intros debug r l HF Hnd Hn. apply Forall_cons_iff in HF as [Hr HF].
  destruct (wrun_spec debug l (cpuwatch_new r) (val r)) as (w' & outs & H & Hm & _); cbn [cpuwatch_new w_start w_split]; auto; try lia.
  exists w', outs. split; [exact H|]. eapply split_sum_spec; eauto.
Qed.
Print Assumptions C29_cpuwatch_from_construction.

Example C29_case : wrun true (cpuwatch_new (TS 7 999999999))
   [(WSplit, TS 8 5); (WElapsed, TS 9 0); (WSplit, TS 10 4); (WElapsed, TS 10 4)] =
  Ok (Watch (TS 7 999999999) (TS 10 4), [Some (TS 0 6); Some (TS 1 1); Some (TS 1 999999999); Some (TS 2 5)]).
Proof. reflexivity. Qed.

(** C67: a StopWatch that has not been restarted is off by the gap between its two constructor readings. *)
Theorem C67_stopwatch_splits_from_construction_partial : forall debug r0 r1 l,
  Forall reading (r0 :: r1 :: map snd l) -> nondec (val r0) (r1 :: map snd l) -> ~ In WRestart (map fst l) ->
  exists w' outs, wrun debug (stopwatch_new r0 r1) l = Ok (w', outs) /\
    split_sum (map fst l) outs = last_split (val r1) l - val r0 - (val r1 - val r0).
Proof.
  intros debug r0 r1 l HF Hnd Hn. apply Forall_cons_iff in HF as [H0 HF]. apply Forall_cons_iff in HF as [H1 HF].
  destruct Hnd as [Hle Hnd].
  destruct (wrun_spec debug l (stopwatch_new r0 r1) (val r1)) as (w' & outs & H & Hm & _); cbn [stopwatch_new w_start w_split]; auto; try lia.
  exists w', outs. split; [exact H|]. cbn [stopwatch_new w_start w_split] in Hm.
  rewrite (split_sum_spec _ _ _ _ Hn Hm). lia.
Qed.
Print Assumptions C67_stopwatch_splits_from_construction_partial.

Theorem C67_stopwatch_construction_refuted : exists r0 r1 r2,
  reading r0 /\ reading r1 /\ reading r2 /\ val r0 <= val r1 <= val r2 /\
  exists w s e, wrun true (stopwatch_new r0 r1) [(WSplit, r2); (WElapsed, r2)] = Ok (w, [Some s; Some e]) /\ val s <> val e.
Proof.
  exists (TS 1 0), (TS 1 200), (TS 2 0). unfold reading, val; cbn [sec nsec]. repeat (split; [lia|]).
  do 3 eexists. split; [reflexivity|]. cbn. lia.
Qed.
Print Assumptions C67_stopwatch_construction_refuted.

(** C30 (partial): a snoozer that keeps up never drifts: the j-th deadline is exactly start + (j+1)*period;
    its nanoseconds never exceed 10^9, and equal 10^9 only if the deadline is a whole second. *)
Theorem C30_no_drift_partial : forall k s clk, sn_ok s -> Forall reading clk ->
  Zlen clk = rpc (sn_validate s) * Z.of_nat k ->
  (forall i r, zget clk i = Some r -> val r < val (sn_time s) + (i / rpc (sn_validate s) + 1) * val (sn_period s)) ->
  exists ds s', snooze_run k s clk = Some (ds, s', []) /\ length ds = k /\
    (forall j d, nth_error ds j = Some d ->
       val d = val (sn_time s) + (Z.of_nat j + 1) * val (sn_period s) /\
       (0 <= nsec d < 1000000000 \/ (nsec d = 1000000000 /\ val d mod 1000000000 = 0))).
Proof.
  intros k s clk H1 H2 H3 H4. destruct (snooze_run_ok k s clk H1 H2 H3 H4) as (ds & s' & Hr & Hl & Hd).
  exists ds, s'. split; [exact Hr|]. split; [exact Hl|]. intros j d Hj. destruct (Hd j d Hj) as [Hv Hok].
  split; [exact Hv|]. destruct (Z_lt_dec (nsec d) 1000000000) as [|Hn].
  - left. unfold sn_time_ok in Hok. lia.
  - right. split; [unfold sn_time_ok in Hok; lia|]. apply bad_deadline; [exact Hok|lia].
Qed.
Print Assumptions C30_no_drift_partial.

(** C30: whatever the clock does, a call sleeps to a deadline not before its last clock reading, which is
    either the next period boundary or one period after a reading that had passed that boundary. *)
Theorem C30_rebased_into_future_partial : forall s clk s' clk', sn_ok s -> Forall reading clk -> snooze_call s clk = Some (s', clk') ->
  sn_ok s' /\ sn_period s' = sn_period s /\
  exists pre now, clk = pre ++ now :: clk' /\ val now <= val (sn_time s') /\
   (val (sn_time s') = val (sn_time s) + val (sn_period s) \/
    exists r, In r (pre ++ [now]) /\ val (sn_time s) + val (sn_period s) <= val r /\
      val (sn_time s') = val r + val (sn_period s)).
Proof. exact snooze_call_result. Qed.
Print Assumptions C30_rebased_into_future_partial.

(** C30: a reachable snoozer hands the OS a deadline with tv_nsec = 10^9 (clock_nanosleep rejects it). *)
Theorem C30_valid_deadline_refuted : exists p now clk s' clk', period_ok p /\ reading now /\ Forall reading clk /\
  snooze_call (snooze_new p false now) clk = Some (s', clk') /\ nsec (sn_time s') = 1000000000.
Proof.
  exists (TS 0 10000000), (TS 100 990000000), [TS 100 990000500]. eexists _, _.
  unfold period_ok, reading; cbn [sec nsec]. do 2 (split; [lia|]).
  split; [repeat constructor; cbn; lia|]. split; reflexivity.
Qed.
Print Assumptions C30_valid_deadline_refuted.

(** New snoozers satisfy the hypotheses above. *)
Theorem C30_new_snoozer_ok_partial : forall p v now, period_ok p -> reading now -> sn_ok (snooze_new p v now).
Proof.
  intros p v now Hp Hn. unfold sn_ok, snooze_new, sn_time_ok, G, reading in *. cbn [sn_period sn_wrap sn_time].
  split; [exact Hp|]. split; [reflexivity|lia].
Qed.
Print Assumptions C30_new_snoozer_ok_partial.

Example C30_case : snooze_run 3 (snooze_new (TS 0 400000000) true (TS 5 300000000))
   [TS 5 300000001; TS 5 300000002; TS 5 700000100; TS 5 700000200; TS 6 100000001; TS 6 100000002] =
  Some ([TS 5 700000000; TS 6 100000000; TS 6 500000000],
        Snooze (TS 6 500000000) (TS 0 400000000) 600000000 true, []).
Proof. reflexivity. Qed.

(** C31 (partial): MilliSleep requests exactly what it was given over every history. *)
Theorem C31_millisleep_exact_partial : forall x ops, ulong x -> Forall op_ulong ops ->
  Forall2 (denotes Milli) (sl_run Milli (sl_new Milli x) ops) (sl_spec x ops).
Proof. intros x ops Hx HF. apply milli_run; [apply sl_new_denotes; exact Hx|exact HF]. Qed.
Print Assumptions C31_millisleep_exact_partial.

(** C31: all three classes are exact when only the constructor sets the duration ... *)
Theorem C31_constructed_sleeps_exact_partial : forall k x n, ulong x ->
  Forall2 (denotes k) (sl_run k (sl_new k x) (repeat SlCall n)) (repeat x n).
Proof. intros k x n Hx. apply nocalls_run, sl_new_denotes, Hx. Qed.
Print Assumptions C31_constructed_sleeps_exact_partial.

(** ... or when every duration is below one second. *)
Theorem C31_subsecond_sleeps_exact_partial : forall k x ops, 0 <= x < per_sec k -> Forall (op_subsec k) ops ->
  Forall2 (denotes k) (sl_run k (sl_new k x) ops) (sl_spec x ops).
Proof.
  intros k x ops Hx HF. apply subsec_run; auto.
  - destruct k; cbn in *; apply Z.div_small; lia.
  - apply sl_new_denotes. unfold ulong. destruct k; cbn in Hx; lia.
Qed.
Print Assumptions C31_subsecond_sleeps_exact_partial.

(** Sleep: whole seconds and normalised, non-negative durations are requested exactly, with a valid timespec. *)
Theorem C31_sleep_exact_partial :
  (forall x, 0 <= x -> 0 <= nsec (sleep_req (SSecs x)) < 1000000000 /\ val (sleep_req (SSecs x)) = x * 1000000000) /\
  (forall d, norm d -> 0 <= val d -> 0 <= sec (sleep_req (SDur d)) /\ 0 <= nsec (sleep_req (SDur d)) < 1000000000 /\
     val (sleep_req (SDur d)) = val d).
Proof.
  split; [intros x Hx; cbn; unfold val; cbn; lia|]. intros [s n]. unfold norm, val. cbn. intros (H1 & H2 & H3) H. lia.
Qed.
Print Assumptions C31_sleep_exact_partial.

(** C31: MicroSleep/NanoSleep called with a duration of a second or more make an invalid request, and after
    construction with such a duration a later short call still sleeps for the old seconds. *)
Theorem C31_micro_invalid_request_refuted : exists x, ulong x /\
  ~ denotes Micro (sl_step Micro (sl_new Micro 0) (SlCallWith x)) x.
Proof. exists 1500000. split; [unfold ulong; lia|]. intros [H _]. revert H. vm_compute. intros [_ H]; discriminate. Qed.
Print Assumptions C31_micro_invalid_request_refuted.
Theorem C31_nano_stale_seconds_refuted : exists x y, ulong x /\ ulong y /\
  ~ Forall2 (denotes Nano) (sl_run Nano (sl_new Nano x) [SlCallWith y]) [y].
Proof.
  exists 2000000000, 500. split; [unfold ulong; lia|]. split; [unfold ulong; lia|]. intros H. inversion H; subst.
  destruct H3 as (_ & _ & H3). vm_compute in H3. discriminate.
Qed.
Print Assumptions C31_nano_stale_seconds_refuted.

Example C31_case : sl_run Milli (sl_new Milli 2500) [SlCall; SlCallWith 61001; SlCall] =
  [TS 2 500000000; TS 61 1000000; TS 61 1000000].
Proof. reflexivity. Qed.

(** C32: printed time stamps denote the exact value with nine fractional digits. *)
Theorem C32_printing_exact : forall t, norm t -> fixed9 (val t) (ts_print t).
Proof. exact print_ok. Qed.
Print Assumptions C32_printing_exact.

(** C32: so different normalised times print differently. *)
Theorem C32_printing_injective : forall a b, norm a -> norm b -> ts_print a = ts_print b -> a = b.
Proof.
  intros a b Ha Hb H. apply norm_val_inj; auto. pose proof (print_ok a Ha) as Fa. pose proof (print_ok b Hb) as Fb.
  rewrite H in Fa. exact (fixed9_unique _ _ _ Fa Fb).
Qed.
Print Assumptions C32_printing_injective.

Example C32_case : ts_print (TS 0 (-12345)) = [45;48;46;48;48;48;48;49;50;51;52;53] /\
  ts_print (TS (-7) (-120000000)) = [45;55;46;49;50;48;48;48;48;48;48;48].
Proof. split; reflexivity. Qed.

(** C68: over every history of updates and analyses with a non-decreasing clock, each completed analysis
    reports the number of updates since the previous one and their shortest and longest interval. *)
Theorem C68_frequency_monitor_exact : forall debug P l m q,
  frep m q P -> Forall reading (map snd l) -> nondec (Z.max (q_last q) (q_an q)) (map snd l) ->
  exists m' reps, fm_run debug m l = Ok (m', reps) /\ reps = fm_spec P q (freport_of m) (fvals l).
Proof. exact fm_run_ok. Qed.
Print Assumptions C68_frequency_monitor_exact.

Theorem C68_new_monitor : forall P r0 r1, norm P -> reading r0 -> reading r1 ->
  frep (fm_new P r0 r1) (FSpec (val r1) (val r0) []) (val P).
Proof. exact fm_new_ok. Qed.
Print Assumptions C68_new_monitor.

Example C68_case : match fm_run true (fm_new (TS 2 0) (TS 10 0) (TS 10 1))
    [(FUpdate, TS 10 500000001); (FUpdate, TS 11 1); (FAnalyse, TS 11 9); (FUpdate, TS 12 0); (FAnalyse, TS 12 0); (FAnalyse, TS 12 6); (FAnalyse, TS 15 0)] with
  | Ok (_, reps) => reps = [FRep (-1) true (-1000000000) (-1000000000); FRep (-1) true (-1000000000) (-1000000000);
          FRep 3 true 500000000 999999999; FRep 0 false 0 0]
  | _ => False end.
Proof. vm_compute. reflexivity. Qed.

(** C162: msec() and usec() are the whole milli- and microseconds of the fractional second. *)
Theorem C162_fraction_accessors : forall t, norm t -> 0 <= val t ->
  0 <= msec t < 1000 /\ 0 <= usec t < 1000000 /\
  sec t * 1000 + msec t = val t / 1000000 /\ sec t * 1000000 + usec t = val t / 1000.
Proof.
  intros [s n] (H1 & H2 & H3) H. unfold msec, usec, val in *. cbn [sec nsec] in *.
  assert (0 <= n) by lia. rewrite !Z.quot_div_nonneg by lia. lia.
Qed.
Print Assumptions C162_fraction_accessors.
(** A negative time truncates towards zero. *)
Theorem C162_negative : forall t, norm t -> val t <= 0 ->
  sec t * 1000 + msec t = - ((- val t) / 1000000) /\ sec t * 1000000 + usec t = - ((- val t) / 1000).
Proof.
  intros [s n] (H1 & H2 & H3) H. unfold msec, usec, val in *. cbn [sec nsec] in *.
  assert (exists m, n = - m /\ 0 <= m) as (m & -> & Hm) by (exists (- n); lia).
  rewrite !Z.quot_opp_l by lia. rewrite !Z.quot_div_nonneg by lia. lia.
Qed.
Print Assumptions C162_negative.
Example C162_case : msec (TS 3 1999999) = 1 /\ usec (TS (-3) (-1999999)) = -1999.
Proof. split; reflexivity. Qed.

Lemma sl_last k : forall l req o d, last (sl_run k req (l ++ [o])) d = sl_step k (fold_left (sl_step k) l req) o.
Proof.
  induction l as [|a l IH]; intros req o d; cbn [app sl_run fold_left]; [reflexivity|].
  destruct (sl_run k (sl_step k req a) (l ++ [o])) eqn:E; [destruct l; discriminate|]. rewrite <- (IH (sl_step k req a) o d), E. reflexivity.
Qed.
Lemma sl_sec_kept k : k <> Milli -> forall l req, sec (fold_left (sl_step k) l req) = sec req.
Proof. intros K. induction l as [|[|x] l IH]; intros req; cbn [fold_left]; [reflexivity| |]; rewrite IH; [reflexivity|]. destruct k; [contradiction| |]; reflexivity. Qed.
Lemma wrap_s_mod x : exists q, wrap_s 64 x = x - q * 18446744073709551616.
Proof.
  unfold wrap_s. change (2 ^ 64) with 18446744073709551616. pose proof (Z.div_mod x 18446744073709551616 ltac:(lia)) as D.
  destruct (_ <? _); [exists (x / 18446744073709551616)|exists (x / 18446744073709551616 + 1)]; lia.
Qed.
(** C31, exactly: whatever was called before, a call of a MicroSleep or NanoSleep with a duration requests it exactly if that duration and the one
    given to the constructor are both below a second. *)
Theorem C31_calls_exactly : forall k x l y d, k <> Milli -> ulong x -> ulong y ->
  (denotes k (last (sl_run k (sl_new k x) (l ++ [SlCallWith y])) d) y <-> x < per_sec k /\ y < per_sec k).
Proof.
  intros k x l y d K X Y. rewrite sl_last. pose proof (sl_sec_kept k K l (sl_new k x)) as S0. set (r := fold_left (sl_step k) l (sl_new k x)) in *. clearbody r.
  unfold denotes, val, ulong in *. change (2 ^ 64) with 18446744073709551616 in *. destruct k; [contradiction| |]; cbn [sl_step sl_set sl_new sec nsec per_sec] in *.
  - rewrite S0. clear S0 r.
    match goal with |- context [wrap_s 64 ?e] => destruct (wrap_s_mod e) as (q & Q) end. pose proof (Z.div_pos x 1000000 ltac:(lia) ltac:(lia)). assert (x / 1000000 < 20000000000000) by (apply Z.div_lt_upper_bound; lia). split.
    + intros (N & _ & V). rewrite Q in *. 
      assert (E : x / 1000000 * 1953125 = q * 36028797018963968) by lia.
      assert (D : (36028797018963968 | x / 1000000)). { apply (Z.gauss _ 1953125); [exists q; lia|reflexivity]. }
      destruct D as [c D]. assert (x / 1000000 = 0) by nia. split; [|lia]. pose proof (Z.div_small_iff x 1000000 ltac:(lia)). lia.
    + intros [H1 H2]. rewrite (Z.div_small x) by lia. rewrite wrap_s_small by lia. lia.
  - rewrite S0. clear S0 r.
    destruct (wrap_s_mod y) as (q & Q). pose proof (Z.div_pos x 1000000000 ltac:(lia) ltac:(lia)). assert (x / 1000000000 < 20000000000) by (apply Z.div_lt_upper_bound; lia). split.
    + intros (N & _ & V). rewrite Q in *. 
      assert (E : x / 1000000000 * 1953125 = q * 36028797018963968) by lia.
      assert (D : (36028797018963968 | x / 1000000000)). { apply (Z.gauss _ 1953125); [exists q; lia|reflexivity]. }
      destruct D as [c D]. assert (x / 1000000000 = 0) by nia. split; [|lia]. pose proof (Z.div_small_iff x 1000000000 ltac:(lia)). lia.
    + intros [H1 H2]. rewrite (Z.div_small x) by lia. rewrite wrap_s_small by lia. lia.
Qed.
Print Assumptions C31_calls_exactly.

(** Readings of a clock that satisfy the hypotheses of C67, with the result. *)
Example C67_case : Forall reading (TS 7 10 :: TS 7 13 :: [TS 8 5; TS 9 0; TS 10 4]) /\ nondec (val (TS 7 10)) (TS 7 13 :: [TS 8 5; TS 9 0; TS 10 4]) /\
  match wrun true (stopwatch_new (TS 7 10) (TS 7 13)) [(WSplit, TS 8 5); (WElapsed, TS 9 0); (WSplit, TS 10 4)] with Ok (_, o) => o | _ => [] end =
    [Some (TS 0 999999992); Some (TS 1 999999990); Some (TS 1 999999999)].
Proof. split; [repeat (constructor; [split; cbn; lia|]); constructor|]. split; [cbn; lia|]. vm_compute. reflexivity. Qed.

(** C68: the frequency is the number of updates in the window over its length, and the time of the last update is always told; before
    the first window has passed the diagnostics are those of construction. *)
Theorem C68_rate : forall debug P r0 r1 ups now, norm P -> Forall reading (r0 :: r1 :: ups ++ [now]) ->
  nondec (Z.max (val r1) (val r0)) (ups ++ [now]) ->
  exists m reps, fm_run debug (fm_new P r0 r1) (map (fun t => (FUpdate, t)) ups ++ [(FAnalyse, now)]) = Ok (m, reps) /\
    val (fd_last m) = val (last ups r1) /\
    (val P < val now - val r0 -> fd_count m = Zlen ups /\ val (fd_interval m) = val now - val r0) /\
    (val now - val r0 <= val P -> fd_count m = -1 /\ val (fd_interval m) = -1000000000 /\ val (fd_min m) = -1000000000 /\ val (fd_max m) = -1000000000 /\
                                  (fd_conn m = true <-> ups <> [])).
Proof.
  intros d P r0 r1 ups now HP HF HN. inversion HF as [|? ? R0 HF1]; subst. inversion HF1 as [|? ? R1 HF2]; subst.
  assert (LC : forall l (x y : ts), last (x :: l) y = last l x).
  { induction l as [|z l IH]; intros x y; [reflexivity|]. change (last (x :: z :: l) y) with (last (z :: l) y). now rewrite !IH. }
  assert (G : forall ups m q, frep m q (val P) -> Forall reading (ups ++ [now]) -> nondec (Z.max (q_last q) (q_an q)) (ups ++ [now]) ->
    exists m' reps, fm_run d m (map (fun t => (FUpdate, t)) ups ++ [(FAnalyse, now)]) = Ok (m', reps) /\
      val (fd_last m') = match ups with [] => q_last q | u :: us => val (last us u) end /\
      (val P < val now - q_an q -> fd_count m' = Zlen ups + Zlen (q_ints q) /\ val (fd_interval m') = val now - q_an q) /\
      (val now - q_an q <= val P -> fd_count m' = fd_count m /\ fd_interval m' = fd_interval m /\ fd_min m' = fd_min m /\ fd_max m' = fd_max m /\
        fd_conn m' = match ups with [] => fd_conn m | _ => true end)).
  { clear ups HF HN HF1 HF2. induction ups as [|u us IH]; intros m q HR HF HN; cbn [map app fm_run].
    - inversion HF as [|? ? RN _]; subst. cbn [app nondec] in HN. destruct HN as [HN _].
      destruct (fm_analyse_ok d m q (val P) now HR RN ltac:(lia)) as (m' & E & L & C). rewrite E. cbn [bind fst snd]. exists m', [freport_of m'].
      split; [reflexivity|]. split; [exact L|]. destruct (val now - q_an q >? val P) eqn:B.
      + destruct C as (_ & C1 & _ & C2 & _). split; [intros _; split; [change (Zlen (@nil ts)) with 0; lia|exact C2]|intros; lia].
      + destruct C as (_ & C1 & C2 & C3 & C4 & C5). split; [intros; lia|]. intros _. auto.
    - cbn [app] in HF, HN. inversion HF as [|? ? RU HF']; subst. cbn [nondec] in HN. destruct HN as [HN1 HN2].
      destruct (fm_update_ok d m q (val P) u HR RU ltac:(lia)) as (m1 & E & HR1 & C1). rewrite E. cbn [bind].
      destruct (IH m1 _ HR1 HF') as (m' & reps & E' & L & A & B).
      { cbn [q_last q_an]. replace (Z.max (val u) (q_an q)) with (val u) by lia. exact HN2. }
      exists m', reps. split; [exact E'|]. cbn [q_last q_an q_ints] in *. rewrite Zlen_cons in A. split; [|split].
      + rewrite L. destruct us as [|x us]; [reflexivity|]. now rewrite LC.
      + intros W. rewrite Zlen_cons. destruct (A W) as [-> ->]. split; [lia|reflexivity].
      + intros W. destruct (B W) as (B1 & B2 & B3 & B4 & B5). unfold fm_update in E. destruct (ts_sub d u (fm_last m)); cbn [bind] in E; try discriminate. injection E as <-. cbn in *. repeat split; try assumption. rewrite B5. now destruct us. }
  destruct (G ups _ _ (fm_new_ok P r0 r1 HP R0 R1) HF2 HN) as (m & reps & E & L & A & B). cbn [q_last q_an q_ints] in *. exists m, reps. split; [exact E|]. split; [|split].
  - rewrite L. destruct ups as [|u us]; [reflexivity|]. now rewrite LC.
  - intros W. destruct (A W) as [-> ->]. split; [change (Zlen (@nil Z)) with 0; lia|reflexivity].
  - intros W. destruct (B W) as (-> & -> & -> & -> & ->). cbn. repeat split; destruct ups; congruence.
Qed.
Print Assumptions C68_rate.
Example C68_rate_case : norm (TS 2 0) /\ Forall reading [TS 10 0; TS 10 1; TS 11 5; TS 12 7; TS 13 0] /\ nondec 10000000001 [TS 11 5; TS 12 7; TS 13 0] /\ val (TS 2 0) < val (TS 13 0) - val (TS 10 0).
Proof. split; [unfold norm; cbn; lia|]. split; [repeat (constructor; [split; cbn; lia|]); constructor|]. cbn. lia. Qed.
