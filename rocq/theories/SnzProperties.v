(** Properties of what a snoozer does when it has fallen behind (C247). *)
From Verif Require Import Base TimeModel TimeProofs.

(** A time in nanoseconds, and the readings a call took. *)
Definition ns (t : ts) : Z := sec t * 1000000000 + nsec t.
Definition taken (clk rest : list ts) (k : Z) : Prop := exists pre, clk = pre ++ rest /\ Zlen pre = k.

(** A snoozer that does not validate reads the clock exactly once; its deadline is the next one if that is ahead of the reading. *)
Theorem C247_once : forall s now clk, sn_ok s -> sn_validate s = false -> reading now ->
  exists s', snooze_call s (now :: clk) = Some (s', clk) /\ sn_ok s' /\ sn_validate s' = false /\ sn_period s' = sn_period s /\
   (ns now < ns (sn_time s) + ns (sn_period s) -> ns (sn_time s') = ns (sn_time s) + ns (sn_period s)) /\
   (ns (sn_time s) + ns (sn_period s) < ns now -> ns (sn_time s') = ns now + ns (sn_period s)).
Proof.
  intros s now clk Hok HV Hn. destruct (add_period_ok s Hok) as (Hv & Hok1 & Hper & Hval & _).
  change ns with val. unfold snooze_call. rewrite HV. cbn [sn_check]. rewrite Hval, HV.
  destruct (behind now (sn_time (add_period s))) eqn:EB.
  - set (s0 := Snooze now (sn_period (add_period s)) (sn_wrap (add_period s)) false).
    assert (Hok0 : sn_ok s0).
    { destruct Hok1 as (Hp & Hw & Ht). split; [exact Hp|]. split; [exact Hw|]. unfold s0, sn_time_ok. cbn. unfold reading in Hn. lia. }
    destruct (add_period_ok s0 Hok0) as (Hv0 & Hok2 & Hper0 & Hval0 & _).
    exists (add_period s0). split; [reflexivity|]. split; [exact Hok2|]. split; [exact Hval0|].
    assert (HP : sn_period (add_period s0) = sn_period s) by (rewrite Hper0; exact Hper). split; [exact HP|].
    assert (HT : val (sn_time (add_period s0)) = val now + val (sn_period s)) by (rewrite Hv0; unfold s0; cbn [sn_time sn_period]; rewrite Hper; reflexivity).
    split; intros HL; [|exact HT]. rewrite (behind_false now _ Hn (proj2 (proj2 Hok1))) in EB; [discriminate|lia].
  - exists (add_period s). split; [reflexivity|]. split; [exact Hok1|]. split; [congruence|]. split; [exact Hper|].
    split; intros HL; [exact Hv|]. rewrite (behind_true now _ Hn (proj2 (proj2 Hok1))) in EB; [discriminate|lia].
Qed.
Print Assumptions C247_once.
(** snooze_pos.hpp:157-162 says that without validation a snoozer that has fallen behind "will simply return immediately", i.e. catches up.
    Instead it always sleeps for a period from now, as with validation: the deadlines missed are dropped. *)
Theorem C247_catches_up_refuted : forall s now clk, sn_ok s -> sn_validate s = false -> reading now ->
  ns (sn_time s) + ns (sn_period s) < ns now -> 0 < ns (sn_period s) ->
  exists s', snooze_call s (now :: clk) = Some (s', clk) /\ ns now < ns (sn_time s') /\ ns (sn_time s') <> ns (sn_time s) + ns (sn_period s).
Proof.
  intros s now clk Hok HV Hn HL HP. destruct (C247_once s now clk Hok HV Hn) as (s' & HC & _ & _ & _ & _ & HB).
  exists s'. split; [exact HC|]. specialize (HB HL). lia.
Qed.
Print Assumptions C247_catches_up_refuted.
(** A snoozer that validates reads the clock at most three times if the readings of a call are less than a period apart. *)
Theorem C247_thrice_partial : forall s r1 r2 r3 clk, sn_ok s -> sn_validate s = true -> reading r1 -> reading r2 -> reading r3 ->
  ns r1 <= ns r2 <= ns r3 -> ns r3 < ns r1 + ns (sn_period s) ->
  exists s' rest k, snooze_call s (r1 :: r2 :: r3 :: clk) = Some (s', rest) /\ taken (r1 :: r2 :: r3 :: clk) rest k /\ (k = 2 \/ k = 3).
Proof.
  intros s r1 r2 r3 clk Hok HV H1 H2 H3. change ns with val. intros HO HL. destruct (add_period_ok s Hok) as (Hv & Hok1 & Hper & Hval & _).
  assert (RB : forall t r, sn_ok t -> sn_period t = sn_period s -> reading r ->
     exists t', add_period (Snooze r (sn_period t) (sn_wrap t) true) = t' /\ sn_ok t' /\ sn_validate t' = true /\ sn_period t' = sn_period s /\ val (sn_time t') = val r + val (sn_period s)).
  { intros t r (Hp & Hw & Ht) HE Hr. assert (Hok0 : sn_ok (Snooze r (sn_period t) (sn_wrap t) true)).
    { split; [exact Hp|]. split; [exact Hw|]. unfold sn_time_ok. cbn. unfold reading in Hr. lia. }
    destruct (add_period_ok _ Hok0) as (Hv0 & Hok2 & Hper0 & Hval0 & _). eexists. split; [reflexivity|]. split; [exact Hok2|]. split; [exact Hval0|].
    split; [rewrite Hper0; exact HE|]. rewrite Hv0. cbn [sn_time sn_period]. rewrite HE. reflexivity. }
  unfold snooze_call. rewrite HV. cbn [sn_check]. rewrite Hval, HV. destruct (behind r1 (sn_time (add_period s))) eqn:E1.
  - destruct (RB (add_period s) r1 Hok1 Hper H1) as (t & -> & Ht & HtV & HtP & HtT).
    rewrite (behind_false r2 (sn_time t) H2 (proj2 (proj2 Ht))) by lia. cbn [sn_check]. rewrite (behind_false r3 (sn_time t) H3 (proj2 (proj2 Ht))) by lia.
    exists t, clk, 3. split; [reflexivity|]. split; [exists [r1; r2; r3]; split; reflexivity|lia].
  - cbn [sn_check]. rewrite Hval, HV. destruct (behind r2 (sn_time (add_period s))) eqn:E2.
    + destruct (RB (add_period s) r2 Hok1 Hper H2) as (t & -> & Ht & HtV & HtP & HtT).
      rewrite (behind_false r3 (sn_time t) H3 (proj2 (proj2 Ht))) by lia.
      exists t, clk, 3. split; [reflexivity|]. split; [exists [r1; r2; r3]; split; reflexivity|lia].
    + exists (add_period s), (r3 :: clk), 2. split; [reflexivity|]. split; [exists [r1; r2]; split; reflexivity|lia].
Qed.
Print Assumptions C247_thrice_partial.
(** But there is no bound: each late reading is answered by a deeper call, and if every reading comes more than a period after the one before
    it, no number of readings ends the call. *)
Fixpoint late (p t : Z) (l : list ts) : Prop := match l with [] => True | r :: tl => t + p < ns r /\ late p (ns r) tl end.
Lemma check_late : forall clk s, sn_ok s -> sn_validate s = true -> Forall reading clk ->
  late (ns (sn_period s)) (ns (sn_time s) - ns (sn_period s)) clk -> sn_check s clk = None.
Proof.
  change ns with val. induction clk as [|r clk IH]; intros s Hok HV HF HL; [reflexivity|]. apply Forall_cons_iff in HF as [Hr HF]. destruct HL as [HL1 HL2].
  change ns with val in HL1, HL2. cbn [sn_check]. rewrite HV, (behind_true r _ Hr (proj2 (proj2 Hok))) by lia.
  assert (Hok0 : sn_ok (Snooze r (sn_period s) (sn_wrap s) true)).
  { destruct Hok as (Hp & Hw & Ht). split; [exact Hp|]. split; [exact Hw|]. unfold sn_time_ok. cbn. unfold reading in Hr. lia. }
  destruct (add_period_ok _ Hok0) as (Hv0 & Hok2 & Hper0 & Hval0 & _). cbn [sn_time sn_period sn_validate] in *.
  apply IH; [exact Hok2|exact Hval0|exact HF|]. rewrite Hv0, Hper0. replace (val r + val (sn_period s) - val (sn_period s)) with (val r) by lia. exact HL2.
Qed.
Theorem C247_endless_refuted : forall s clk, sn_ok s -> sn_validate s = true -> Forall reading clk ->
  late (ns (sn_period s)) (ns (sn_time s)) clk -> snooze_call s clk = None.
Proof.
  intros s clk Hok HV HF HL. destruct (add_period_ok s Hok) as (Hv & Hok1 & Hper & Hval & _). unfold snooze_call. rewrite HV.
  rewrite (check_late clk (add_period s) Hok1); [reflexivity|congruence|exact HF|].
  rewrite Hper. replace (ns (sn_time (add_period s)) - ns (sn_period s)) with (ns (sn_time s)) by (change ns with val; lia). exact HL.
Qed.
Print Assumptions C247_endless_refuted.
(** Such readings exist in any number: a period of zero and a clock that ticks. *)
Example C247_endless_case : forall n, exists clk, length clk = n /\ Forall reading clk /\ late 0 (ns (TS 7 0)) clk /\
  snooze_call (snooze_new (TS 0 0) true (TS 7 0)) clk = None.
Proof.
  intros n. assert (GN : forall n k, 0 <= k -> exists clk, length clk = n /\ Forall reading clk /\ late 0 (k * 1000000000) clk).
  { clear n. induction n as [|n IH]; intros k Hk; [exists []; repeat split; constructor|].
    destruct (IH (k + 1)) as (clk & HL & HF & HT); [lia|]. exists (TS (k + 1) 0 :: clk). cbn [length late]. split; [lia|].
    split; [constructor; [unfold reading; cbn; lia|exact HF]|]. unfold ns. cbn [sec nsec]. split; [lia|]. rewrite Z.add_0_r. exact HT. }
  destruct (GN n 7) as (clk & HL & HF & HT); [lia|]. exists clk. split; [exact HL|]. split; [exact HF|]. split; [exact HT|].
  apply C247_endless_refuted; [|reflexivity|exact HF|exact HT]. unfold sn_ok, period_ok, sn_time_ok. cbn. unfold G. lia.
Qed.
Example C247_case : sn_ok (snooze_new (TS 0 400000000) true (TS 5 300000000)) /\
  snooze_call (snooze_new (TS 0 400000000) true (TS 5 300000000)) [TS 7 0; TS 7 1; TS 7 2] =
  Some (Snooze (TS 7 400000000) (TS 0 400000000) 600000000 true, []).
Proof. split; [unfold sn_ok, period_ok, sn_time_ok; cbn; unfold G; lia|reflexivity]. Qed.

(** A call made exactly at the next deadline keeps it, unless the deadline was stored with a full second of nanoseconds: then a period is added. *)
Theorem C247_on_time : forall s now clk, sn_ok s -> sn_validate s = false -> reading now -> 0 < ns (sn_period s) ->
  ns now = ns (sn_time s) + ns (sn_period s) ->
  exists s', snooze_call s (now :: clk) = Some (s', clk) /\
   (nsec (sn_time s) + nsec (sn_period s) <> 1000000000 -> ns (sn_time s') = ns now) /\
   (nsec (sn_time s) + nsec (sn_period s) = 1000000000 -> ns (sn_time s') = ns now + ns (sn_period s)).
Proof.
  intros s now clk Hok HV Hn P E. destruct (add_period_ok s Hok) as (Hv & Hok1 & Hper & Hval & _).
  unfold snooze_call. rewrite HV. cbn [sn_check]. rewrite Hval, HV.
  assert (B : behind now (sn_time (add_period s)) = (nsec (sn_time s) + nsec (sn_period s) =? 1000000000)).
  { destruct s as [t p w v]. cbn [sn_validate] in HV. subst v. destruct t as [ts1 tn], p as [ps pn], now as [s1 n1]. unfold behind, add_period, sn_ok, sn_time_ok, reading, ns, val in *. cbn [sn_time sn_period sn_wrap sn_validate sec nsec] in *.
    unfold period_ok in *. cbn [sec nsec] in *. destruct (tn >? w) eqn:G; cbn [sec nsec]; repeat match goal with |- context [if ?b then _ else _] => destruct b eqn:? end; lia. }
  rewrite B. destruct (Z.eqb_spec (nsec (sn_time s) + nsec (sn_period s)) 1000000000) as [Q|Q].
  - set (s0 := Snooze now (sn_period (add_period s)) (sn_wrap (add_period s)) false).
    assert (Hok0 : sn_ok s0).
    { destruct Hok1 as (Hp & Hw & Ht). split; [exact Hp|]. split; [exact Hw|]. unfold s0, sn_time_ok. cbn. unfold reading in Hn. lia. }
    destruct (add_period_ok s0 Hok0) as (Hv0 & _). exists (add_period s0). split; [reflexivity|]. split; [contradiction|]. intros _.
    change ns with val. rewrite Hv0. unfold s0. cbn [sn_time sn_period]. rewrite Hper. reflexivity.
  - exists (add_period s). split; [reflexivity|]. split; [|contradiction]. intros _. change ns with val in *. rewrite Hv. lia.
Qed.
Print Assumptions C247_on_time.
Example C247_on_time_case : exists s, sn_ok s /\ sn_validate s = false /\ nsec (sn_time s) + nsec (sn_period s) = 1000000000 /\ 0 < ns (sn_period s).
Proof. exists (Snooze (TS 5 999000000) (TS 0 1000000) 999000000 false). unfold sn_ok, sn_time_ok, period_ok, ns. cbn. lia. Qed.
