(** Specifications and proofs for ecl_time. *)
From Verif Require Import Base Numerals TimeModel.

(** The exact value of a time stamp in nanoseconds. *)
Definition val (t : ts) : Z := sec t * 1000000000 + nsec t.
(** Normalised: less than a second of nanoseconds, with the sign of the seconds. *)
Definition norm (t : ts) : Prop :=
  - 1000000000 < nsec t < 1000000000 /\ (0 < sec t -> 0 <= nsec t) /\ (sec t < 0 -> nsec t <= 0).
(** A clock reading: a normalised, non-negative time. *)
Definition reading (t : ts) : Prop := 0 <= sec t /\ 0 <= nsec t < 1000000000.

Ltac tsd := repeat match goal with t : ts |- _ => destruct t end; cbn [sec nsec] in *.

Ltac ifz := repeat (match goal with |- context [if ?b then _ else _] => destruct b eqn:? end; cbn [sec nsec]); lia.

Lemma reading_norm t : reading t -> norm t.
Proof. unfold reading, norm. lia. Qed.

Lemma norm_val_inj a b : norm a -> norm b -> val a = val b -> a = b.
Proof.
  unfold norm, val. destruct a as [s n], b as [s' n']. cbn [sec nsec]. intros Ha Hb H. assert (s = s') by lia. subst. f_equal. lia.
Qed.

Lemma add_raw_ok a b : norm a -> norm b -> norm (add_raw a b) /\ val (add_raw a b) = val a + val b.
Proof.
  unfold norm, val, add_raw, G. tsd. intros Ha Hb. ifz.
Qed.

Lemma mk_ok debug t : norm t -> mk debug (sec t) (nsec t) = Ok t.
Proof.
  unfold norm, mk, assert_throw. destruct t as [s n]. cbn [sec nsec]. intros H.
  replace (((0 <? s) && (0 <=? n)) || ((s <? 0) && (n <=? 0)) || (s =? 0)) with true by lia.
  destruct debug; reflexivity.
Qed.

Lemma ts_add_ok debug a b : norm a -> norm b ->
  exists c, ts_add debug a b = Ok c /\ norm c /\ val c = val a + val b.
Proof.
  intros Ha Hb. destruct (add_raw_ok a b Ha Hb). exists (add_raw a b). unfold ts_add. rewrite mk_ok; auto.
Qed.

Lemma cmp_ok a b : norm a -> norm b ->
  (ts_eq a b = true <-> val a = val b) /\ (ts_ne a b = true <-> val a <> val b) /\
  (ts_le a b = true <-> val a <= val b) /\ (ts_ge a b = true <-> val a >= val b) /\
  (ts_lt a b = true <-> val a < val b) /\ (ts_gt a b = true <-> val a > val b).
Proof.
  unfold norm, val, ts_eq, ts_ne, ts_le, ts_ge, ts_lt, ts_gt. tsd. intros Ha Hb.
  repeat split; intros; iflia.
Qed.

(** Subtraction is exact always; normalised when the operands do not have opposite signs. *)
Definition same_sign (a b : ts) : Prop := (0 <= val a /\ 0 <= val b) \/ (val a <= 0 /\ val b <= 0).

Lemma sub_raw_val a b : val (sub_raw a b) = val a - val b.
Proof. unfold val, sub_raw, G. tsd. ifz. Qed.

Lemma sub_raw_ok a b : norm a -> norm b -> same_sign a b ->
  norm (sub_raw a b) /\ val (sub_raw a b) = val a - val b.
Proof.
  intros Ha Hb Hs. split; [|apply sub_raw_val]. revert Ha Hb Hs.
  unfold norm, val, same_sign, sub_raw, G, val. tsd. ifz.
Qed.

Lemma ts_sub_ok debug a b : norm a -> norm b -> same_sign a b ->
  exists c, ts_sub debug a b = Ok c /\ norm c /\ val c = val a - val b.
Proof.
  intros Ha Hb Hs. destruct (sub_raw_ok a b Ha Hb Hs). exists (sub_raw a b). unfold ts_sub. rewrite mk_ok; auto.
Qed.

Lemma sub_signs debug a b : norm a -> norm b -> exists c, ts_sub debug a b = Ok c /\ val c = val a - val b.
Proof.
  intros Ha Hb. exists (sub_raw a b). split; [|apply sub_raw_val].
  unfold ts_sub, mk, assert_throw.
  assert (H : ((0 <? sec (sub_raw a b)) && (0 <=? nsec (sub_raw a b)) || (sec (sub_raw a b) <? 0) && (nsec (sub_raw a b) <=? 0)
          || (sec (sub_raw a b) =? 0)) = true).
  { revert Ha Hb. unfold norm, sub_raw, G. tsd. ifz. }
  rewrite H. destruct (sub_raw a b), debug; reflexivity.
Qed.

Lemma reading_val t : reading t -> 0 <= val t.
Proof. unfold reading, val. lia. Qed.

(** * Stopwatches *)

(** The specification keeps exact nanosecond values only. *)
Inductive wout := Nothing | Time (d : Z).
Fixpoint wspec (start split : Z) (l : list (wop * Z)) : list wout :=
  match l with
  | [] => []
  | (WRestart, r) :: l' => Nothing :: wspec r r l'
  | (WElapsed, r) :: l' => Time (r - start) :: wspec start split l'
  | (WSplit, r) :: l' => Time (r - split) :: wspec start r l'
  end.
Definition wrep (o : option ts) : wout := match o with None => Nothing | Some t => Time (val t) end.
Definition wvals (l : list (wop * ts)) : list (wop * Z) := map (fun p => (fst p, val (snd p))) l.
(** Non-decreasing readings starting from [lo]. *)
Fixpoint nondec (lo : Z) (l : list ts) : Prop :=
  match l with [] => True | t :: l' => lo <= val t /\ nondec (val t) l' end.
Definition good_out (o : option ts) : Prop := match o with None => True | Some t => norm t /\ 0 <= val t end.

Lemma wrun_spec debug : forall l w lo,
  Forall reading (map snd l) -> nondec lo (map snd l) -> reading (w_start w) -> reading (w_split w) ->
  val (w_start w) <= lo -> val (w_split w) <= lo ->
  exists w' outs, wrun debug w l = Ok (w', outs) /\
    map wrep outs = wspec (val (w_start w)) (val (w_split w)) (wvals l) /\ Forall good_out outs.
Proof.
  induction l as [|[o now] l IH]; intros w lo HF Hnd Hs Hp Hls Hlp; cbn [wrun wvals map wspec fst snd] in *.
  - eexists _, _. split; [reflexivity|]. cbn. auto.
  - apply Forall_cons_iff in HF as [Hnow HF]. cbn in Hnd. destruct Hnd as [Hlo Hnd].
    pose proof (reading_val _ Hnow). pose proof (reading_val _ Hs). pose proof (reading_val _ Hp).
    destruct o; cbn [wstep bind fst snd].
    + destruct (IH (Watch now now) (val now)) as (w' & outs & -> & Hm & Hg); cbn [w_start w_split]; auto; try lia.
      eexists _, _. split; [reflexivity|]. cbn [map snd wrep]. rewrite Hm. split; [reflexivity|].
      constructor; cbn; auto.
    + destruct (ts_sub_ok debug now (w_start w)) as (c & -> & Hc & Hv); auto using reading_norm.
      { left. lia. }
      cbn [bind fst snd]. destruct (IH w (val now)) as (w' & outs & -> & Hm & Hg); auto; try lia.
      eexists _, _. split; [reflexivity|]. cbn [map snd wrep]. rewrite Hm, Hv. split; [reflexivity|].
      constructor; cbn; auto. split; auto. lia.
    + destruct (ts_sub_ok debug now (w_split w)) as (c & -> & Hc & Hv); auto using reading_norm.
      { left. lia. }
      cbn [bind fst snd]. destruct (IH (Watch (w_start w) now) (val now)) as (w' & outs & -> & Hm & Hg);
        cbn [w_start w_split]; auto; try lia.
      eexists _, _. split; [reflexivity|]. cbn [map snd wrep]. rewrite Hm, Hv. split; [reflexivity|].
      constructor; cbn; auto. split; auto. lia.
Qed.

(** Sum of the split outputs of a history. *)
Fixpoint split_sum (ops : list wop) (outs : list (option ts)) : Z :=
  match ops, outs with
  | WSplit :: ops', Some t :: outs' => val t + split_sum ops' outs'
  | _ :: ops', _ :: outs' => split_sum ops' outs'
  | _, _ => 0
  end.
(** Reading at the last split of a history, [d] if there is none. *)
Fixpoint last_split (d : Z) (l : list (wop * ts)) : Z :=
  match l with [] => d | (WSplit, r) :: l' => last_split (val r) l' | _ :: l' => last_split d l' end.

Lemma split_sum_spec : forall l outs start split, ~ In WRestart (map fst l) ->
  map wrep outs = wspec start split (wvals l) -> split_sum (map fst l) outs = last_split split l - split.
Proof.
  induction l as [|[o r] l IH]; intros outs start split Hn Hm; cbn [wvals map wspec fst snd] in *.
  - destruct outs; [cbn; lia|discriminate].
  - destruct o; [exfalso; apply Hn; left; reflexivity| |];
      destruct outs as [|[t|] outs]; try discriminate; cbn in Hm; injection Hm as Hv Hm; cbn [split_sum last_split].
    + eapply IH; eauto. intros H; apply Hn; right; exact H.
    + erewrite IH; eauto; [lia|]. intros H; apply Hn; right; exact H.
Qed.

Lemma splits_sum debug w r l : Forall reading (r :: map snd l) -> nondec (val r) (map snd l) ->
  ~ In WRestart (map fst l) ->
  exists w' outs, wrun debug w ((WRestart, r) :: l) = Ok (w', None :: outs) /\
    split_sum (map fst l) outs = last_split (val r) l - val r /\ Forall good_out outs.
Proof.
  intros HF Hnd Hn. apply Forall_cons_iff in HF as [Hr HF]. cbn [wrun wstep bind fst snd].
  destruct (wrun_spec debug l (Watch r r) (val r)) as (w' & outs & -> & Hm & Hg); cbn [w_start w_split]; auto; try lia.
  eexists _, _. split; [reflexivity|]. cbn [bind fst snd]. split; [|exact Hg].
  eapply split_sum_spec; eauto.
Qed.

(** * Snooze *)

Definition period_ok (p : ts) : Prop := 0 <= sec p /\ 0 <= nsec p < 1000000000.
(** Times held by a snoozer: nanoseconds up to and including 10^9. *)
Definition sn_time_ok (t : ts) : Prop := 0 <= nsec t <= 1000000000.
Definition sn_ok (s : snooze) : Prop :=
  period_ok (sn_period s) /\ sn_wrap s = 1000000000 - nsec (sn_period s) /\ sn_time_ok (sn_time s).

Lemma add_period_ok s : sn_ok s ->
  val (sn_time (add_period s)) = val (sn_time s) + val (sn_period s) /\ sn_ok (add_period s) /\
  sn_period (add_period s) = sn_period s /\ sn_validate (add_period s) = sn_validate s /\
  (nsec (sn_time (add_period s)) = 1000000000 ->
     nsec (sn_time s) = 1000000000 - nsec (sn_period s) \/ (nsec (sn_period s) = 0 /\ nsec (sn_time s) = 1000000000)).
Proof.
  destruct s as [[s n] [ps pn] w v]. unfold sn_ok, add_period, period_ok, sn_time_ok, val.
  cbn [sn_time sn_period sn_wrap sn_validate sec nsec]. intros (Hp & Hw & Ht).
  destruct (n >? w) eqn:E; cbn [sec nsec]; repeat split; lia.
Qed.

Lemma behind_false now t : reading now -> sn_time_ok t -> val now < val t -> behind now t = false.
Proof.
  unfold reading, sn_time_ok, val, behind. tsd. intros. iflia.
Qed.
Lemma behind_true now t : reading now -> sn_time_ok t -> val t < val now -> behind now t = true.
Proof. unfold reading, sn_time_ok, val, behind. tsd. intros. iflia. Qed.
Lemma behind_le now t : reading now -> sn_time_ok t -> behind now t = false -> val now <= val t.
Proof. unfold reading, sn_time_ok, val, behind. tsd. intros. revert H1. iflia. Qed.
Lemma behind_ge now t : reading now -> sn_time_ok t -> behind now t = true -> val t <= val now.
Proof. unfold reading, sn_time_ok, val, behind. tsd. intros. revert H1. iflia. Qed.

Lemma sn_check_ahead s now clk : reading now -> sn_ok s -> val now < val (sn_time s) ->
  sn_check s (now :: clk) = Some (s, clk).
Proof.
  intros Hn (Hp & Hw & Ht) H. cbn [sn_check]. rewrite behind_false; auto.
Qed.

(** Readings per call when no rebasing is needed. *)
Definition rpc (validate : bool) : Z := if validate then 2 else 1.

Lemma snooze_run_ok : forall k s clk, sn_ok s -> Forall reading clk ->
  Zlen clk = rpc (sn_validate s) * Z.of_nat k ->
  (forall i r, zget clk i = Some r -> val r < val (sn_time s) + (i / rpc (sn_validate s) + 1) * val (sn_period s)) ->
  exists ds s', snooze_run k s clk = Some (ds, s', []) /\ length ds = k /\
    (forall j d, nth_error ds j = Some d ->
       val d = val (sn_time s) + (Z.of_nat j + 1) * val (sn_period s) /\ sn_time_ok d).
Proof.
  induction k as [|k IH]; intros s clk Hok HF HL Hclk.
  - destruct clk as [|c clk]; [|rewrite Zlen_cons in HL; pose proof (Zlen_nonneg clk); lia].
    eexists [], s. split; [reflexivity|]. split; [reflexivity|]. intros j d Hj. destruct j; discriminate.
  - destruct (add_period_ok s Hok) as (Hv & Hok1 & Hper & Hval & _).
    cbn [snooze_run]. unfold snooze_call.
    assert (Hclk1 : exists pre clk', clk = pre ++ clk' /\ Zlen pre = rpc (sn_validate s) /\
      (if sn_validate s then
         match sn_check (add_period s) clk with Some (s2, clk') => sn_check s2 clk' | None => None end
       else sn_check (add_period s) clk) = Some (add_period s, clk')).
    { destruct (sn_validate s) eqn:EV; unfold rpc in *.
      - destruct clk as [|c0 [|c1 clk]]; [cbn in HL; lia|change (Zlen [c0]) with 1 in HL; lia|].
        exists [c0; c1], clk. split; [reflexivity|]. split; [reflexivity|].
        apply Forall_cons_iff in HF as [H0 HF]. apply Forall_cons_iff in HF as [H1 HF].
        rewrite sn_check_ahead; auto.
        + apply sn_check_ahead; auto. rewrite Hv. specialize (Hclk 1 c1 eq_refl). change (1 / 2) with 0 in Hclk. lia.
        + rewrite Hv. specialize (Hclk 0 c0 eq_refl). change (0 / 2) with 0 in Hclk. change (0 / 1) with 0 in Hclk. lia.
      - destruct clk as [|c0 clk]; [cbn in HL; lia|].
        exists [c0], clk. split; [reflexivity|]. split; [reflexivity|].
        apply Forall_cons_iff in HF as [H0 HF]. apply sn_check_ahead; auto.
        rewrite Hv. specialize (Hclk 0 c0 eq_refl). change (0 / 2) with 0 in Hclk. change (0 / 1) with 0 in Hclk. lia. }
    destruct Hclk1 as (pre & clk' & -> & Hpre & ->).
    rewrite Zlen_app, Hpre in HL. apply Forall_app in HF as [_ HF].
    destruct (IH (add_period s) clk') as (ds & s' & -> & Hlen & Hds); auto.
    + rewrite Hval. lia.
    + intros i r Hi. rewrite Hval, Hper, Hv.
      assert (Hi0 : 0 <= i) by (unfold zget in Hi; destruct (i <? 0) eqn:E; [discriminate|lia]).
      specialize (Hclk (i + rpc (sn_validate s)) r). 
      assert (zget (pre ++ clk') (i + rpc (sn_validate s)) = Some r) as Hz.
      { rewrite <- Hpre. pose proof (Zlen_nonneg pre). unfold zget in *.
        replace (i + Zlen pre <? 0) with false by lia.
        replace (i <? 0) with false in Hi by lia.
        rewrite nth_error_app2 by (unfold Zlen in *; lia).
        rewrite <- Hi. f_equal. unfold Zlen. lia. }
      specialize (Hclk Hz).
      replace ((i + rpc (sn_validate s)) / rpc (sn_validate s)) with (i / rpc (sn_validate s) + 1) in Hclk.
      { lia. }
      { rewrite <- (Z.mul_1_l (rpc (sn_validate s))) at 2. rewrite Z.div_add; [lia|]. unfold rpc. destruct (sn_validate s); lia. }
    + eexists (sn_time (add_period s) :: ds), s'. split; [reflexivity|]. split; [cbn; lia|].
      intros j d Hj. destruct j as [|j]; cbn [nth_error] in Hj.
      * assert (d = sn_time (add_period s)) as -> by congruence. split; [rewrite Hv; lia|]. apply Hok1.
      * destruct (Hds j d Hj) as [Hd1 Hd2]. split; [|exact Hd2]. rewrite Hd1, Hv, Hper. lia.
Qed.

(** A deadline is malformed exactly at a whole second. *)
Lemma bad_deadline t : sn_time_ok t -> ~ (0 <= nsec t < 1000000000) -> val t mod 1000000000 = 0.
Proof.
  unfold sn_time_ok, val. intros. assert (nsec t = 1000000000) as -> by lia.
  replace (sec t * 1000000000 + 1000000000) with ((sec t + 1) * 1000000000) by lia. apply Z_mod_mult.
Qed.

(** Falling behind. *)
Lemma sn_check_result : forall clk s s' clk', sn_ok s -> Forall reading clk -> sn_check s clk = Some (s', clk') ->
  sn_ok s' /\ sn_period s' = sn_period s /\ sn_validate s' = sn_validate s /\
  exists pre now, clk = pre ++ now :: clk' /\ val now <= val (sn_time s') /\
   (sn_time s' = sn_time s \/
    exists r, In r (pre ++ [now]) /\ val (sn_time s) <= val r /\ val (sn_time s') = val r + val (sn_period s)).
Proof.
  induction clk as [|now clk IH]; intros s s' clk' Hok HF H; [discriminate|].
  apply Forall_cons_iff in HF as [Hn HF]. cbn [sn_check] in H.
  destruct (behind now (sn_time s)) eqn:EB.
  - set (s0 := Snooze now (sn_period s) (sn_wrap s) (sn_validate s)) in *.
    assert (Hok0 : sn_ok s0).
    { destruct Hok as (Hp & Hw & Ht). split; [exact Hp|]. split; [exact Hw|]. unfold s0, sn_time_ok. cbn. unfold reading in Hn. lia. }
    destruct (add_period_ok s0 Hok0) as (Hv & Hok1 & Hper & Hval & _).
    assert (Hge := behind_ge _ _ Hn (proj2 (proj2 Hok)) EB).
    assert (HP : 0 <= val (sn_period s)) by (destruct Hok as ((? & ?) & _); unfold val; lia).
    assert (Hv' : val (sn_time (add_period s0)) = val now + val (sn_period s)) by exact Hv.
    destruct (sn_validate s) eqn:EV.
    + destruct (IH _ _ _ Hok1 HF H) as (HA & HB & HC & pre & nw & -> & Hle & Hor).
      split; [exact HA|]. split; [rewrite HB; exact Hper|]. split; [rewrite HC; exact Hval|].
      exists (now :: pre), nw. split; [reflexivity|]. split; [exact Hle|]. right.
      destruct Hor as [Heq|(r & Hr & Hr1 & Hr2)].
      * exists now. split; [left; reflexivity|]. split; [exact Hge|]. rewrite Heq. exact Hv'.
      * exists r. split; [right; exact Hr|]. split; [lia|]. rewrite Hr2, Hper. reflexivity.
    + injection H as <- <-. split; [exact Hok1|]. split; [exact Hper|]. split; [exact Hval|].
      exists [], now. split; [reflexivity|]. split; [lia|]. right. exists now. split; [left; reflexivity|].
      split; [exact Hge|exact Hv'].
  - injection H as <- <-. split; [exact Hok|]. do 2 (split; [reflexivity|]).
    exists [], now. split; [reflexivity|]. split; [|left; reflexivity].
    apply behind_le; auto. apply Hok.
Qed.

Lemma snooze_call_result s clk s' clk' : sn_ok s -> Forall reading clk -> snooze_call s clk = Some (s', clk') ->
  sn_ok s' /\ sn_period s' = sn_period s /\
  exists pre now, clk = pre ++ now :: clk' /\ val now <= val (sn_time s') /\
   (val (sn_time s') = val (sn_time s) + val (sn_period s) \/
    exists r, In r (pre ++ [now]) /\ val (sn_time s) + val (sn_period s) <= val r /\
      val (sn_time s') = val r + val (sn_period s)).
Proof.
  intros Hok HF H. unfold snooze_call in H. destruct (add_period_ok s Hok) as (Hv & Hok1 & Hper & Hval & _).
  destruct (sn_validate s) eqn:EV.
  - destruct (sn_check (add_period s) clk) as [[s2 clk2]|] eqn:E1; [|discriminate].
    destruct (sn_check_result _ _ _ _ Hok1 HF E1) as (HA & HB & HC & pre & now & -> & Hle & Hor).
    assert (HF2 : Forall reading clk2).
    { apply Forall_app in HF as [_ HF]. apply Forall_cons_iff in HF as [_ HF]. exact HF. }
    destruct (sn_check_result _ _ _ _ HA HF2 H) as (HA' & HB' & HC' & pre' & now' & -> & Hle' & Hor').
    split; [exact HA'|]. split; [congruence|].
    exists (pre ++ now :: pre'), now'. split; [rewrite <- app_assoc; reflexivity|]. split; [exact Hle'|].
    assert (HP : 0 <= val (sn_period s)) by (destruct Hok as ((? & ?) & _); unfold val; lia).
    destruct Hor' as [Heq|(r & Hr & Hr1 & Hr2)].
    + rewrite Heq. destruct Hor as [Heq0|(r & Hr & Hr1 & Hr2)].
      * left. rewrite Heq0. exact Hv.
      * right. exists r. rewrite Hv in Hr1. split; [|split; [lia|rewrite Hr2, Hper; reflexivity]].
        rewrite <- app_assoc. apply in_app_or in Hr as [Hr|[<-|[]]]; apply in_or_app; [left; exact Hr|right; left; reflexivity].
    + right. exists r. split; [|split].
      * rewrite <- app_assoc. apply in_or_app. right. right. exact Hr.
      * destruct Hor as [Heq0|(r0 & Hr0 & Hr1' & Hr2')]; [rewrite Heq0, Hv in Hr1; lia|].
        rewrite Hv in Hr1'. rewrite Hr2', Hper in Hr1. lia.
      * rewrite Hr2, HB, Hper. reflexivity.
  - destruct (sn_check_result _ _ _ _ Hok1 HF H) as (HA & HB & HC & pre & now & -> & Hle & Hor).
    split; [exact HA|]. split; [congruence|]. exists pre, now. split; [reflexivity|]. split; [exact Hle|].
    destruct Hor as [Heq|(r & Hr & Hr1 & Hr2)].
    + left. rewrite Heq. exact Hv.
    + right. exists r. rewrite Hv in Hr1. split; [exact Hr|]. split; [lia|]. rewrite Hr2, Hper. reflexivity.
Qed.

(** * Sleeps *)

(** Duration requested by each call of a history, in units; [d] the current setting. *)
Fixpoint sl_spec (d : Z) (ops : list slop) : list Z :=
  match ops with [] => [] | SlCall :: l => d :: sl_spec d l | SlCallWith x :: l => x :: sl_spec x l end.
(** The request is a valid timespec denoting x units. *)
Definition denotes (k : skind) (r : ts) (x : Z) : Prop :=
  0 <= nsec r < 1000000000 /\ 0 <= sec r /\ val r * per_sec k = x * 1000000000.
(** All durations given are unsigned longs. *)
Definition ulong (x : Z) : Prop := 0 <= x < 2 ^ 64.
Definition op_ulong (o : slop) : Prop := match o with SlCall => True | SlCallWith x => ulong x end.

Lemma sl_new_denotes k x : ulong x -> denotes k (sl_new k x) x.
Proof.
  unfold ulong, denotes, sl_new, val, per_sec. intros H.
  destruct k; cbn [sec nsec]; pose proof (Z.div_pos x 1000); pose proof (Z.div_pos x 1000000);
    pose proof (Z.div_pos x 1000000000); repeat split; lia.
Qed.

Lemma milli_run : forall ops req d, denotes Milli req d -> Forall op_ulong ops ->
  Forall2 (denotes Milli) (sl_run Milli req ops) (sl_spec d ops).
Proof.
  induction ops as [|o ops IH]; intros req d Hd HF; [constructor|].
  apply Forall_cons_iff in HF as [Ho HF]. destruct o as [|x]; cbn [sl_run sl_step sl_spec].
  - constructor; auto.
  - assert (denotes Milli (sl_set Milli req x) x) by (apply (sl_new_denotes Milli); exact Ho).
    constructor; auto.
Qed.

(** Micro and nano sleeps: correct while every duration is below a second. *)
Definition op_subsec (k : skind) (o : slop) : Prop := match o with SlCall => True | SlCallWith x => 0 <= x < per_sec k end.

Lemma wrap_s_small x : 0 <= x < 2 ^ 63 -> wrap_s 64 x = x.
Proof. intros H. unfold wrap_s. change (2 ^ 64) with 18446744073709551616. change (2 ^ (64 - 1)) with 9223372036854775808 in *.
  rewrite Z.mod_small by lia. iflia. Qed.

Lemma subsec_run k : forall ops req d, sec req = 0 -> denotes k req d -> Forall (op_subsec k) ops ->
  Forall2 (denotes k) (sl_run k req ops) (sl_spec d ops).
Proof.
  induction ops as [|o ops IH]; intros req d Hs Hd HF; [constructor|].
  apply Forall_cons_iff in HF as [Ho HF]. destruct o as [|x]; cbn [sl_run sl_step sl_spec].
  - constructor; auto.
  - cbn in Ho.
    assert (sec (sl_set k req x) = 0 /\ denotes k (sl_set k req x) x) as [H1 H2].
    { unfold denotes, val, sl_set, per_sec in *. destruct k; cbn [sec nsec].
      - split; [lia|]. repeat split; lia.
      - rewrite wrap_s_small by lia. lia.
      - rewrite wrap_s_small by lia. lia. }
    constructor; auto.
Qed.

Lemma nocalls_run k : forall n req d, denotes k req d ->
  Forall2 (denotes k) (sl_run k req (repeat SlCall n)) (repeat d n).
Proof. induction n; intros; cbn; constructor; auto. Qed.

(** * Printing *)

(** [s] is [-]i.f with exactly nine fractional digits, denoting v nanoseconds. *)
Definition fixed9 (v : Z) (s : list Z) : Prop :=
  exists neg ip fp, s = (if neg : bool then [45] else []) ++ ip ++ 46 :: fp /\
    forallb is_digit ip = true /\ ip <> [] /\ (hd 0 ip = 48 -> ip = [48]) /\
    forallb is_digit fp = true /\ length fp = 9%nat /\
    v = (if neg then -1 else 1) * (dval ip * 1000000000 + dval fp) /\ (neg = true -> v < 0).

Lemma dval_zeros k s : dval (zeros k ++ s) = dval s.
Proof.
  rewrite dval_app. assert (dval (zeros k) = 0) as ->; [|lia].
  unfold zeros, dval. induction k; [reflexivity|]. cbn [repeat fold_left]. exact IHk.
Qed.
Lemma digits_zeros k s : forallb is_digit s = true -> forallb is_digit (zeros k ++ s) = true.
Proof. intros H. induction k as [|k IH]; [exact H|]. exact IH. Qed.

Lemma pad_ok n : 0 <= n < 1000000000 ->
  let pad := if n <? 10 then zeros 8 else if n <? 100 then zeros 7 else if n <? 1000 then zeros 6
             else if n <? 10000 then zeros 5 else if n <? 100000 then zeros 4 else if n <? 1000000 then zeros 3
             else if n <? 10000000 then zeros 2 else if n <? 100000000 then zeros 1 else [] in
  forallb is_digit (pad ++ dec n) = true /\ length (pad ++ dec n) = 9%nat /\ dval (pad ++ dec n) = n.
Proof.
  intros Hn. pose proof (dec_canonical n ltac:(lia)) as Hc.
  assert (Hl : forall k m, 0 < m -> 10 ^ (m - 1) <= n \/ m = 1 -> n < 10 ^ m -> (Z.of_nat k + m = 9) ->
     forallb is_digit (zeros k ++ dec n) = true /\ length (zeros k ++ dec n) = 9%nat /\ dval (zeros k ++ dec n) = n).
  { intros k m Hm Hlo Hhi Hkm. destruct Hc as (H1 & H2 & H3 & H4).
    split; [apply digits_zeros; exact H1|]. split; [|rewrite dval_zeros; exact H3].
    assert (Hle : Zlen (dec n) <= m) by (eapply canonical_len; [split; eauto|lia|lia]).
    assert (Hge : m <= Zlen (dec n)).
    { destruct Hlo as [Hlo| ->].
      - destruct (Z_le_gt_dec m (Zlen (dec n))); [lia|]. exfalso.
        pose proof (dval_bound _ H1) as Hb. rewrite H3 in Hb.
        assert (10 ^ Zlen (dec n) <= 10 ^ (m - 1)) by (apply Z.pow_le_mono_r; lia). lia.
      - unfold Zlen. destruct (dec n); [congruence|cbn [length]; lia]. }
    rewrite app_length. unfold zeros. rewrite repeat_length. unfold Zlen in *. lia. }
  cbn zeta. destruct (n <? 10) eqn:E1; [apply (Hl 8%nat 1); cbn; lia|].
  destruct (n <? 100) eqn:E2; [apply (Hl 7%nat 2); cbn; lia|].
  destruct (n <? 1000) eqn:E3; [apply (Hl 6%nat 3); cbn; lia|].
  destruct (n <? 10000) eqn:E4; [apply (Hl 5%nat 4); cbn; lia|].
  destruct (n <? 100000) eqn:E5; [apply (Hl 4%nat 5); cbn; lia|].
  destruct (n <? 1000000) eqn:E6; [apply (Hl 3%nat 6); cbn; lia|].
  destruct (n <? 10000000) eqn:E7; [apply (Hl 2%nat 7); cbn; lia|].
  destruct (n <? 100000000) eqn:E8; [apply (Hl 1%nat 8); cbn; lia|].
  apply (Hl 0%nat 9); cbn; lia.
Qed.

Lemma print_ok t : norm t -> fixed9 (val t) (ts_print t).
Proof.
  intros (Hn & Hp & Hm). unfold ts_print, fixed9.
  destruct (pad_ok (Z.abs (nsec t)) ltac:(lia)) as (F1 & F2 & F3). cbn zeta in F1, F2, F3.
  assert (Hnum : num_str (Z.abs (nsec t)) = dec (Z.abs (nsec t))) by (unfold num_str; replace (Z.abs (nsec t) <? 0) with false by lia; reflexivity).
  rewrite Hnum.
  match type of F1 with forallb is_digit (?p ++ _) = true => set (pad := p) in * end.
  destruct (Z_lt_le_dec (val t) 0) as [Hneg|Hpos].
  - exists true, (dec (- sec t)), (pad ++ dec (Z.abs (nsec t))).
    assert (Hs : sec t <= 0) by (unfold val in Hneg; lia).
    destruct (dec_canonical (- sec t) ltac:(lia)) as (D1 & D2 & D3 & D4).
    split; [|split; [exact D1|split; [exact D2|split; [exact D4|split; [exact F1|split; [exact F2|split; [|auto]]]]]]].
    + unfold num_str. destruct (Z.eq_dec (sec t) 0) as [E|E].
      * rewrite E in *. unfold val in Hneg. rewrite E in Hneg. replace (nsec t <? 0) with true by lia. reflexivity.
      * replace (sec t =? 0) with false by lia. cbn [andb]. replace (sec t <? 0) with true by lia. reflexivity.
    + rewrite D3, F3. unfold val in *. lia.
  - exists false, (dec (sec t)), (pad ++ dec (Z.abs (nsec t))).
    assert (Hs : 0 <= sec t) by (unfold val in Hpos; lia).
    destruct (dec_canonical (sec t) ltac:(lia)) as (D1 & D2 & D3 & D4).
    split; [|split; [exact D1|split; [exact D2|split; [exact D4|split; [exact F1|split; [exact F2|split; [|discriminate]]]]]]].
    + replace (if (sec t =? 0) && (nsec t <? 0) then [45] else []) with (@nil Z).
      2:{ unfold val in Hpos. destruct (sec t =? 0) eqn:E1, (nsec t <? 0) eqn:E2; cbn; try reflexivity; lia. }
      unfold num_str. replace (sec t <? 0) with false by lia. reflexivity.
    + rewrite D3, F3. unfold val in *. lia.
Qed.

Lemma digits_no_dot s t s' t' : forallb is_digit s = true -> forallb is_digit s' = true ->
  s ++ 46 :: t = s' ++ 46 :: t' -> s = s' /\ t = t'.
Proof.
  revert s'. induction s as [|c s IH]; intros s' Hs Hs' H; destruct s' as [|c' s']; cbn [app forallb] in *.
  - split; [reflexivity|congruence].
  - injection H as <- H. cbn in Hs'. discriminate.
  - injection H as -> H. cbn in Hs. discriminate.
  - injection H as <- H. apply andb_true_iff in Hs as [_ Hs]. apply andb_true_iff in Hs' as [_ Hs'].
    destruct (IH s' Hs Hs' H) as [-> ->]. auto.
Qed.
Lemma fixed9_unique v v' s : fixed9 v s -> fixed9 v' s -> v = v'.
Proof.
  intros (neg & ip & fp & -> & Hi & Hne & _ & Hf & _ & -> & _) (neg' & ip' & fp' & He & Hi' & Hne' & _ & Hf' & _ & -> & _).
  assert (neg = neg') as <-.
  { destruct ip as [|c ip]; [congruence|]. destruct ip' as [|c' ip']; [congruence|]. cbn [forallb] in Hi, Hi'.
    unfold is_digit in Hi, Hi'. destruct neg, neg'; try reflexivity; cbn [app] in He; injection He as He _; lia. }
  apply app_inv_head in He. apply digits_no_dot in He as [-> ->]; auto.
Qed.

(** * Frequency monitor *)

(** Specification: exact times; the intervals seen since the last completed analysis. *)
Record fspec := FSpec { q_last : Z; q_an : Z; q_ints : list Z }.
(** A window summary: number of updates, shortest and longest interval (0 when there were none). *)
Definition zmin (l : list Z) : Z := fold_right Z.min 100000000000000 l.
Definition zmax (l : list Z) : Z := fold_right Z.max 0 l.
Definition frep (m : fmon) (q : fspec) (period : Z) : Prop :=
  reading (fm_last m) /\ reading (fm_last_an m) /\ val (fm_last m) = q_last q /\ val (fm_last_an m) = q_an q /\
  norm (fm_min m) /\ norm (fm_max m) /\ norm (fm_period m) /\ val (fm_period m) = period /\
  fm_count m = Zlen (q_ints q) /\ val (fm_min m) = zmin (q_ints q) /\ val (fm_max m) = zmax (q_ints q).

Lemma fm_update_ok debug m q P now : frep m q P -> reading now -> q_last q <= val now ->
  exists m', fm_update debug m now = Ok m' /\
    frep m' (FSpec (val now) (q_an q) ((val now - q_last q) :: q_ints q)) P /\ fd_conn m' = true.
Proof.
  intros (H1 & H2 & H3 & H4 & H5 & H6 & H7 & H8 & H9 & H10 & H11) Hn Hle. unfold fm_update.
  pose proof (reading_val _ Hn). pose proof (reading_val _ H1).
  destruct (ts_sub_ok debug now (fm_last m)) as (d & -> & Hd & Hdv); auto using reading_norm.
  { left. lia. }
  cbn [bind]. eexists. split; [reflexivity|]. split; [|reflexivity].
  destruct (cmp_ok d (fm_min m) Hd H5) as (_ & _ & _ & _ & Hlt & _).
  destruct (cmp_ok d (fm_max m) Hd H6) as (_ & _ & _ & _ & _ & Hgt).
  unfold frep. cbn [fm_last fm_last_an fm_min fm_max fm_period fm_count q_last q_an q_ints zmin zmax fold_right].
  rewrite Zlen_cons. fold (zmin (q_ints q)) (zmax (q_ints q)).
  repeat (split; [assumption||reflexivity|]).
  assert (Hm1 : norm (if ts_lt d (fm_min m) then d else fm_min m) /\
     val (if ts_lt d (fm_min m) then d else fm_min m) = Z.min (val now - q_last q) (zmin (q_ints q))).
  { rewrite <- H10, <- H3, <- Hdv. destruct (ts_lt d (fm_min m)) eqn:E; split; auto.
    - apply Hlt in eq_refl as E' || (assert (E' := proj1 Hlt eq_refl)). lia.
    - assert (~ val d < val (fm_min m)) by (intros X; apply Hlt in X; discriminate). lia. }
  assert (Hm2 : norm (if ts_gt d (fm_max m) then d else fm_max m) /\
     val (if ts_gt d (fm_max m) then d else fm_max m) = Z.max (val now - q_last q) (zmax (q_ints q))).
  { rewrite <- H11, <- H3, <- Hdv. destruct (ts_gt d (fm_max m)) eqn:E; split; auto.
    - assert (E' := proj1 Hgt eq_refl). lia.
    - assert (~ val d > val (fm_max m)) by (intros X; apply Hgt in X; discriminate). lia. }
  destruct Hm1, Hm2. repeat (split; [assumption|]). split; [lia|]. split; assumption.
Qed.

Lemma fm_analyse_ok debug m q P now : frep m q P -> reading now -> q_an q <= val now ->
  exists m', fm_analyse debug m now = Ok m' /\ val (fd_last m') = q_last q /\
   (if val now - q_an q >? P then
      frep m' (FSpec (q_last q) (val now) []) P /\ fd_count m' = Zlen (q_ints q) /\
      fd_conn m' = negb (Zlen (q_ints q) =? 0) /\ val (fd_interval m') = val now - q_an q /\
      val (fd_min m') = (if Zlen (q_ints q) =? 0 then 0 else zmin (q_ints q)) /\
      val (fd_max m') = (if Zlen (q_ints q) =? 0 then 0 else zmax (q_ints q))
    else frep m' q P /\ fd_count m' = fd_count m /\ fd_conn m' = fd_conn m /\ fd_min m' = fd_min m /\
         fd_max m' = fd_max m /\ fd_interval m' = fd_interval m).
Proof.
  intros (H1 & H2 & H3 & H4 & H5 & H6 & H7 & H8 & H9 & H10 & H11) Hn Hle. unfold fm_analyse.
  pose proof (reading_val _ Hn). pose proof (reading_val _ H2).
  destruct (ts_sub_ok debug now (fm_last_an m)) as (d & -> & Hd & Hdv); auto using reading_norm.
  { left. lia. }
  cbn [bind]. destruct (cmp_ok d (fm_period m) Hd H7) as (_ & _ & _ & _ & _ & Hgt).
  destruct (ts_gt d (fm_period m)) eqn:E.
  - assert (E' := proj1 Hgt eq_refl). replace (val now - q_an q >? P) with true by lia.
    rewrite <- H9. destruct (fm_count m =? 0) eqn:EC.
    + eexists. split; [reflexivity|]. cbn. split; [exact H3|].
      destruct (q_ints q) as [|i is] eqn:EI.
      * repeat split; cbn; auto; try lia; try apply H1; try apply H2; try apply H5; try apply H6; try apply H7; try apply Hn.
      * exfalso. rewrite Zlen_cons in H9. pose proof (Zlen_nonneg is). lia.
    + eexists. split; [reflexivity|]. cbn. split; [exact H3|].
      repeat split; cbn; auto; try lia; try apply H1; try apply H7; try apply Hn; unfold fm_hi, fm_lo; cbn; lia.
  - assert (~ val d > val (fm_period m)) by (intros X; apply Hgt in X; discriminate).
    replace (val now - q_an q >? P) with false by lia.
    eexists. split; [reflexivity|]. cbn. split; [exact H3|].
    repeat split; cbn; auto; try lia; try apply H1; try apply H2; try apply H5; try apply H6; try apply H7.
Qed.

(** What each analysis must report: the diagnostics stay as they were (connection set by any update) until a
    window longer than the period closes. *)
Definition fvals (l : list (fop * ts)) : list (fop * Z) := map (fun p => (fst p, val (snd p))) l.
Definition conn_on (r : freport) : freport := FRep (r_count r) true (r_min r) (r_max r).
Definition summary (ints : list Z) : freport :=
  match ints with [] => FRep 0 false 0 0 | _ => FRep (Zlen ints) true (zmin ints) (zmax ints) end.
Fixpoint fm_spec (P : Z) (q : fspec) (cur : freport) (l : list (fop * Z)) : list freport :=
  match l with
  | [] => []
  | (FUpdate, t) :: l' => fm_spec P (FSpec t (q_an q) ((t - q_last q) :: q_ints q)) (conn_on cur) l'
  | (FAnalyse, t) :: l' =>
      if t - q_an q >? P then summary (q_ints q) :: fm_spec P (FSpec (q_last q) t []) (summary (q_ints q)) l'
      else cur :: fm_spec P q cur l'
  end.

Lemma fm_new_ok P r0 r1 : norm P -> reading r0 -> reading r1 ->
  frep (fm_new P r0 r1) (FSpec (val r1) (val r0) []) (val P).
Proof.
  intros HP H0 H1. unfold frep, fm_new, fm_hi, fm_lo. cbn.
  repeat (split; [assumption || reflexivity || (unfold norm; cbn; lia)|]). reflexivity.
Qed.

Lemma fm_update_diag debug m now m' : fm_update debug m now = Ok m' -> freport_of m' = conn_on (freport_of m).
Proof.
  unfold fm_update. destruct (ts_sub debug now (fm_last m)); cbn [bind]; intros H; try discriminate.
  injection H as <-. reflexivity.
Qed.

Lemma fm_run_ok debug P : forall l m q,
  frep m q P -> Forall reading (map snd l) -> nondec (Z.max (q_last q) (q_an q)) (map snd l) ->
  exists m' reps, fm_run debug m l = Ok (m', reps) /\ reps = fm_spec P q (freport_of m) (fvals l).
Proof.
  induction l as [|[o now] l IH]; intros m q Hr HF Hnd; cbn [fm_run fvals map fm_spec fst snd] in *.
  - eauto.
  - apply Forall_cons_iff in HF as [Hn HF]. destruct Hnd as [Hle Hnd]. destruct o.
    + destruct (fm_update_ok debug m q P now Hr Hn ltac:(lia)) as (m1 & Hm1 & Hr1 & _).
      rewrite Hm1. cbn [bind]. destruct (IH _ _ Hr1 HF) as (m' & reps & H & Hs).
      { cbn [q_last q_an]. replace (Z.max (val now) (q_an q)) with (val now) by lia. exact Hnd. }
      exists m', reps. split; [exact H|]. rewrite Hs. rewrite (fm_update_diag _ _ _ _ Hm1). reflexivity.
    + destruct (fm_analyse_ok debug m q P now Hr Hn ltac:(lia)) as (m1 & Hm1 & _ & Hc). rewrite Hm1. cbn [bind].
      destruct (val now - q_an q >? P) eqn:E.
      * destruct Hc as (Hr1 & Hcount & Hconn & _ & Hmin & Hmax).
        assert (Hrep : freport_of m1 = summary (q_ints q)).
        { unfold freport_of, summary. change ns_of with val. rewrite Hcount, Hconn, Hmin, Hmax.
          destruct (q_ints q) as [|i is]; [reflexivity|].
          assert (Zlen (i :: is) =? 0 = false) as -> by (rewrite Zlen_cons; pose proof (Zlen_nonneg is); lia). reflexivity. }
        destruct (IH _ _ Hr1 HF) as (m' & reps & H & Hs).
        { cbn [q_last q_an]. replace (Z.max (q_last q) (val now)) with (val now) by lia. exact Hnd. }
        rewrite H. cbn [bind]. eexists _, _. split; [reflexivity|]. cbn [snd]. rewrite Hs, Hrep. reflexivity.
      * destruct Hc as (Hr1 & H1 & H2 & H3 & H4 & _).
        assert (Hrep : freport_of m1 = freport_of m) by (unfold freport_of; congruence).
        assert (Hnd' : nondec (Z.max (q_last q) (q_an q)) (map snd l)).
        { clear - Hnd Hle. destruct (map snd l) as [|t k]; [exact I|]. cbn in *. split; [lia|apply Hnd]. }
        destruct (IH _ _ Hr1 HF Hnd') as (m' & reps & H & Hs).
        rewrite H. cbn [bind]. eexists _, _. split; [reflexivity|]. cbn [snd]. rewrite Hs, Hrep. reflexivity.
Qed.
