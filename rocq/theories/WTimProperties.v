(** C220-C222: time stamps, stopwatches, sleeps and priorities on Windows. *)
From Coq Require Import ZArith List Bool Lia.
Import ListNotations.
From Verif Require Import WTimModel.
Open Scope Z_scope.

(** Nanoseconds denoted by a time stamp. *)
Definition nanos (t : stamp_t) : Z := t_sec t * 1000000000 + t_nsec t.
Definition proper (t : stamp_t) : Prop := 0 <= t_sec t /\ 0 <= t_nsec t < 1000000000.

(** * C220 *)
(** A new time stamp holds the time of the clock, exactly and normalised. *)
Theorem C220_now : forall ticks, 0 <= ticks -> nanos (stamp_now ticks) = ticks /\ proper (stamp_now ticks).
Proof.
  intros n H. unfold nanos, proper, stamp_now. cbn [t_sec t_nsec]. rewrite Z.quot_div_nonneg, Z.rem_mod_nonneg by lia.
  pose proof (Z.div_mod n 1000000000). pose proof (Z.mod_pos_bound n 1000000000). pose proof (Z.div_pos n 1000000000). lia.
Qed.
Print Assumptions C220_now.
Lemma nanos_minus a b : nanos (minus a b) = nanos a - nanos b.
Proof. unfold minus, nanos. cbv beta zeta. destruct (_ && _); [cbn; lia|]. destruct (_ && _); cbn; lia. Qed.
(** A duration in normal form: less than a second of nanoseconds, of the sign of the seconds. *)
Definition normal (t : stamp_t) : Prop := Z.abs (t_nsec t) < 1000000000 /\ (0 <= t_sec t /\ 0 <= t_nsec t \/ t_sec t <= 0 /\ t_nsec t <= 0).
Lemma normal_minus a b : proper a -> proper b -> normal (minus a b).
Proof.
  unfold proper, normal, minus. intros A B. cbv beta zeta.
  destruct ((0 <? t_sec a - t_sec b) && (t_nsec a - t_nsec b <? 0)) eqn:E1; [cbn [t_sec t_nsec]; lia|].
  destruct ((t_sec a - t_sec b <? 0) && (0 <? t_nsec a - t_nsec b)) eqn:E2; cbn [t_sec t_nsec]; lia.
Qed.
(** A watch never restarted measures from its construction, whatever else was done with it... *)
Definition spec_elapsed (r0 : Z) (c : swop * Z) (r : option stamp_t) : Prop :=
  match fst c with Elapsed => exists t, r = Some t /\ nanos t = snd c - r0 /\ normal t | Restart => r = None | Split => exists t, r = Some t end.
Lemma sw_start w o now : start_time (fst (sw_step w o now)) = start_time w.
Proof. destruct o; reflexivity. Qed.
Lemma run_elapsed r0 : forall l w w1 rs, 0 <= r0 -> start_time w = stamp_now r0 -> Forall (fun c => 0 <= snd c) l -> sw_run w l = (w1, rs) -> Forall2 (spec_elapsed r0) l rs.
Proof.
  induction l as [|[o now] l IH]; intros w w1 rs R S F E; cbn [sw_run] in E; [injection E as <- <-; constructor|].
  inversion F as [|? ? F1 F2]; subst. cbn [snd] in F1. pose proof (sw_start w o now) as SS. destruct (sw_step w o now) as [w2 r] eqn:ST. cbn [fst] in SS. destruct (sw_run w2 l) as [w3 rs'] eqn:RN. injection E as <- <-.
  constructor; [|apply (IH w2 w3 rs' R); [congruence|exact F2|exact RN]]. unfold spec_elapsed. cbn [fst snd]. destruct o; cbn [sw_step] in ST; injection ST as <- <-; [reflexivity| |eauto].
  eexists. split; [reflexivity|]. split; [rewrite nanos_minus, S, !(fun x h => proj1 (C220_now x h)) by assumption; reflexivity|].
  apply normal_minus; [exact (proj2 (C220_now now F1))|rewrite S; exact (proj2 (C220_now r0 R))].
Qed.
Theorem C220_elapsed_partial : forall r0 r1 l w rs, 0 <= r0 -> 0 <= r1 -> Forall (fun c => 0 <= snd c) l -> (forall c, In c l -> fst c <> Restart) ->
  sw_run (sw_new r0 r1) l = (w, rs) -> Forall2 (spec_elapsed r0) l rs.
Proof. intros r0 r1 l w rs H0 H1 F _ E. exact (run_elapsed r0 l (sw_new r0 r1) w rs H0 eq_refl F E). Qed.
Print Assumptions C220_elapsed_partial.
(** ... but restart() does not restart it: after any restart elapsed() still counts from the construction... *)
Theorem C220_restart_refuted : forall r0 r1 pre t0 t, 0 <= r0 -> 0 <= r1 -> Forall (fun c => 0 <= snd c) pre -> 0 <= t0 <= t ->
  exists w rs d, sw_run (sw_new r0 r1) (pre ++ [(Restart, t0); (Elapsed, t)]) = (w, rs) /\ last rs None = Some d /\ nanos d = t - r0.
Proof.
  intros r0 r1 pre t0 t H0 H1 F T. destruct (sw_run (sw_new r0 r1) (pre ++ [(Restart, t0); (Elapsed, t)])) as [w rs] eqn:E. exists w, rs.
  assert (F2 : Forall2 (spec_elapsed r0) (pre ++ [(Restart, t0); (Elapsed, t)]) rs).
  { apply (run_elapsed r0 _ (sw_new r0 r1) w rs H0 eq_refl); [|exact E]. apply Forall_app. split; [exact F|]. repeat constructor; cbn; lia. }
  apply Forall2_app_inv_l in F2 as (a & b & _ & B & ->). inversion B as [|? ? ? ? _ B2]; subst. inversion B2 as [|? ? ? ? B3 B4]; subst. inversion B4; subst. cbn in B3. destruct B3 as (d & -> & D & _).
  exists d. split; [reflexivity|]. split; [|exact D]. change [y; Some d] with ([y] ++ [Some d]). rewrite app_assoc. apply last_last.
Qed.
Print Assumptions C220_restart_refuted.
(** ... and split() answers zero, however much time has passed. *)
Theorem C220_split_refuted : forall r0 r1 l w rs i t, sw_run (sw_new r0 r1) l = (w, rs) -> nth_error l i = Some (Split, t) -> exists d, nth_error rs i = Some (Some d) /\ nanos d = 0.
Proof.
  intros r0 r1. generalize (sw_new r0 r1). intros w0 l. revert w0. induction l as [|[o now] l IH]; intros w0 w rs i t E N; [destruct i; discriminate|].
  cbn [sw_run] in E. destruct (sw_step w0 o now) as [w2 r] eqn:ST. destruct (sw_run w2 l) as [w3 rs'] eqn:RN. injection E as <- <-. destruct i as [|i]; cbn [nth_error] in *; [|exact (IH w2 w3 rs' i t RN N)].
  injection N as -> ->. cbn [sw_step] in ST. injection ST as <- <-. eexists. split; [reflexivity|]. unfold restamp. rewrite nanos_minus. lia.
Qed.
Print Assumptions C220_split_refuted.
Example C220_case : exists w a b, sw_run (sw_new 5 6) [(Elapsed, 2500000005); (Split, 2500000010)] = (w, [Some a; Some b]) /\ a = Stamp 2 500000000 /\ b = Stamp 0 0.
Proof. eexists _, _, _. split; reflexivity || (split; reflexivity). Qed.

(** * C221: sleeps *)
(** Units per second, and what it means to ask for x units. *)
Definition units (k : sleeper) : Z := match k with MilliS => 1000 | MicroS => 1000000 | NanoS => 1000000000 end.
Definition asks (k : sleeper) (r : stamp_t) (x : Z) : Prop := proper r /\ nanos r * units k = x * 1000000000.
Definition ulong32 (x : Z) : Prop := 0 <= x < 4294967296.
Definition op_ok (o : option Z) : Prop := match o with Some x => ulong32 x | None => True end.
(** The duration last given. *)
Fixpoint given (x : Z) (l : list (option Z)) : Z := match l with [] => x | Some y :: tl => given y tl | None :: tl => given x tl end.

Lemma to_long_small x : 0 <= x < 2147483648 -> to_long x = x.
Proof. intros H. unfold to_long. cbv zeta. rewrite Z.mod_small by lia. replace (x <? 2 ^ 31) with true by (symmetry; apply Z.ltb_lt; lia). reflexivity. Qed.
Lemma new_asks k x : 0 <= x -> asks k (sleep_new k x) x.
Proof.
  intros H. unfold asks, proper, nanos, sleep_new, units.
  pose proof (Z.div_pos x 1000). pose proof (Z.div_pos x 1000000). pose proof (Z.div_pos x 1000000000).
  pose proof (Z.mod_pos_bound x 1000). pose proof (Z.mod_pos_bound x 1000000). pose proof (Z.mod_pos_bound x 1000000000).
  pose proof (Z.div_mod x 1000). pose proof (Z.div_mod x 1000000). pose proof (Z.div_mod x 1000000000).
  destruct k; cbn [t_sec t_nsec]; rewrite to_long_small by lia; lia.
Qed.
(** Every new sleeper asks for its duration, and a MilliSleep asks for the duration given last over every history. *)
Theorem C221_new : forall k x n, ulong32 x -> asks k (sleep_calls k (sleep_new k x) (repeat None n)) x.
Proof. intros k x n H. induction n as [|n IH]; [apply new_asks; unfold ulong32 in H; lia|exact IH]. Qed.
Print Assumptions C221_new.
Lemma milli_history l : forall r x, asks MilliS r x -> Forall op_ok l -> asks MilliS (sleep_calls MilliS r l) (given x l).
Proof.
  induction l as [|[y|] l IH]; intros r x A F; inversion F as [|? ? F1 F2]; subst; cbn [sleep_calls sleep_call given]; auto.
  apply IH; [|exact F2]. apply (new_asks MilliS). cbn in F1. unfold ulong32 in F1. lia.
Qed.
Theorem C221_milli : forall x l, ulong32 x -> Forall op_ok l -> asks MilliS (sleep_calls MilliS (sleep_new MilliS x) l) (given x l).
Proof. intros x l H F. apply milli_history; [apply new_asks; unfold ulong32 in H; lia|exact F]. Qed.
Print Assumptions C221_milli.
Lemma sec_kept k l : k <> MilliS -> forall r, t_sec (sleep_calls k r l) = t_sec r.
Proof. intros K. induction l as [|o l IH]; intros r; [reflexivity|]. cbn [sleep_calls]. rewrite IH. destruct o, k; try reflexivity; contradiction. Qed.
Lemma calls_snoc k l o : forall r, sleep_calls k r (l ++ [o]) = sleep_call k (sleep_calls k r l) o.
Proof. induction l as [|a l IH]; intros r; [reflexivity|]. cbn [app sleep_calls]. apply IH. Qed.
Lemma to_long_mod x : exists q, to_long x = x - q * 4294967296.
Proof.
  unfold to_long. cbv zeta. pose proof (Z.div_mod x (2 ^ 32) ltac:(lia)) as D. change (2 ^ 32) with 4294967296 in *. destruct (x mod 4294967296 <? 2 ^ 31).
  - exists (x / 4294967296). lia.
  - exists (x / 4294967296 + 1). lia.
Qed.
(** Sleeping for a given number of micro- or nanoseconds asks for it exactly if that and the duration of the construction are both
    below one second (partial: the statement without the condition is refuted below). *)
Theorem C221_call_partial : forall k x l y, k <> MilliS -> ulong32 x -> ulong32 y ->
  (asks k (sleep_calls k (sleep_new k x) (l ++ [Some y])) y <-> x < units k /\ y < units k).
Proof.
  intros k x l y K X Y. rewrite calls_snoc. assert (S0 : t_sec (sleep_calls k (sleep_new k x) l) = x / units k) by (rewrite sec_kept by exact K; destruct k; reflexivity || contradiction).
  assert (E : sleep_call k (sleep_calls k (sleep_new k x) l) (Some y) = Stamp (x / units k) (to_long (match k with MicroS => 1000 * y | _ => y end))).
  { rewrite <- S0. destruct k; reflexivity || contradiction. }
  rewrite E. unfold asks, proper, nanos, ulong32 in *. cbn [t_sec t_nsec]. split.
  - intros ((P1 & P2) & P3). assert (Q : x / units k = 0 /\ to_long (match k with MicroS => 1000 * y | _ => y end) < 1000000000 /\ to_long (match k with MicroS => 1000 * y | _ => y end) * units k = y * 1000000000).
    { destruct k; [contradiction| |]; cbn [units] in *.
      - destruct (to_long_mod (1000 * y)) as (q & Q). rewrite Q in *. assert (x / 1000000 < 4295) by (apply Z.div_lt_upper_bound; lia). split; [|lia].
        assert (x / 1000000 * 1953125 = q * 8388608) by lia. pose proof (Z.div_pos x 1000000). lia.
      - destruct (to_long_mod y) as (q & Q). rewrite Q in *. assert (x / 1000000000 < 5) by (apply Z.div_lt_upper_bound; lia). split; [|lia]. pose proof (Z.div_pos x 1000000000). lia. }
    destruct Q as (Q1 & Q2 & Q3). apply Z.div_small_iff in Q1; [|destruct k; cbn; lia]. destruct k; cbn [units] in *; [contradiction| |]; lia.
  - intros [H1 H2]. rewrite (Z.div_small x) by lia. rewrite to_long_small by (destruct k; cbn [units] in *; try contradiction; lia). destruct k; cbn [units] in *; [contradiction| |]; lia.
Qed.
Print Assumptions C221_call_partial.
(** Asking for more can ask for a negative time, for a time already over, or for the old seconds. *)
Theorem C221_micro_refuted : exists y, ulong32 y /\ t_sec (sleep_calls MicroS (sleep_new MicroS 0) [Some y]) = 0 /\ t_nsec (sleep_calls MicroS (sleep_new MicroS 0) [Some y]) < 0.
Proof. exists 3000000. repeat split; vm_compute; congruence || reflexivity. Qed.
Print Assumptions C221_micro_refuted.
Theorem C221_stale_refuted : exists x y, ulong32 x /\ ulong32 y /\ nanos (sleep_calls NanoS (sleep_new NanoS x) [Some y]) >= 3000000000 /\ y < 1000.
Proof. exists 3000000000, 500. unfold ulong32. repeat split; try lia. vm_compute. congruence. Qed.
Print Assumptions C221_stale_refuted.
Example C221_case : sleep_calls MilliS (sleep_new MilliS 2500) [None; Some 61001; None] = Stamp 61 1000000.
Proof. reflexivity. Qed.

(** * C222: priorities *)
Definition rank (p : prio) : Z :=
  match p with PDefault => 0 | PUnknown => 1 | PBackground => 2 | PLow => 3 | PNormal => 4 | PHigh => 5 | PCritical => 6 | PReal1 => 7 | PReal2 => 8 | PReal3 => 9 | PReal4 => 10 end.
(** What is set is read back, the real time levels as the first of them. *)
Theorem C222_read_back : forall debug level p level1, set_level debug level p true = (level1, PTrue) ->
  get_level level1 = (if 7 <=? rank p then PReal1 else p).
Proof. intros debug level p level1 E. destruct p; cbn in E; injection E as <-; try reflexivity; destruct debug; discriminate. Qed.
Print Assumptions C222_read_back.
(** It succeeds for every priority but the default and the unknown, if the system agrees, and otherwise changes nothing. *)
Theorem C222_success : forall debug level p ok, (snd (set_level debug level p ok) = PTrue <-> ok = true /\ 2 <= rank p) /\
  (snd (set_level debug level p ok) <> PTrue -> fst (set_level debug level p ok) = level).
Proof. intros debug level p ok. destruct p, ok, debug; cbn; (split; [split; [intros; split; congruence || lia|intros [? ?]; congruence || lia]|congruence]). Qed.
Print Assumptions C222_success.
(** What the caller learns otherwise: debug builds throw, except for the real time levels; the others answer false. *)
Theorem C222_failure : forall debug level p ok, snd (set_level debug level p ok) <> PTrue ->
  snd (set_level debug level p ok) = (if debug && (rank p <? 7) then PThrow else PFalse).
Proof. intros debug level p ok H. destruct p, ok, debug; cbn in *; congruence. Qed.
Print Assumptions C222_failure.
(** A higher priority is never a lower level of Windows, and a strictly higher one below real time is strictly higher. *)
Theorem C222_monotone : forall debug a b p q, 2 <= rank p <= rank q ->
  fst (set_level debug a p true) <= fst (set_level debug b q true) /\ (rank p < rank q -> rank p < 7 -> fst (set_level debug a p true) < fst (set_level debug b q true)).
Proof. intros debug a b p q H. destruct p, q; cbn in *; unfold TIME_CRITICAL, HIGHEST, ABOVE_NORMAL, NORMAL, BELOW_NORMAL, IDLE; lia. Qed.
Print Assumptions C222_monotone.
(** The failure to set a real time priority does not throw in a debug build, as the failure to set another does. *)
Theorem C222_real_time_refuted : forall level, set_level true level PReal1 false = (level, PFalse) /\ set_level true level PHigh false = (level, PThrow).
Proof. intros. split; reflexivity. Qed.
Print Assumptions C222_real_time_refuted.
(** A level that was not set by this library is unknown. *)
Theorem C222_foreign : forall level, -32 <= level < 32 -> (get_level level = PUnknown <-> ~ In level [15; 2; 1; 0; -1; -15]).
Proof.
  intros l H. unfold get_level, dword, TIME_CRITICAL, HIGHEST, ABOVE_NORMAL, NORMAL, BELOW_NORMAL, IDLE. cbn [In].
  assert (E : forall c, -32 <= c < 32 -> (l mod 2 ^ 32 =? c mod 2 ^ 32) = (l =? c)).
  { intros c C. change (2 ^ 32) with 4294967296. destruct (Z.eqb_spec l c) as [->|N]; [apply Z.eqb_refl|]. apply Z.eqb_neq. intros M. apply N. pose proof (Z.div_mod l 4294967296). pose proof (Z.div_mod c 4294967296). lia. }
  cbv zeta. rewrite !E by lia. repeat match goal with |- context [l =? ?c] => destruct (Z.eqb_spec l c) as [->|?] end; (split; [intros; try discriminate; intros ?; lia|intros N; try reflexivity; exfalso; apply N; lia]).
Qed.
Print Assumptions C222_foreign.
Example C222_case : set_level true 0 PCritical true = (2, PTrue) /\ get_level (-15) = PBackground.
Proof. split; reflexivity. Qed.
