(** Theorems about ecl_threads (C33-C36, C39 and the related C95-C106). *)
From Verif Require Import Base ThreadModel ThreadProofs.

(** ** C33: mutual exclusion. *)
Theorem C33_mutual_exclusion : forall debug sch s tr,
  m_run debug m_init sch = Some (s, tr) -> disciplined tr ->
  (forall t u, inside tr t -> inside tr u -> t = u) /\ (forall u, ~ In (Undefined u) tr).
Proof.
  intros d sch s tr R DI. destruct (run_inv_disc d sch s tr R DI) as ((I1 & _) & _ & NU).
  split; auto. intros t u HT HU. apply insideb_spec in HT, HU.
  destruct (I1 _ HT) as [A _], (I1 _ HU) as [B _]. congruence.
Qed.
Print Assumptions C33_mutual_exclusion.

(** In debug builds (error-checking mutex) exclusion holds even for clients that unlock what they
    do not hold or lock twice. *)
Theorem C33_mutual_exclusion_debug_any_client : forall sch s tr,
  m_run true m_init sch = Some (s, tr) -> forall t u, inside tr t -> inside tr u -> t = u.
Proof.
  intros sch s tr R t u HT HU. destruct (run_inv_debug sch s tr R) as (I1 & _).
  apply insideb_spec in HT, HU.
  destruct (I1 _ HT) as [A _], (I1 _ HU) as [B _]. congruence.
Qed.
Print Assumptions C33_mutual_exclusion_debug_any_client.

(** trylock() always completes on its own, whatever the other threads are doing; it is refused
    while somebody is inside and succeeds when everybody is at rest outside. *)
Theorem C33_trylock : forall debug sch s tr t,
  m_run debug m_init sch = Some (s, tr) -> disciplined tr -> m_pc s t = Rest ->
  ((exists s1, m_run debug s [(t, CallTry)] = Some (s1, [Refused t])) \/
   (exists s1, m_run debug s [(t, CallTry); (t, Go); (t, Go)] = Some (s1, [Acquired t]))) /\
  ((exists u, inside tr u) -> exists s1, m_run debug s [(t, CallTry)] = Some (s1, [Refused t])) /\
  ((forall u, m_pc s u = Rest /\ ~ inside tr u) ->
   exists s1, m_run debug s [(t, CallTry); (t, Go); (t, Go)] = Some (s1, [Acquired t])).
Proof.
  intros d sch s tr t R DI PC. destruct (run_inv_disc d sch s tr R DI) as ((I1 & _ & I3) & _ & _).
  assert (SUC : m_owner s = None -> exists s1, m_run d s [(t, CallTry); (t, Go); (t, Go)] = Some (s1, [Acquired t])).
  { intros OW.
    assert (E1 : m_step d s t CallTry = Some (MkM (Some t) (m_count s) (fupd (m_pc s) t InLoad), []))
      by (unfold m_step; now rewrite PC, OW).
    cbn [m_run]. rewrite E1.
    match goal with |- context [m_step d ?x t Go] =>
      assert (E2 : m_step d x t Go = Some (m_goto x t (InStore (m_count x)), []))
        by (unfold m_step; cbn [m_pc]; now rewrite fupd_same); rewrite E2 end.
    match goal with |- context [m_step d ?x t Go] =>
      assert (E3 : m_step d x t Go = Some (MkM (m_owner x) (u32 (m_count s + 1)) (fupd (m_pc x) t Rest), [Acquired t]))
        by (unfold m_step, m_goto; cbn [m_pc]; now rewrite fupd_same); rewrite E3 end.
    eexists; reflexivity. }
  assert (REF : forall v, m_owner s = Some v -> exists s1, m_run d s [(t, CallTry)] = Some (s1, [Refused t])).
  { intros v OW. cbn [m_run]. unfold m_step. rewrite PC, OW. eexists; reflexivity. }
  split; [|split].
  - destruct (m_owner s) eqn:OW; eauto.
  - intros [u HU]. apply insideb_spec in HU. destruct (I1 _ HU). eauto.
  - intros H. apply SUC. destruct (m_owner s) as [v|] eqn:OW; auto. exfalso.
    destruct (H v) as [PV NV]. destruct (I3 v eq_refl) as [Q|[Q|Q]]; try (rewrite PV in Q; discriminate).
    apply NV. now apply insideb_spec.
Qed.
Print Assumptions C33_trylock.

(** A thread blocked in lock() gets in as soon as nobody is inside and no release is under way. *)
Theorem C33_waiters_get_in : forall debug sch s tr t,
  m_run debug m_init sch = Some (s, tr) -> disciplined tr -> quiescent s ->
  (forall u, ~ inside tr u) -> m_pc s t = LkWait ->
  exists s1, m_step debug s t Go = Some (s1, [Acquired t]).
Proof.
  intros d sch s tr t R DI Q NI PC. destruct (run_inv_disc d sch s tr R DI) as ((_ & _ & I3) & _ & _).
  unfold m_step. rewrite PC. destruct (m_owner s) as [v|] eqn:OW; [|eexists; reflexivity].
  exfalso. destruct (I3 v eq_refl) as [A|A].
  - apply (NI v). now apply insideb_spec.
  - destruct (Q v) as [P|P]; rewrite P in A; cbn in A; intuition discriminate.
Qed.
Print Assumptions C33_waiters_get_in.

(** Non-vacuity: thread 0 locks, thread 1 waits, thread 2's trylock is refused, thread 0 unlocks,
    thread 1 gets in. *)
Definition contention : list (nat * mact) :=
  [(0, CallLock); (0, Go); (0, Go); (0, Go); (1, CallLock); (1, Go); (1, Go); (2, CallTry);
   (0, CallUnlock); (0, Go); (0, Go); (0, Go); (1, Go)]%nat.

Lemma contention_disciplined tr s : m_run false m_init contention = Some (s, tr) -> disciplined tr.
Proof.
  intros R. vm_compute in R. injection R as _ <-. apply disc_check. reflexivity.
Qed.

Example C33_example : exists s tr, m_run false m_init contention = Some (s, tr) /\ disciplined tr /\
  tr = [LockCalled 0; Acquired 0; LockCalled 1; Refused 2; UnlockCalled 0; Unlocked 0; Acquired 1]%nat /\
  inside tr 1.
Proof.
  destruct (m_run false m_init contention) as [[s tr]|] eqn:R; [|vm_compute in R; discriminate].
  exists s, tr. split; [reflexivity|]. split; [now apply (contention_disciplined tr s)|].
  vm_compute in R. injection R as _ <-. split; [reflexivity|]. apply insideb_spec. reflexivity.
Qed.

(** ** C34: locks() counts the threads inside and blocked in lock(), at quiescent points, when no
    thread is preempted in the middle of an update of the counter. *)
Theorem C34_locks_counts_holders_and_waiters : forall debug sch s tr,
  m_run debug m_init sch = Some (s, tr) -> uninterrupted debug sch -> disciplined tr -> no_relock tr ->
  quiescent s ->
  exists l, NoDup l /\ (forall t, In t l <-> inside tr t \/ waiting tr t) /\ m_locks s = u32 (Zlen l).
Proof. exact locks_count. Qed.
Print Assumptions C34_locks_counts_holders_and_waiters.

Lemma contention_uninterrupted : uninterrupted false contention.
Proof.
  intros sch1 u a sch2 s tr t E R ST. unfold contention in E.
  do 14 (destruct sch1 as [|x sch1]; cbn [app] in E;
         [ try discriminate E; injection E as Eu _ _; subst u;
           vm_compute in R; injection R as <- _; cbn in ST; unfold fupd in ST;
           destruct t as [|[|[|t]]]; cbn in ST; try discriminate ST; reflexivity
         | try (destruct sch1; discriminate E); try discriminate E; injection E as Ex E; subst x ]).
Qed.

Lemma contention_no_relock tr s : m_run false m_init contention = Some (s, tr) -> no_relock tr.
Proof.
  intros R. vm_compute in R. injection R as _ <-. apply relock_check. reflexivity.
Qed.

Example C34_example : exists s tr, m_run false m_init contention = Some (s, tr) /\
  uninterrupted false contention /\ disciplined tr /\ no_relock tr /\ quiescent s /\ m_locks s = 1.
Proof.
  destruct (m_run false m_init contention) as [[s tr]|] eqn:R; [|vm_compute in R; discriminate].
  exists s, tr. split; [reflexivity|]. split; [exact contention_uninterrupted|].
  split; [now apply (contention_disciplined tr s)|]. split; [now apply (contention_no_relock tr s)|].
  vm_compute in R. injection R as <- _. split; [|reflexivity].
  intros [|[|[|t]]]; left; reflexivity.
Qed.

(** ** C95: under arbitrary interleavings the counter is wrong: two threads lock and unlock
    properly, nobody is inside any more, and locks() reports 4294967295. *)
Theorem C95_concurrent_lock_counter_refuted :
  exists sch s tr, m_run false m_init sch = Some (s, tr) /\ disciplined tr /\ no_relock tr /\
    (forall t, m_pc s t = Rest) /\ (forall t, ~ inside tr t) /\ m_locks s = 4294967295.
Proof.
  pose (sch := [(0, CallLock); (1, CallLock); (0, Go); (1, Go); (0, Go); (1, Go); (0, Go);
     (0, CallUnlock); (0, Go); (0, Go); (0, Go); (1, Go);
     (1, CallUnlock); (1, Go); (1, Go); (1, Go)]%nat).
  destruct (m_run false m_init sch) as [[s tr]|] eqn:R; [|vm_compute in R; discriminate].
  exists sch, s, tr. split; [exact R|]. vm_compute in R. injection R as <- <-.
  split; [|split; [|split; [|split]]].
  - apply disc_check. reflexivity.
  - apply relock_check. reflexivity.
  - intros [|[|t]]; reflexivity.
  - intros t HI. apply insideb_spec in HI. destruct t as [|[|t]]; vm_compute in HI; discriminate.
  - reflexivity.
Qed.
Print Assumptions C95_concurrent_lock_counter_refuted.

(** ** C96: a lock() that fails leaves the counter changed: a thread that locks twice in a debug
    build gets the exception, unlocks once, and locks() still reports 1. *)
Theorem C96_failed_lock_leaves_counter_refuted :
  exists sch s tr, m_run true m_init sch = Some (s, tr) /\ disciplined tr /\ In (Threw 0%nat) tr /\
    (forall t, m_pc s t = Rest) /\ (forall t, ~ inside tr t) /\ m_locks s = 1.
Proof.
  pose (sch := [(0, CallLock); (0, Go); (0, Go); (0, Go); (0, CallLock); (0, Go); (0, Go); (0, Go);
     (0, CallUnlock); (0, Go); (0, Go); (0, Go)]%nat).
  destruct (m_run true m_init sch) as [[s tr]|] eqn:R; [|vm_compute in R; discriminate].
  exists sch, s, tr. split; [exact R|]. vm_compute in R. injection R as <- <-.
  split; [|split; [|split; [|split]]].
  - apply disc_check. reflexivity.
  - cbn; tauto.
  - intros [|t]; reflexivity.
  - intros t HI. apply insideb_spec in HI. destruct t as [|t]; vm_compute in HI; discriminate.
  - reflexivity.
Qed.
Print Assumptions C96_failed_lock_leaves_counter_refuted.

(** ** C97: trylock(duration) should succeed when the mutex is released within the duration.
    It takes the duration for an absolute time: after 1970 plus the duration it never waits. *)
Theorem C97_timed_trylock_waits_refuted :
  exists now duration free_at, 0 < duration /\ now < free_at <= now + duration /\
    timed_result now duration free_at = false.
Proof. exists (1700000000 * 10 ^ 9), (5 * 10 ^ 9), (1700000001 * 10 ^ 9). repeat split; vm_compute; congruence. Qed.
Print Assumptions C97_timed_trylock_waits_refuted.

(** What remains true: it succeeds on a free mutex, and for any duration that is not longer than
    the time since the epoch it returns false at once on a held mutex. *)
Theorem C97_timed_trylock_partial : forall now duration free_at,
  (free_at <= now -> timed_result now duration free_at = true) /\
  (duration <= now < free_at -> timed_result now duration free_at = false) /\
  (timed_result now duration free_at = true <-> free_at <= now \/ free_at <= duration).
Proof. intros; unfold timed_result, timed_deadline; repeat split; intros; lia. Qed.
Print Assumptions C97_timed_trylock_partial.

(** ** C35: a threadable started from one thread runs at most one worker. *)
Theorem C35_at_most_one_worker : forall debug c ok sch s tr,
  Forall (one_caller c ok) sch -> t_run debug t_init sch = Some (s, tr) ->
  (finished tr <= launched tr <= finished tr + 1)%nat.
Proof.
  intros d c ok sch s tr FA R. destruct (tinv_run d c ok sch s tr FA R) as [B _ _ _ ON _]. lia.
Qed.
Print Assumptions C35_at_most_one_worker.

(** start() while the worker runs returns false and launches nothing; start() when no worker runs
    launches one and returns true. *)
Theorem C35_start_result : forall debug c sch s tr,
  Forall (one_caller c true) sch -> t_run debug t_init sch = Some (s, tr) -> t_pc s c = SRest ->
  (launched tr <> finished tr ->
     exists s1, t_run debug s [TStart c; TGo c true] = Some (s1, [NotStarted c])) /\
  (launched tr = finished tr ->
     exists s1, t_run debug s [TStart c; TGo c true; TGo c true; TGo c true] = Some (s1, [Launched; Started c])).
Proof.
  intros d c sch s tr FA R PC. destruct (tinv_run d c true sch s tr FA R) as [B F SE C ON K].
  split; intros H.
  - assert (FL : t_flag s = true).
    { destruct (t_flag s) eqn:Q; auto. specialize (F eq_refl). lia. }
    cbn [t_run]. unfold t_step at 1. rewrite PC. unfold t_step at 1. cbn [t_pc t_flag].
    rewrite fupd_same, FL. eexists; reflexivity.
  - assert (FL : t_flag s = false).
    { destruct (t_flag s) eqn:Q; auto. destruct (K eq_refl eq_refl) as [A|A]; [lia|congruence]. }
    cbn [t_run]. unfold t_step at 1. rewrite PC. unfold t_step at 1. cbn [t_pc t_flag].
    rewrite fupd_same, FL. unfold t_step at 1. cbn [t_pc t_flag]. rewrite fupd_same.
    unfold t_step at 1. cbn [t_pc t_flag]. rewrite fupd_same. eexists; reflexivity.
Qed.
Print Assumptions C35_start_result.

Example C35_example : exists s tr,
  t_run false t_init [TStart 0; TGo 0 true; TGo 0 true; TGo 0 true; TStart 0; TGo 0 true; TWorkerDone;
                      TStart 0; TGo 0 true; TGo 0 true; TGo 0 true]%nat = Some (s, tr) /\
  tr = [Launched; Started 0; NotStarted 0; Finished; Launched; Started 0]%nat.
Proof. eexists; eexists; split; vm_compute; reflexivity. Qed.

(** ** C98: with two threads calling start() the worker is launched twice. *)
Theorem C98_concurrent_starts_one_worker_refuted :
  exists sch s tr, t_run false t_init sch = Some (s, tr) /\ launched tr = 2%nat /\ finished tr = O /\
    In (Started 0%nat) tr /\ In (Started 1%nat) tr.
Proof.
  exists [TStart 0; TStart 1; TGo 0 true; TGo 1 true; TGo 0 true; TGo 1 true; TGo 0 true; TGo 1 true]%nat.
  eexists; eexists. split; [vm_compute; reflexivity|]. cbn. intuition.
Qed.
Print Assumptions C98_concurrent_starts_one_worker_refuted.

(** ** C99: when the thread cannot be created, release builds still return true, and in both
    builds the object counts as running for ever: no later start() can succeed. *)
Theorem C99_failed_start_is_reported_refuted :
  exists sch s tr, t_run false t_init sch = Some (s, tr) /\ In (Started 0%nat) tr /\ launched tr = O.
Proof.
  exists [TStart 0; TGo 0 false; TGo 0 false; TGo 0 false]%nat.
  eexists; eexists. split; [vm_compute; reflexivity|]. cbn. intuition.
Qed.
Print Assumptions C99_failed_start_is_reported_refuted.

Theorem C99_failed_start_can_be_retried_refuted : forall debug sch s tr,
  t_run debug t_init ([TStart 0; TGo 0 false; TGo 0 false; TGo 0 false]%nat ++ sch) = Some (s, tr) ->
  launched tr = O.
Proof.
  intros d sch s tr. rewrite t_run_app.
  assert (exists s0 e0, t_run d t_init [TStart 0; TGo 0 false; TGo 0 false; TGo 0 false]%nat = Some (s0, e0) /\
     launched e0 = O /\ t_flag s0 = true /\ t_busy s0 = O /\ (forall c, t_pc s0 c = SRest)) as (s0 & e0 & -> & L0 & F0 & B0 & P0).
  { eexists; eexists. split; [reflexivity|]. split; [destruct d; reflexivity|]. split; [reflexivity|]. split; [reflexivity|].
    intros [|c]; reflexivity. }
  destruct (t_run d s0 sch) as [[s2 e2]|] eqn:R; [|discriminate].
  intros Q; injection Q as <- <-. rewrite launched_app, L0. cbn [Nat.add].
  assert (P1 : forall c, t_pc s0 c = SRest \/ t_pc s0 c = SCheck) by auto. clear P0 L0 e0.
  revert s0 s2 e2 R F0 B0 P1. induction sch as [|a sch IH]; intros s0 s2 e2 R F0 B0 P1.
  - injection R as <- <-. reflexivity.
  - cbn [t_run] in R. destruct (t_step d s0 a) as [[s1 e1]|] eqn:ST; [|discriminate].
    destruct (t_run d s1 sch) as [[s3 e3]|] eqn:R1; [|discriminate]. injection R as <- <-.
    rewrite launched_app.
    assert (launched e1 = O /\ t_flag s1 = true /\ t_busy s1 = O /\ (forall c, t_pc s1 c = SRest \/ t_pc s1 c = SCheck))
      as (L1 & F1 & B1 & Q1).
    { destruct a as [c|c cr|]; cbn [t_step] in ST.
      - destruct (P1 c) as [PC|PC]; rewrite PC in ST; [|discriminate]. injection ST as <- <-. cbn.
        repeat split; auto. intros u. unfold fupd. destruct (Nat.eqb u c); auto.
      - destruct (P1 c) as [PC|PC]; rewrite PC in ST; [discriminate|]. rewrite F0 in ST. injection ST as <- <-. cbn.
        repeat split; auto. intros u. unfold fupd. destruct (Nat.eqb u c); auto.
      - rewrite B0 in ST. discriminate. }
    rewrite L1, (IH _ _ _ R1 F1 B1 Q1). reflexivity.
Qed.
Print Assumptions C99_failed_start_can_be_retried_refuted.

(** ** C36: thread objects, without cancel. *)
Theorem C36_thread_lifecycle : forall debug sch, calm sch ->
  match h_run debug h_init sch with
  | None => True                     (* not an execution *)
  | Some (Ok (s, tr)) =>
      (hcount is_created tr <= 1)%nat /\ (hcount is_freed tr <= hcount is_created tr)%nat /\
      (h_worker s = WExit -> hcount is_done tr = 1%nat /\ hcount is_freed tr = 1%nat) /\
      (forall tr1 tr2, tr = tr1 ++ JoinRet :: tr2 -> In Created tr1 ->
         In FunctionDone tr1 /\ In TaskFreed tr1)
  | Some _ => False                  (* never undefined *)
  end.
Proof.
  intros d sch CA. pose proof (hinv_run d sch CA) as I.
  destruct (h_run d h_init sch) as [[[s tr]| |]|]; auto.
  destruct I as [T N L P J R R2 R3 W C F D JR].
  split; [|split; [|split]].
  - rewrite C. destruct (h_started s); cbn; lia.
  - rewrite C, F. destruct (h_started s), (h_worker s); cbn in *; try discriminate; lia.
  - intros E. rewrite F, D, E. auto.
  - intros tr1 tr2 E IC.
    assert (H1 : hcount is_created tr1 = 1%nat).
    { apply (f_equal (hcount is_created)) in E. rewrite hcount_app in E.
      assert (hcount is_created tr <= 1)%nat by (rewrite C; destruct (h_started s); cbn; lia).
      enough (1 <= hcount is_created tr1)%nat by lia.
      unfold hcount. assert (In Created (filter is_created tr1)) by (apply filter_In; auto).
      destruct (filter is_created tr1); [contradiction|cbn; lia]. }
    destruct (JR tr1 tr2 E H1) as [A B].
    assert (G : forall p, hcount p tr1 = 1%nat -> exists e, In e tr1 /\ p e = true).
    { intros p. unfold hcount. destruct (filter p tr1) as [|e l] eqn:Q; [discriminate|].
      intros _. exists e. apply filter_In. rewrite Q. now left. }
    split.
    + destruct (G _ A) as [e [HI HE]]. destruct e; try discriminate; auto.
    + destruct (G _ B) as [e [HI HE]]. destruct e; try discriminate; auto.
Qed.
Print Assumptions C36_thread_lifecycle.

(** Once started, every later start() reports busy (an exception in debug builds) and changes nothing. *)
Theorem C36_second_start_busy : forall debug sch s tr created,
  calm sch -> h_run debug h_init sch = Some (Ok (s, tr)) -> In Created tr -> h_obj s = OIdle ->
  h_step debug s (HStart created) = Some (Ok (s, [if debug then StartExc BusyError else StartRet BusyError])).
Proof.
  intros d sch s tr cr CA R IC OB. pose proof (hinv_run d sch CA) as I. rewrite R in I.
  destruct I as [T N L P J RP R2 R3 W C F D JR]. cbn [h_step]. rewrite OB.
  destruct (h_started s); [reflexivity|]. exfalso. cbn in C. unfold hcount in C.
  assert (In Created (filter is_created tr)) by (apply filter_In; auto).
  destruct (filter is_created tr); [contradiction|discriminate].
Qed.
Print Assumptions C36_second_start_busy.

Example C36_example : exists s tr,
  calm [HStart true; HWork; HWork; HStart true; HJoin; HWork; HWork; HJoined; HDestroy] /\
  h_run false h_init [HStart true; HWork; HWork; HStart true; HJoin; HWork; HWork; HJoined; HDestroy] = Some (Ok (s, tr)) /\
  tr = [Created; StartRet NoError; StartRet BusyError; FunctionDone; TaskFreed; JoinRet; Destroyed].
Proof.
  eexists; eexists. split.
  - split; [|split]; cbn; [intuition discriminate|intuition discriminate|lia].
  - split; reflexivity.
Qed.

(** ** C100: cancel is not memory safe: cancelling a thread that has finished frees its task
    twice; cancelling one that then finishes its function does too. *)
Theorem C100_cancel_is_safe_refuted :
  h_run false h_init [HStart true; HWork; HWork; HWork; HWork; HCancel] = Some UB /\
  h_run false h_init [HStart true; HCancel; HWork] = Some UB /\
  h_run false h_init [HStart true; HWork; HWork; HCancel; HWork; HWork] = Some UB /\
  h_run false h_init [HCancel] = Some UB.
Proof. repeat split. Qed.
Print Assumptions C100_cancel_is_safe_refuted.

(** It is safe when it reaches the thread inside its function and the thread stops at a
    cancellation point there: the task is then freed exactly once. *)
Theorem C100_cancel_partial : forall debug sch1 s1 tr1 sch2,
  calm sch1 -> h_run debug h_init sch1 = Some (Ok (s1, tr1)) -> h_obj s1 = OIdle -> h_worker s1 = WRun ->
  ~ In HWork sch2 ->
  match h_run debug h_init (sch1 ++ HCancel :: sch2) with
  | None => True
  | Some (Ok (s, tr)) => hcount is_freed tr = 1%nat
  | Some _ => False
  end.
Proof.
  intros d sch1 s1 tr1 sch2 CA R OB WK NW. pose proof (hinv_run d sch1 CA) as I. rewrite R in I.
  destruct I as [T N L P J RP R2 R3 W C F D JR]. rewrite WK in N, L, F. cbn in N, L, F.
  rewrite h_run_app, R. cbn [h_run]. cbn [h_step]. rewrite OB, WK.
  destruct (h_reaped s1) eqn:RE.
  { exfalso. destruct (R3 eq_refl); congruence. }
  assert (TT : h_task s1 = true) by (rewrite T; destruct (h_started s1); [reflexivity|discriminate]).
  rewrite TT. unfold h_free. rewrite L. cbn [bind].
  cbn [h_task h_started h_joinreq h_live h_worker h_pending h_reaped h_obj].
  match goal with |- context [h_run d ?x sch2] =>
    assert (HC : hcinv x) by (split; cbn; auto; try congruence; destruct (h_started s1); auto);
    pose proof (hcinv_run d sch2 x HC NW) as H; destruct (h_run d x sch2) as [[[s2 e2]| |]|]
  end; auto.
  destruct H as [_ H]. rewrite !hcount_app, F, H. reflexivity.
Qed.
Print Assumptions C100_cancel_partial.

Example C100_partial_example : exists s1 tr1,
  calm [HStart true; HWork; HWork] /\ h_run false h_init [HStart true; HWork; HWork] = Some (Ok (s1, tr1)) /\
  h_obj s1 = OIdle /\ h_worker s1 = WRun /\
  exists s tr, h_run false h_init [HStart true; HWork; HWork; HCancel; HCancelPoint; HDestroy] = Some (Ok (s, tr)).
Proof.
  eexists; eexists. split; [split; [|split]; cbn; [intuition discriminate|intuition discriminate|lia]|].
  split; [reflexivity|]. split; [reflexivity|]. split; [reflexivity|]. eexists; eexists; reflexivity.
Qed.

(** ** C101: isRunning() keeps returning true after the function has finished and was joined. *)
Theorem C101_is_running_refuted :
  exists sch s tr, calm sch /\ h_run false h_init sch = Some (Ok (s, tr)) /\
    exists tr1 tr2, tr = tr1 ++ IsRunningRet true :: tr2 /\ In FunctionDone tr1 /\ In JoinRet tr1.
Proof.
  exists [HStart true; HWork; HWork; HWork; HWork; HJoin; HJoined; HIsRunning].
  eexists; eexists. split; [split; [|split]; cbn; [intuition discriminate|intuition discriminate|lia]|].
  split; [reflexivity|].
  exists [Created; StartRet NoError; FunctionDone; TaskFreed; JoinRet], []. cbn. intuition.
Qed.
Print Assumptions C101_is_running_refuted.

(** What remains true: without cancel, isRunning() is true exactly when the object was started. *)
Theorem C101_is_running_partial : forall debug sch s tr,
  calm sch -> h_run debug h_init sch = Some (Ok (s, tr)) -> h_obj s = OIdle ->
  exists b, h_step debug s HIsRunning = Some (Ok (s, [IsRunningRet b])) /\ (b = true <-> hcount is_created tr = 1%nat).
Proof.
  intros d sch s tr CA R OB. pose proof (hinv_run d sch CA) as I. rewrite R in I.
  destruct I as [T N L P J RP R2 R3 W C F D JR]. exists (h_task s). cbn [h_step]. rewrite OB. split; [reflexivity|].
  rewrite T, C. destruct (h_started s); cbn; intuition discriminate.
Qed.
Print Assumptions C101_is_running_partial.

(** ** C102: destroying a thread object whose start failed detaches a handle that was never set. *)
Theorem C102_destroy_after_failed_start_refuted : forall debug,
  h_run debug h_init [HStart false; HDestroy] = Some UB.
Proof. reflexivity. Qed.
Print Assumptions C102_destroy_after_failed_start_refuted.

(** ** C103: joining twice uses a handle that no longer exists. *)
Theorem C103_join_twice_refuted : forall debug,
  h_run debug h_init [HStart true; HWork; HWork; HWork; HWork; HJoin; HJoined; HJoin] = Some UB.
Proof. reflexivity. Qed.
Print Assumptions C103_join_twice_refuted.

(** ** C39: real-time priority levels. *)
Lemma rt_quot r i : 0 <= i <= 3 -> 10 <= r -> Z.quot (i * r) 10 = (i * r) / 10.
Proof. intros; apply Z.quot_div_nonneg; nia. Qed.

Theorem C39_real_time_round_trip : forall debug rr_min rr_max s p i,
  10 <= rr_max - rr_min -> rt_index p = Some i ->
  exists s1, set_priority debug true rr_min rr_max s p = Ok (true, s1) /\
    get_priority rr_min rr_max s1 = p /\
    exists v, sc_rr s1 = Some v /\ rr_min <= v <= rr_max.
Proof.
  intros d lo hi s p i R E.
  set (r := hi - lo) in *.
  pose proof (rt_quot r 0 ltac:(lia) R) as Q0. pose proof (rt_quot r 1 ltac:(lia) R) as Q1.
  pose proof (rt_quot r 2 ltac:(lia) R) as Q2. pose proof (rt_quot r 3 ltac:(lia) R) as Q3.
  destruct p; try discriminate; injection E as <-;
    unfold set_priority, set_real_time, rt_value; cbn [rt_index]; fold r;
    rewrite ?Q0, ?Q1, ?Q2, ?Q3;
    (destruct (_ <? lo) eqn:A; [exfalso; lia|]); (destruct (_ >? hi) eqn:B; [exfalso; lia|]);
    eexists; (split; [reflexivity|]); split;
    try (eexists; split; [reflexivity|lia]);
    unfold get_priority; cbn [sc_rr]; fold r; rewrite ?(Z.mul_1_l r) in *; rewrite ?Q1, ?Q2, ?Q3;
    repeat match goal with |- context [if ?c then _ else _] => destruct c eqn:?; try (exfalso; lia); try reflexivity end.
Qed.
Print Assumptions C39_real_time_round_trip.

Lemma rt_value_lt : forall rr_min rr_max p q i j,
  10 <= rr_max - rr_min -> rt_index p = Some i -> rt_index q = Some j -> i < j ->
  rt_value rr_min rr_max i < rt_value rr_min rr_max j.
Proof.
  intros lo hi p q i j R P Q L. unfold rt_value. set (r := hi - lo) in *.
  assert (0 <= i <= 3) by (destruct p; try discriminate; injection P as <-; lia).
  assert (0 <= j <= 3) by (destruct q; try discriminate; injection Q as <-; lia).
  rewrite !rt_quot by auto. assert (i * r + 10 <= j * r) by nia.
  assert (i * r / 10 + 1 <= j * r / 10).
  { replace (i * r / 10 + 1) with ((i * r + 1 * 10) / 10) by (rewrite Z.div_add; lia).
    apply Z.div_le_mono; lia. }
  lia.
Qed.
(** The system is asked for a strictly higher priority for a higher level, whatever was set before. *)
Theorem C39_higher_levels_strictly_higher : forall debug rr_min rr_max s t p q i j,
  10 <= rr_max - rr_min -> rt_index p = Some i -> rt_index q = Some j -> i < j ->
  exists s1 t1 v w, set_priority debug true rr_min rr_max s p = Ok (true, s1) /\ set_priority debug true rr_min rr_max t q = Ok (true, t1) /\
    sc_rr s1 = Some v /\ sc_rr t1 = Some w /\ v < w.
Proof.
  intros d lo hi s t p q i j R P Q L.
  assert (G : forall s p i, rt_index p = Some i -> exists s1, set_priority d true lo hi s p = Ok (true, s1) /\ sc_rr s1 = Some (rt_value lo hi i)).
  { clear s t p q i j P Q L. intros s p i P. destruct (C39_real_time_round_trip d lo hi s p i R P) as (s1 & E & _ & v & V & _).
    exists s1. split; [exact E|]. unfold set_priority in E. rewrite P in E. unfold set_real_time in E.
    repeat match type of E with context [if ?c then _ else _] => destruct c end; try discriminate; injection E as <-; reflexivity. }
  destruct (G s p i P) as (s1 & E1 & V1), (G t q j Q) as (t1 & E2 & V2). exists s1, t1, (rt_value lo hi i), (rt_value lo hi j).
  repeat split; auto. exact (rt_value_lt lo hi p q i j R P Q L).
Qed.
Print Assumptions C39_higher_levels_strictly_higher.

Example C39_example : exists s1, set_priority true true 1 99 (MkSched None 0) RT3 = Ok (true, s1) /\ sc_rr s1 = Some 20.
Proof. eexists; split; reflexivity. Qed.

(** ** C104: the niceness levels other than Background read back, given the privilege to set them. *)
Theorem C104_nice_levels_round_trip : forall debug rr_min rr_max n p,
  In p [CriticalP; HighP; NormalP; LowP] ->
  exists s1, set_priority debug true rr_min rr_max (MkSched None n) p = Ok (true, s1) /\
    get_priority rr_min rr_max s1 = p.
Proof.
  intros d lo hi n p HI. cbn in HI.
  destruct HI as [<-|[<-|[<-|[<-|[]]]]]; unfold set_priority; cbn [rt_index nice_request];
  unfold os_setpriority; rewrite andb_false_r; eexists; split; reflexivity.
Qed.
Print Assumptions C104_nice_levels_round_trip.

(** The niceness each level asks the system for. *)
Theorem C104_values : forall debug rr_min rr_max rr n,
  let nice p := match set_priority debug true rr_min rr_max (MkSched rr n) p with Ok (true, s1) => Some (sc_nice s1) | _ => None end in
  nice CriticalP = Some (-20) /\ nice HighP = Some (-10) /\ nice NormalP = Some 0 /\ nice LowP = Some 10 /\ nice BackgroundP = Some 19 /\
  nice DefaultP = Some n /\ nice UnknownP = Some n.
Proof.
  intros debug rr_min rr_max rr n. cbv zeta. unfold set_priority. cbn [rt_index nice_request]. unfold os_setpriority. rewrite !andb_false_r. repeat split.
Qed.
Print Assumptions C104_values.

(** ** C105: Background does not read back: the kernel clamps niceness 20 to 19. *)
Theorem C105_background_round_trip_refuted : forall debug rr_min rr_max n, n <= 19 ->
  exists s1, set_priority debug true rr_min rr_max (MkSched None n) BackgroundP = Ok (true, s1) /\
    get_priority rr_min rr_max s1 = NormalP.
Proof.
  intros. unfold set_priority; cbn [rt_index nice_request]. unfold os_setpriority. rewrite andb_false_r.
  eexists; split; reflexivity.
Qed.
Print Assumptions C105_background_round_trip_refuted.

(** ** C106: a refused request is not reported: an unprivileged High returns true, unchanged. *)
Theorem C106_refusal_is_reported_refuted : forall debug rr_min rr_max,
  set_priority debug false rr_min rr_max (MkSched None 0) HighP = Ok (true, MkSched None 0) /\
  get_priority rr_min rr_max (MkSched None 0) = NormalP.
Proof. split; reflexivity. Qed.
Print Assumptions C106_refusal_is_reported_refuted.

(** It is for Critical and for the real-time levels. *)
Theorem C106_refusal_is_reported_partial : forall debug rr_min rr_max s p,
  10 <= rr_max - rr_min -> sc_nice s > -20 -> p = CriticalP \/ rt_index p <> None ->
  set_priority debug false rr_min rr_max s p = if debug then Throw PermissionsError else Ok (false, s).
Proof.
  intros d lo hi s p R N [->|H].
  - unfold set_priority; cbn [rt_index nice_request]. unfold os_setpriority, prio_min.
    assert ((Z.max (-20) (Z.min (-20) 19) <? sc_nice s) && negb false = true) as -> by (cbn; lia).
    reflexivity.
  - destruct (rt_index p) as [i|] eqn:E; [|congruence]. unfold set_priority. rewrite E.
    assert (0 <= i <= 3) by (destruct p; try discriminate; injection E as <-; lia).
    unfold set_real_time, rt_value. rewrite rt_quot by auto.
    assert (0 <= i * (hi - lo) / 10 <= hi - lo).
    { split; [apply Z.div_pos; nia|]. apply Z.div_le_upper_bound; nia. }
    destruct (_ <? lo) eqn:A; [exfalso; lia|]. destruct (_ >? hi) eqn:B; [exfalso; lia|]. reflexivity.
Qed.
Print Assumptions C106_refusal_is_reported_partial.

(** ** C107: after a real-time level, setting an ordinary level succeeds but has no effect on what
    is read back: the scheduler stays round-robin. *)
Theorem C107_leaving_real_time_refuted :
  exists s1 s2, set_priority false true 1 99 (MkSched None 0) RT2 = Ok (true, s1) /\
    set_priority false true 1 99 s1 LowP = Ok (true, s2) /\ get_priority 1 99 s2 = RT2.
Proof. eexists; eexists. repeat split. Qed.
Print Assumptions C107_leaving_real_time_refuted.

Local Open Scope Z_scope.

(** ** C96: how wrong the counter is.  With any failed calls of lock(), at quiescent points, no thread preempted in the middle
    of an update: as C34, plus one for every lock() that has thrown. *)
Definition is_threw (e : mev) : bool := match e with Threw _ => true | _ => false end.
Definition threw (tr : list mev) : Z := Zlen (filter is_threw tr).
Lemma threw_app a b : threw (a ++ b) = threw a + threw b.
Proof. unfold threw. now rewrite filter_app, Zlen_app. Qed.
Definition held (p : mpc) (ins : bool) : Z :=
  match p with
  | Rest | TdWait | LkLoad | LkStore _ => Z.b2z ins
  | LkWait => 1 + Z.b2z ins
  | InLoad | InStore _ | UnPost => 0
  | UnLoad | UnStore _ => 1
  end.
Record finv (n : nat) (s : mst) (tr : list mev) : Prop := MkF {
  f_store : forall t v, store_val (m_pc s t) = Some v -> v = m_count s;
  f_wait : forall t, waitingb tr t = lk_pc (m_pc s t);
  f_td : forall t, m_pc s t <> TdWait;
  f_sum : m_count s = u32 (zsum (fun t => held (m_pc s t) (insideb tr t)) (seq 0 n) + threw tr);
  f_out : forall t, (n <= t)%nat -> m_pc s t = Rest /\ insideb tr t = false
}.
Lemma finv_step n d s tr t a s1 e :
  (t < n)%nat -> a <> CallTimed ->
  (forall u, storing (m_pc s u) = true -> u = t) ->
  minv s tr -> dinv s -> disciplined (tr ++ e) ->
  m_step d s t a = Some (s1, e) -> finv n s tr -> finv n s1 (tr ++ e).
Proof.
  intros Hn HA HS (I1 & I2 & I3) D DI ST C.
  assert (SUM : forall f g, (forall u, u <> t -> f u = g u) ->
            zsum f (seq 0 n) = zsum g (seq 0 n) + (f t - g t)).
  { intros f g H. apply zsum_upd; auto using seq_NoDup. apply in_seq. lia. }
  pose proof (I1 t) as K1. pose proof (I2 t) as K2. pose proof (I3 t) as K3.
  pose proof (D t) as DT. pose proof (f_store _ _ _ C t) as CS. pose proof (f_td _ _ _ C t) as CT.
  pose proof (f_wait _ _ _ C t) as CW.
  pose proof (f_sum _ _ _ C) as CSum.
  msplit s t a ST PC OW; try congruence;
  try (apply disciplined_last in DI);
  cbn [un_pc in_pc lk_pc store_val] in *;
  (split; [intros u w|intros u|intros u| |intros u Hu]); cbn [m_owner m_pc m_count];
  rewrite ?app_nil_r, ?insideb_snoc, ?waitingb_snoc, ?threw_app; cbn [ev_in ev_wt].
  all: try (
    destruct (Nat.eq_dec u t) as [->|?];
    [rewrite ?fupd_same; rewrite ?Nat.eqb_refl; try lia; cbn [lk_pc store_val];
     try rewrite PC; cbn [lk_pc store_val]; try (specialize (CS _ eq_refl)); try specialize (K1 eq_refl); intuition congruence
    |rewrite ?fupd_other by assumption;
     replace (Nat.eqb t u) with false by (symmetry; apply Nat.eqb_neq; congruence);
     try apply (f_td _ _ _ C); try apply (f_wait _ _ _ C); try apply (f_out _ _ _ C); auto;
     try (intros HV; assert (u = t) by (apply HS, storing_val; eauto); congruence)]).
  all: match goal with |- _ = u32 (zsum ?f _ + _) =>
         rewrite (SUM f (fun t0 => held (m_pc s t0) (insideb tr t0)))
       end;
       [ rewrite ?fupd_same, ?PC, ?Nat.eqb_refl; cbn [held]
       | intros u Hu; rewrite ?insideb_snoc, ?fupd_other by assumption; cbn [ev_in];
         replace (Nat.eqb t u) with false by (symmetry; apply Nat.eqb_neq; congruence); reflexivity ].
  all: rewrite ?insideb_snoc; cbn [ev_in]; rewrite ?Nat.eqb_refl.
  all: repeat match goal with |- context [threw [?x]] => change (threw [x]) with (if is_threw x then 1 else 0); cbn [is_threw] end.
  all: destruct (insideb tr t) eqn:INS; cbn [Z.b2z].
  all: try (exfalso; try (specialize (K1 eq_refl)); 
            try specialize (K3 eq_refl); intuition congruence).
  all: try (rewrite CSum; f_equal; lia).
  all: try (rewrite <- u32_u32_add, <- CSum; rewrite (CS _ eq_refl); f_equal; lia).
  all: try (rewrite (CS _ eq_refl), CSum, u32_u32_add; f_equal; lia).
  all: try (unfold Z.sub; rewrite (CS _ eq_refl), CSum, u32_u32_add; f_equal; lia).
Qed.
Lemma finv_init n : finv n m_init [].
Proof.
  split; cbn; intros; try discriminate; auto.
  assert (forall l, zsum (fun t : nat => held Rest (insideb [] t)) l = 0) as ->; [|reflexivity].
  induction l as [|x l IH]; cbn [zsum fold_right]; auto.
Qed.
Lemma finv_run n d sch s tr :
  m_run d m_init sch = Some (s, tr) -> (forall t a, In (t, a) sch -> (t < n)%nat /\ a <> CallTimed) ->
  uninterrupted d sch -> disciplined tr -> finv n s tr.
Proof.
  revert s tr. induction sch as [|[t a] sch IH] using rev_ind; intros s tr R HB U DI.
  - injection R as <- <-. apply finv_init.
  - rewrite m_run_app in R. destruct (m_run d m_init sch) as [[s1 e1]|] eqn:E; [|discriminate].
    cbn [m_run] in R. destruct (m_step d s1 t a) as [[s2 e2]|] eqn:E2; [|discriminate].
    injection R as <- <-. rewrite app_nil_r in *.
    destruct (run_inv_disc d sch s1 e1 E (disciplined_prefix _ _ DI)) as (I & J & _).
    destruct (HB t a) as [HB1 HB2]; [apply in_or_app; right; now left|].
    eapply finv_step; eauto.
    + intros u Hu. symmetry. eapply (U sch t a [] s1 e1 u); eauto.
    + apply IH; eauto using uninterrupted_prefix, disciplined_prefix.
      intros; eapply HB; apply in_or_app; left; eauto.
Qed.
Theorem C96_failed_locks_counted_partial : forall debug sch s tr,
  m_run debug m_init sch = Some (s, tr) -> uninterrupted debug sch -> (forall t, ~ In (t, CallTimed) sch) -> disciplined tr -> quiescent s ->
  exists l1 l2, NoDup l1 /\ (forall t, In t l1 <-> inside tr t) /\ NoDup l2 /\ (forall t, In t l2 <-> waiting tr t) /\
    m_locks s = u32 (Zlen l1 + Zlen l2 + threw tr).
Proof.
  intros d sch s tr R U NT DI Q. destruct (sched_bound sch) as [n HB].
  destruct (finv_run n d sch s tr R) as [CS CW CT CSum CO]; auto.
  { intros t a H. split; [eauto|]. intros ->. exact (NT t H). }
  exists (filter (insideb tr) (seq 0 n)), (filter (waitingb tr) (seq 0 n)).
  assert (B : forall t, insideb tr t = true \/ waitingb tr t = true -> (t < n)%nat).
  { intros t H. destruct (le_lt_dec n t) as [L|L]; [|exact L]. exfalso. destruct (CO t L) as [P I]. rewrite CW, P, I in H. cbn in H. intuition discriminate. }
  split; [apply NoDup_filter, seq_NoDup|]. split; [|split; [apply NoDup_filter, seq_NoDup|split]].
  - intros t. rewrite filter_In, in_seq, insideb_spec. split; [tauto|]. intros H. split; auto. pose proof (B t (or_introl H)). lia.
  - intros t. rewrite filter_In, in_seq, waitingb_spec. split; [tauto|]. intros H. split; auto. pose proof (B t (or_intror H)). lia.
  - unfold m_locks. rewrite CSum. f_equal. f_equal. rewrite <- !zsum_filter. clear - Q CW. induction (seq 0 n) as [|t r IH]; [reflexivity|].
    cbn [zsum fold_right] in *. unfold zsum in IH. rewrite IH, CW. destruct (Q t) as [P|P]; rewrite P; cbn [held lk_pc Z.b2z]; lia.
Qed.
Print Assumptions C96_failed_locks_counted_partial.
(** ** C95: with updates of the counter uninterrupted, nobody inside and nobody waiting, it is 0. *)
Theorem C95_uninterrupted_partial : forall debug sch s tr,
  m_run debug m_init sch = Some (s, tr) -> uninterrupted debug sch -> disciplined tr -> no_relock tr ->
  (forall t, m_pc s t = Rest) -> (forall t, ~ inside tr t) -> m_locks s = 0.
Proof.
  intros d sch s tr R U DI NR Q NI. destruct (locks_count d sch s tr R U DI NR) as (l & _ & HL & E); [intros t; left; apply Q|].
  destruct l as [|t l]; [rewrite E; reflexivity|]. exfalso. destruct (proj1 (HL t) (or_introl eq_refl)) as [F|F]; [exact (NI t F)|].
  destruct (sched_bound sch) as [n HB]. pose proof (c_wait _ _ _ (cinv_run n d sch s tr R HB U DI NR) t) as W.
  apply waitingb_spec in F. rewrite F, Q in W. discriminate.
Qed.
Print Assumptions C95_uninterrupted_partial.
(** ** C98: any number of callers, as long as no start() begins while another one is being executed. *)
Definition apart (d : bool) (sch : list tact) : Prop := forall sch1 c sch2 s e,
  sch = sch1 ++ TStart c :: sch2 -> t_run d t_init sch1 = Some (s, e) -> forall u, t_pc s u = SRest.
Lemma apart_inv d sch s tr : apart d sch -> t_run d t_init sch = Some (s, tr) ->
  exists c, (forall u, u <> c -> t_pc s u = SRest) /\ tinv c false s tr.
Proof.
  revert s tr. induction sch as [|a sch IH] using rev_ind; intros s tr AP R.
  - injection R as <- <-. exists O. split; [reflexivity|]. split; cbn; auto; try discriminate.
  - rewrite t_run_app in R. destruct (t_run d t_init sch) as [[s1 e1]|] eqn:E; [|discriminate].
    cbn [t_run] in R. destruct (t_step d s1 a) as [[s2 e2]|] eqn:E2; [|discriminate].
    injection R as <- <-. rewrite app_nil_r.
    destruct (IH s1 e1) as (c & P & I); [intros x1 x x2 s0 e -> R u; eapply (AP x1 x (x2 ++ [a])); eauto; rewrite <- app_assoc; reflexivity|reflexivity|].
    destruct a as [k|k cr|].
    + assert (Z0 : forall u, t_pc s1 u = SRest) by (eapply (AP sch k []); eauto). exists k.
      assert (I' : tinv k false s1 e1) by (destruct I as [B F SE C ON K]; split; auto; rewrite Z0; discriminate).
      split; [|eapply tinv_step; eauto; reflexivity]. cbn [t_step] in E2. rewrite Z0 in E2. injection E2 as <- <-. cbn [t_pc].
      intros u Hu. rewrite fupd_other by auto. apply Z0.
    + destruct (Nat.eq_dec k c) as [->|N]; [|cbn [t_step] in E2; rewrite (P k N) in E2; discriminate]. exists c.
      split; [|eapply tinv_step; eauto; cbn; split; [reflexivity|discriminate]]. cbn [t_step] in E2. intros u Hu.
      destruct (t_pc s1 c); try discriminate; [destruct (t_flag s1)| |destruct cr]; injection E2 as <- <-; cbn [t_pc]; rewrite fupd_other by auto; auto.
    + exists c. split; [|eapply tinv_step; eauto; exact Logic.I]. cbn [t_step] in E2. destruct (t_busy s1); [discriminate|]. injection E2 as <- <-. exact P.
Qed.
Theorem C98_starts_apart_partial : forall debug sch s tr, apart debug sch -> t_run debug t_init sch = Some (s, tr) ->
  (finished tr <= launched tr <= finished tr + 1)%nat.
Proof. intros d sch s tr AP R. destruct (apart_inv d sch s tr AP R) as (c & _ & [B _ _ _ ON _]). lia. Qed.
Print Assumptions C98_starts_apart_partial.
Example C98_case : exists s tr, t_run false t_init [TStart 0; TGo 0 true; TGo 0 true; TGo 0 true; TStart 1; TGo 1 true; TWorkerDone; TStart 1; TGo 1 true; TGo 1 true; TGo 1 true]%nat = Some (s, tr) /\
  launched tr = 2%nat /\ finished tr = 1%nat /\ In (NotStarted 1) tr.
Proof. eexists; eexists. split; [vm_compute; reflexivity|]. cbn. intuition. Qed.
(** ** C99: debug builds report it: start() returns true as often as a worker begins, with any callers and schedule. *)
Definition is_started (e : tev) : bool := match e with Started _ => true | _ => false end.
Theorem C99_debug_reports_partial : forall sch s tr, t_run true t_init sch = Some (s, tr) ->
  length (filter is_started tr) = launched tr.
Proof.
  intros sch. assert (G : forall s0 s tr, t_run true s0 sch = Some (s, tr) -> length (filter is_started tr) = launched tr).
  { induction sch as [|a sch IH]; intros s0 s tr R; cbn [t_run] in R; [injection R as <- <-; reflexivity|].
    destruct (t_step true s0 a) as [[s1 e1]|] eqn:E; [|discriminate]. destruct (t_run true s1 sch) as [[s2 e2]|] eqn:E2; [|discriminate]. injection R as <- <-.
    rewrite filter_app, app_length, launched_app, (IH s1 s2 e2 E2). f_equal. destruct a as [c|c cr|]; cbn [t_step] in E.
    - destruct (t_pc s0 c); try discriminate; injection E as <- <-; reflexivity.
    - destruct (t_pc s0 c); try discriminate; [destruct (t_flag s0)| |destruct cr]; injection E as <- <-; reflexivity.
    - destruct (t_busy s0); [discriminate|]. injection E as <- <-. reflexivity. }
  intros s tr. apply G.
Qed.
Print Assumptions C99_debug_reports_partial.
(** ** C102: exactly when join() was called in between is the destruction after a failed start harmless. *)
Definition quiet (a : hact) : Prop := match a with HStart _ | HJoin | HIsRunning => True | _ => False end.
Theorem C102_destroy_partial : forall debug l, Forall quiet l ->
  (In HJoin l -> exists s tr, h_run debug h_init (HStart false :: l ++ [HDestroy]) = Some (Ok (s, tr ++ [Destroyed]))) /\
  (~ In HJoin l -> h_run debug h_init (HStart false :: l ++ [HDestroy]) = Some UB).
Proof.
  intros d l HQ.
  assert (G : forall l j, Forall quiet l -> exists tr, h_run d (MkH false true j false WNone false false OIdle) l =
     Some (Ok (MkH false true (j || existsb is_join l) false WNone false false OIdle, tr))).
  { clear. induction l as [|a l IH]; intros j HQ; [exists []; cbn; rewrite orb_false_r; reflexivity|]. inversion HQ; subst.
    destruct a; cbn in H1; try contradiction; cbn [h_run h_step h_obj h_task h_started h_joinreq h_live h_worker h_pending h_reaped existsb is_join].
    - destruct (IH j H2) as (tr & E). rewrite E. eexists. reflexivity.
    - destruct (IH true H2) as (tr & E). rewrite E, orb_true_r. eexists. reflexivity.
    - destruct (IH j H2) as (tr & E). rewrite E. eexists. reflexivity. }
  assert (EX : existsb is_join l = true <-> In HJoin l).
  { rewrite existsb_exists. split; [intros (a & A & B); destruct a; try discriminate; exact A|intros A; exists HJoin; auto]. }
  assert (R : exists tr, h_run d h_init (HStart false :: l) = Some (Ok (MkH false true (existsb is_join l) false WNone false false OIdle, tr))).
  { destruct (G l false HQ) as (tr & E). cbn [h_run h_step h_init h_obj h_started h_joinreq h_live h_worker h_pending h_reaped]. rewrite E. eexists. reflexivity. }
  destruct R as (tr & R). rewrite app_comm_cons, h_run_app, R. split; intros H.
  - apply EX in H. rewrite H. cbn. do 2 eexists. reflexivity.
  - destruct (existsb is_join l) eqn:F; [exfalso; tauto|]. reflexivity.
Qed.
Print Assumptions C102_destroy_partial.
(** ** C103: joining an object that was never started, any number of times, returns at once. *)
Theorem C103_never_started_partial : forall debug n, exists s, h_run debug h_init (repeat HJoin n) = Some (Ok (s, repeat JoinRet n)).
Proof.
  intros d n. assert (G : forall n j, exists s, h_run d (MkH false false j false WNone false false OIdle) (repeat HJoin n) = Some (Ok (s, repeat JoinRet n))).
  { clear n. induction n as [|n IH]; intros j; [eexists; reflexivity|]. cbn [repeat h_run h_step h_obj h_task h_started h_joinreq h_live h_worker h_pending h_reaped].
    destruct (IH true) as (s & E). rewrite E. eexists. reflexivity. }
  apply G.
Qed.
Print Assumptions C103_never_started_partial.
(** ** C103: on every other object the second join() is undefined, unless cancel() was called. *)
Lemma joined_inv d sch : ~ In HCancel sch -> forall s tr, h_run d h_init sch = Some (Ok (s, tr)) ->
  (h_task s = true -> h_started s = true) /\ (h_obj s = OJoin -> h_task s = true) /\ (In HJoined sch -> h_task s = true /\ h_reaped s = true).
Proof.
  induction sch as [|a sch IH] using rev_ind; intros NC s tr R.
  - injection R as <- <-. cbn. split; [discriminate|]. split; [discriminate|intros []].
  - assert (NC1 : ~ In HCancel sch) by (intros F; apply NC, in_or_app; auto). assert (NA : a <> HCancel) by (intros ->; apply NC, in_or_app; right; now left).
    rewrite h_run_app in R. destruct (h_run d h_init sch) as [[[s1 e1]| |]|] eqn:E; try discriminate. cbn [h_run] in R.
    destruct (h_step d s1 a) as [[[s2 e2]| |]|] eqn:E2; try discriminate. injection R as <- <-. destruct (IH NC1 s1 e1 eq_refl) as (A & B & C).
    assert (JJ : In HJoined (sch ++ [a]) -> In HJoined sch \/ a = HJoined) by (rewrite in_app_iff; cbn; intuition).
    destruct a; cbn [h_step] in E2; try congruence; unfold h_free in E2;
      repeat match type of E2 with
      | context [match h_obj s1 with _ => _ end] => destruct (h_obj s1) eqn:?
      | context [match h_worker s1 with _ => _ end] => destruct (h_worker s1) eqn:?
      | context [if ?c then _ else _] => destruct c eqn:?
      end; try discriminate; cbn [bind] in E2; try discriminate; injection E2 as <- <-; unfold h_set_worker; cbn [h_task h_started h_obj h_reaped];
      (split; [intuition congruence|split; [intuition congruence|intros F; destruct (JJ F) as [F'|F']; try discriminate F'; try (destruct (C F')); intuition congruence]]).
Qed.
Theorem C103_join_again_refuted : forall debug sch s tr, h_run debug h_init sch = Some (Ok (s, tr)) -> ~ In HCancel sch ->
  In HJoined sch -> h_obj s = OIdle -> h_step debug s HJoin = Some UB.
Proof.
  intros d sch s tr R NC J OB. destruct (joined_inv d sch NC s tr R) as (_ & _ & H). destruct (H J) as [A B].
  cbn [h_step]. rewrite OB, A, B. reflexivity.
Qed.
Print Assumptions C103_join_again_refuted.

(** ** C105 and C107: what is read back after any sequence of requests. *)
Definition real_time (p : prio) : bool := match p with RT1 | RT2 | RT3 | RT4 => true | _ => false end.
Definition by_niceness (p : prio) : bool := match p with CriticalP | HighP | NormalP | LowP | BackgroundP => true | _ => false end.
Fixpoint requests (debug : bool) (lo hi : Z) (s : sched) (l : list prio) : res sched :=
  match l with [] => Ok s | p :: l' => match set_priority debug true lo hi s p with Ok (_, s') => requests debug lo hi s' l' | UB => UB | Throw e => Throw e end end.
(** The latest real-time request, if there has been one; otherwise the latest request of a niceness, Background reading as Normal. *)
Definition reads_as (s0 : prio) (l : list prio) : prio :=
  match find real_time (rev l) with
  | Some p => p
  | None => match find by_niceness (rev l) with Some BackgroundP => NormalP | Some p => p | None => s0 end
  end.
Lemma requests_app d lo hi l1 l2 : forall s, requests d lo hi s (l1 ++ l2) = match requests d lo hi s l1 with Ok s' => requests d lo hi s' l2 | r => r end.
Proof. induction l1 as [|p l1 IH]; intros s; [reflexivity|]. cbn [requests app]. destruct (set_priority d true lo hi s p) as [[b s']| |]; auto. Qed.
Theorem C107_requests_partial : forall debug lo hi n l, 10 <= hi - lo ->
  exists s, requests debug lo hi (MkSched None n) l = Ok s /\ get_priority lo hi s = reads_as (get_priority lo hi (MkSched None n)) l.
Proof.
  intros d lo hi n l R. 
  assert (G : exists s, requests d lo hi (MkSched None n) l = Ok s /\ get_priority lo hi s = reads_as (get_priority lo hi (MkSched None n)) l /\
    (sc_rr s = None <-> find real_time (rev l) = None)); [|destruct G as (s & A & B & _); eauto].
  induction l as [|p l IH] using rev_ind; [exists (MkSched None n); repeat split|].
  destruct IH as (s & A & B & C). rewrite requests_app, A. cbn [requests]. unfold reads_as in *. rewrite rev_app_distr. cbn [rev app find].
  destruct (real_time p) eqn:RT.
  - assert (exists i, rt_index p = Some i) as (i & I) by (destruct p; try discriminate; eexists; reflexivity).
    destruct (C39_real_time_round_trip d lo hi s p i R I) as (s1 & S & Gt & v & V & _). rewrite S. exists s1. split; [reflexivity|split; [exact Gt|]]. rewrite V. split; discriminate.
  - assert (N : rt_index p = None) by (destruct p; reflexivity || discriminate).
    assert (O : exists s1, set_priority d true lo hi s p = Ok (true, s1) /\ sc_rr s1 = sc_rr s /\ sc_nice s1 = match p with CriticalP => -20 | HighP => -10 | NormalP => 0 | LowP => 10 | BackgroundP => 19 | _ => sc_nice s end).
    { destruct s as [rr m]. unfold set_priority. rewrite N. destruct p; try discriminate; cbn [nice_request]; unfold os_setpriority; rewrite ?andb_false_r; eexists; repeat split; reflexivity. }
    destruct O as (s1 & S & E1 & E2). rewrite S. exists s1. split; [reflexivity|]. rewrite E1. split; [|exact C].
    destruct (find real_time (rev l)) as [q|] eqn:F.
    + rewrite <- B. unfold get_priority. rewrite E1. destruct (sc_rr s) eqn:X; [reflexivity|]. destruct C as [C _]. now specialize (C eq_refl).
    + assert (X : sc_rr s = None) by now apply C. unfold get_priority in *. rewrite X in B. rewrite E1, X, E2. destruct p; try discriminate; cbn [by_niceness]; try reflexivity; exact B.
Qed.
Print Assumptions C107_requests_partial.
Example C107_case : reads_as NormalP [LowP; DefaultP; BackgroundP] = NormalP /\ reads_as NormalP [HighP; RT3; LowP] = RT3 /\ reads_as LowP [DefaultP] = LowP /\ reads_as LowP [BackgroundP; HighP] = HighP.
Proof. repeat split. Qed.
(** ** C105: Background is the only level of those five that does not read back, whatever was requested before it, real-time levels aside. *)
Theorem C105_levels_partial : forall debug lo hi n l p, 10 <= hi - lo -> (forall q, In q l -> real_time q = false) -> by_niceness p = true ->
  exists s, requests debug lo hi (MkSched None n) (l ++ [p]) = Ok s /\ (get_priority lo hi s = p <-> p <> BackgroundP).
Proof.
  intros d lo hi n l p R NR P. destruct (C107_requests_partial d lo hi n (l ++ [p]) R) as (s & A & B). exists s. split; [exact A|]. rewrite B.
  unfold reads_as. rewrite rev_app_distr. cbn [rev app find]. rewrite P.
  assert (F : find real_time (rev l) = None).
  { destruct (find real_time (rev l)) as [q|] eqn:F; [|reflexivity]. apply find_some in F as [F1 F2]. apply in_rev in F1. rewrite NR in F2 by exact F1. discriminate. }
  destruct p; try discriminate; cbn [real_time]; rewrite F; split; congruence.
Qed.
Print Assumptions C105_levels_partial.

(** C100: wherever cancel finds the thread, memory is misused: at once if it was never created or has finished, and otherwise by the thread's next
    step (one step later inside its function), unless a cancellation point inside the function stops it first. *)
Theorem C100_cancel_refuted_everywhere : forall debug sch s tr, calm sch -> h_run debug h_init sch = Some (Ok (s, tr)) -> h_obj s = OIdle ->
  h_run debug h_init (sch ++ HCancel :: match h_worker s with WNone | WExit => [] | WPrio | WCall | WDelete => [HWork] | WRun => [HWork; HWork] end) = Some UB.
Proof.
  intros d sch s tr CA R OB. pose proof (hinv_run d sch CA) as I. rewrite R in I. destruct I as [T N L P J RP R2 R3 W C F D JR].
  rewrite h_run_app, R. cbn [h_run h_step]. rewrite OB. destruct (h_worker s) eqn:WK; [reflexivity|..];
    (destruct (h_reaped s) eqn:RE; [|]); try reflexivity; try (exfalso; destruct (R3 eq_refl); congruence);
    cbn in N, L; assert (TT : h_task s = true) by (rewrite T; destruct (h_started s); [reflexivity|discriminate]);
    rewrite TT; unfold h_free; rewrite L; cbn [bind h_task h_started h_joinreq h_live h_worker h_pending h_reaped h_obj]; rewrite ?WK; try reflexivity.
Qed.
Print Assumptions C100_cancel_refuted_everywhere.
Example C100_everywhere_example : exists s tr, calm [HStart true; HWork] /\ h_run false h_init [HStart true; HWork] = Some (Ok (s, tr)) /\ h_obj s = OIdle /\ h_worker s = WCall.
Proof. do 2 eexists. split; [split; [|split]; cbn; [intuition discriminate|intuition discriminate|lia]|]. repeat split. Qed.

(** C102: what a failed start reports: the cause, then "not running", and every further start is refused as busy. *)
Theorem C102_failed_start : forall debug n,
  exists s, h_run debug h_init (HStart false :: HIsRunning :: repeat (HStart true) n) =
    Some (Ok (s, TaskFreed :: (if debug then StartExc MemoryError else StartRet MemoryError) :: IsRunningRet false :: repeat (if debug then StartExc BusyError else StartRet BusyError) n)).
Proof.
  intros d n. set (s1 := MkH false true (h_joinreq h_init) false (h_worker h_init) (h_pending h_init) (h_reaped h_init) OIdle).
  assert (G : forall n, h_run d s1 (repeat (HStart true) n) = Some (Ok (s1, repeat (if d then StartExc BusyError else StartRet BusyError) n))).
  { clear n. induction n as [|n IH]; [reflexivity|]. cbn [repeat h_run]. cbn [h_step h_obj h_started s1] in *. rewrite IH. reflexivity. }
  exists s1. cbn [h_run]. change (h_step d h_init (HStart false)) with (Some (Ok (s1, [TaskFreed; if d then StartExc MemoryError else StartRet MemoryError]))). cbv beta iota.
  change (h_step d s1 HIsRunning) with (Some (Ok (s1, [IsRunningRet false]))). cbv beta iota. rewrite G. reflexivity.
Qed.
Print Assumptions C102_failed_start.

(** Cases meeting the hypotheses of C97, C99, C101, C102, C105 and C106. *)
Example C97_case : timed_result 100 20 90 = true /\ timed_result 100 20 110 = false /\ 20 <= 100 < 110.
Proof. repeat split; try reflexivity; lia. Qed.
Example C101_case : exists s tr, calm [HStart true; HWork; HIsRunning] /\ h_run true h_init [HStart true; HWork; HIsRunning] = Some (Ok (s, tr)) /\ h_obj s = OIdle /\ hcount is_created tr = 1%nat.
Proof. eexists _, _. split; [repeat split; cbn; intuition discriminate || lia|]. repeat split; reflexivity. Qed.
Example C102_case : Forall quiet [HIsRunning; HJoin; HIsRunning] /\ In HJoin [HIsRunning; HJoin; HIsRunning].
Proof. split; [repeat constructor|cbn; auto]. Qed.
Example C105_case : 10 <= 99 - 1 /\ (forall q, In q [LowP; CriticalP; BackgroundP] -> real_time q = false) /\ by_niceness HighP = true.
Proof. split; [lia|]. split; [intros q [<-|[<-|[<-|[]]]]; reflexivity|reflexivity]. Qed.
Example C106_case : set_priority true false 1 99 (MkSched None 0) RT3 = Throw PermissionsError /\ set_priority false false 1 99 (MkSched None 0) CriticalP = Ok (false, MkSched None 0).
Proof. split; reflexivity. Qed.

(** One thread alone is never interrupted. *)
Lemma alone_uninterrupted d u sch : Forall (fun x => fst x = u) sch -> uninterrupted d sch.
Proof.
  intros A sch1 v a sch2 s tr t E R ST. rewrite E in A. apply Forall_app in A as [A1 A2]. inversion_clear A2 as [|? ? AV _]. cbn in AV. subst v.
  destruct (Nat.eq_dec u t) as [|N]; [assumption|]. exfalso.
  assert (G : forall l s0 s1 e, Forall (fun x => fst x = u) l -> m_run d s0 l = Some (s1, e) -> m_pc s1 t = m_pc s0 t).
  { clear - N. induction l as [|[v a] l IH]; intros s0 s1 e F H; cbn [m_run] in H; [injection H as <- <-; reflexivity|].
    inversion_clear F as [|? ? F1 F2]. cbn in F1. subst v. destruct (m_step d s0 u a) as [[s2 e2]|] eqn:M; [|discriminate]. destruct (m_run d s2 l) as [[s3 e3]|] eqn:R; [|discriminate].
    injection H as <- <-. rewrite (IH _ _ _ F2 R). unfold m_step in M.
    assert (U : forall p, fupd (m_pc s0) u p t = m_pc s0 t) by (intros p; unfold fupd; destruct (Nat.eqb_spec t u); [congruence|reflexivity]).
    repeat match type of M with context [match ?x with _ => _ end] => destruct x; try discriminate end; injection M as <- <-; cbn [m_pc m_goto]; auto. }
  rewrite (G sch1 m_init s tr A1 R) in ST. discriminate.
Qed.
(** C96 and C95: a thread that locks twice, is refused, unlocks and locks again meets the hypotheses; one failure is counted. *)
Example C96_counted_case : exists sch s tr, m_run true m_init sch = Some (s, tr) /\ uninterrupted true sch /\ (forall t, ~ In (t, CallTimed) sch) /\ disciplined tr /\ quiescent s /\
  threw tr = 1 /\ m_locks s = 2.
Proof.
  pose (sch := [(0, CallLock); (0, Go); (0, Go); (0, Go); (0, CallLock); (0, Go); (0, Go); (0, Go);
     (0, CallUnlock); (0, Go); (0, Go); (0, Go); (0, CallLock); (0, Go); (0, Go); (0, Go)]%nat).
  assert (U : uninterrupted true sch) by (apply (alone_uninterrupted true 0%nat); repeat constructor).
  destruct (m_run true m_init sch) as [[s tr]|] eqn:R; [|vm_compute in R; discriminate].
  exists sch, s, tr. split; [exact R|]. vm_compute in R. injection R as <- <-. split; [exact U|]. split; [intros t I; cbn in I; intuition discriminate|].
  split; [apply disc_check; reflexivity|]. split; [intros [|t]; left; reflexivity|]. split; reflexivity.
Qed.
Example C95_uninterrupted_case : exists sch s tr, m_run false m_init sch = Some (s, tr) /\ uninterrupted false sch /\ disciplined tr /\ (forall t, m_pc s t = Rest) /\ (forall t, ~ inside tr t) /\ In (Acquired 0) tr /\ m_locks s = 0.
Proof.
  pose (sch := [(0, CallLock); (0, Go); (0, Go); (0, Go); (0, CallUnlock); (0, Go); (0, Go); (0, Go)]%nat).
  assert (U : uninterrupted false sch) by (apply (alone_uninterrupted false 0%nat); repeat constructor).
  destruct (m_run false m_init sch) as [[s tr]|] eqn:R; [|vm_compute in R; discriminate].
  exists sch, s, tr. split; [exact R|]. vm_compute in R. injection R as <- <-. split; [exact U|]. split; [apply disc_check; reflexivity|]. split; [intros [|t]; reflexivity|].
  split; [intros t HI; apply insideb_spec in HI; destruct t as [|t]; vm_compute in HI; discriminate|]. split; [cbn; tauto|reflexivity].
Qed.
