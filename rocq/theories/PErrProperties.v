(** Properties of failed system calls (C255-C257). *)
From Verif Require Import Base PErrModel.
Open Scope Z_scope.

Ltac tables := cbn [pick]; repeat match goal with |- context [?e =? ?k] => destruct (Z.eqb_spec e k) end; intuition (congruence || lia).

(** * C255: threads *)
(** Whatever pthread_create returns: a release build returns the code a debug build throws; nothing but success is reported as such. *)
Theorem C255_start : forall r,
  (r = 0 -> forall debug, thread_start debug r = Gave CNone) /\
  (r <> 0 -> exists c, thread_start true r = Threw c /\ thread_start false r = Gave c /\ c <> CNone /\
     (c = CMemory <-> r = 11) /\ (c = CPermissions <-> r = 1) /\ (c = CInvalidInput <-> r = 22) /\ (c = CUnknown <-> r <> 11 /\ r <> 1 /\ r <> 22)).
Proof.
  intros r. unfold thread_start. split; intros H; [subst; reflexivity|]. destruct (Z.eqb_spec r 0); [contradiction|]. exists (create_error r). unfold create_exception, create_error. tables.
Qed.
Print Assumptions C255_start.
(** Joining and cancelling: debug builds throw on every failure, release builds on none. *)
Theorem C255_join_cancel : forall r,
  (thread_join true r = Gave tt <-> r = 0) /\ (thread_cancel true r = Gave tt <-> r = 0) /\ thread_join false r = Gave tt /\ thread_cancel false r = Gave tt /\
  (thread_join true r = Threw CUsage <-> r = 35) /\ (thread_join true r = Threw CInvalidInput <-> r = 22 \/ r = 3) /\
  (thread_cancel true r = Threw CInvalidInput <-> r = 22 \/ r = 3) /\ (thread_cancel true r = Threw CUnknown <-> r <> 0 /\ r <> 35 /\ r <> 22 /\ r <> 3).
Proof. intros r. unfold thread_join, thread_cancel, asserted, join_exception. cbn [andb]. destruct (Z.eqb_spec r 0); cbn [negb andb]; tables. Qed.
Print Assumptions C255_join_cancel.
(** cancel() takes the table meant for join(): for what pthread_cancel can return, ESRCH, they agree; they differ at EDEADLK and EINVAL only. *)
Theorem C255_cancel_table : forall r, r <> 0 -> (thread_cancel true r = Threw (cancel_exception r) <-> r <> 35 /\ r <> 22).
Proof. intros r H. unfold thread_cancel, join_exception, cancel_exception. destruct (Z.eqb_spec r 0); [contradiction|]. tables. Qed.
Print Assumptions C255_cancel_table.
Example C255_example : thread_start true 11 = Threw CMemory /\ thread_start false 11 = Gave CMemory /\ thread_cancel true 3 = Threw CInvalidInput.
Proof. repeat split. Qed.

(** * C256: mutexes *)
(** Debug builds: true means locked and counted, false means it was held (or the time ran out), anything else is an exception. *)
Theorem C256_trylock_partial : forall r n,
  (fst (mutex_trylock true r n) = Gave true <-> r = 0) /\ (fst (mutex_trylock true r n) = Gave false <-> r = 16) /\
  (fst (mutex_timed true r n) = Gave true <-> r = 0) /\ (fst (mutex_timed true r n) = Gave false <-> r = 110) /\
  (0 <= n < 2 ^ 32 - 1 -> snd (mutex_trylock true r n) = (if r =? 0 then n + 1 else n) /\ snd (mutex_timed true r n) = (if r =? 0 then n + 1 else n)).
Proof.
  intros r n. unfold mutex_trylock, mutex_timed. destruct (Z.eqb_spec r 16), (Z.eqb_spec r 110), (Z.eqb_spec r 0); subst; try lia; cbn [negb andb fst snd]; repeat split; intros; try congruence; try lia;
    try (rewrite Z.mod_small by lia; reflexivity); reflexivity.
Qed.
Print Assumptions C256_trylock_partial.
(** Release builds take every other failure for success. *)
Theorem C256_trylock_release : forall r n,
  (fst (mutex_trylock false r n) = Gave true <-> r <> 16) /\ (fst (mutex_trylock false r n) = Gave false <-> r = 16) /\
  (fst (mutex_timed false r n) = Gave true <-> r <> 110) /\ (fst (mutex_timed false r n) = Gave false <-> r = 110).
Proof.
  intros r n. unfold mutex_trylock, mutex_timed. destruct (Z.eqb_spec r 16), (Z.eqb_spec r 110); subst; try lia; cbn [andb fst]; repeat split; intros; try congruence; try lia; reflexivity.
Qed.
Print Assumptions C256_trylock_release.
(** So a try for a negative time, on a mutex somebody else holds, claims to have locked it. *)
Theorem C256_negative_refuted : exists nsec n, -1000000000 < nsec < 0 /\ mutex_trylock_for false true nsec n = (Gave true, n + 1) /\ mutex_trylock_for true true nsec n = (Threw CUsage, n).
Proof. exists (-500000000), 1. split; [lia|]. split; reflexivity. Qed.
Print Assumptions C256_negative_refuted.
(** For durations that are not negative both builds answer whether it was free. *)
Theorem C256_duration : forall debug held nsec n, 0 <= nsec < 1000000000 -> fst (mutex_trylock_for debug held nsec n) = Gave (negb held).
Proof.
  intros debug held nsec n H. unfold mutex_trylock_for, timedlock, mutex_timed. destruct held; cbn [negb]; [|destruct debug; reflexivity].
  destruct (Z.ltb_spec nsec 0); [lia|]. destruct (Z.leb_spec 1000000000 nsec); [lia|]. reflexivity.
Qed.
Print Assumptions C256_duration.
(** Locking and unlocking: debug builds throw on every failure, the counter moves all the same; release builds say nothing. *)
Theorem C256_lock : forall r n,
  (fst (mutex_lock true r n) = Gave tt <-> r = 0) /\ (fst (mutex_unlock true r n) = Gave tt <-> r = 0) /\ fst (mutex_lock false r n) = Gave tt /\ fst (mutex_unlock false r n) = Gave tt /\
  (fst (mutex_lock true r n) = Threw CUsage <-> r = 35) /\ (fst (mutex_lock true r n) = Threw COutOfRange <-> r = 11) /\
  (fst (mutex_unlock true r n) = Threw CPermissions <-> r = 1) /\ (fst (mutex_unlock true r n) = Threw CInvalidInput <-> r = 22) /\
  (forall debug, 0 <= n < 2 ^ 32 - 1 -> snd (mutex_lock debug r n) = n + 1) /\ (forall debug, 0 < n < 2 ^ 32 -> snd (mutex_unlock debug r n) = n - 1).
Proof.
  intros r n. unfold mutex_lock, mutex_unlock, asserted, lock_exception, unlock_exception. cbn [fst snd andb].
  assert (A : forall debug : bool, 0 <= n < 2 ^ 32 - 1 -> (n + 1) mod 2 ^ 32 = n + 1) by (intros; rewrite Z.mod_small; lia).
  assert (B : forall debug : bool, 0 < n < 2 ^ 32 -> (n - 1) mod 2 ^ 32 = n - 1) by (intros; rewrite Z.mod_small; lia).
  destruct (Z.eqb_spec r 0); cbn [negb]; cbn [pick]; repeat match goal with |- context [?e =? ?k] => destruct (Z.eqb_spec e k) end; repeat split; intros; first [congruence|lia|auto].
Qed.
Print Assumptions C256_lock.
(** A debug build that gets its mutex has initialised it; its exceptions name the first call that failed. *)
Theorem C256_make_partial : forall a s i d,
  (mutex_make true a s i d = Gave true <-> a = 0 /\ s = 0 /\ i = 0 /\ d = 0) /\ mutex_make true a s i d <> Gave false /\
  (mutex_make false a s i d = Gave true <-> s = 0 /\ i = 0) /\ (mutex_make false a s i d = Gave false <-> s <> 0 \/ i <> 0) /\
  (a = 0 -> s = 0 -> i <> 0 -> (mutex_make true a s i d = Threw CMemory <-> i = 11 \/ i = 12) /\ (mutex_make true a s i d = Threw CPermissions <-> i = 1) /\ (mutex_make true a s i d = Threw CInvalidInput <-> i = 22 \/ i = 16)) /\
  (a <> 0 -> (mutex_make true a s i d = Threw CMemory <-> a = 12)) /\ (a = 0 -> s <> 0 -> (mutex_make true a s i d = Threw CInvalidInput <-> s = 22)).
Proof.
  intros a s i d. unfold mutex_make, asserted. cbn [andb].
  destruct (Z.eqb_spec a 0), (Z.eqb_spec s 0), (Z.eqb_spec i 0), (Z.eqb_spec d 0); subst; cbn [negb andb]; change (0 =? 0) with true; cbv beta iota; unfold attr_exception, init_exception; cbn [pick];
    repeat match goal with |- context [?e =? ?k] => destruct (Z.eqb_spec e k) end; cbn [negb]; repeat split; intros; first [congruence | lia | tauto | (exfalso; lia) | (exfalso; congruence) | discriminate | idtac]; intuition (congruence || lia).
Qed.
Print Assumptions C256_make_partial.
(** In a release build a constructor that could not initialise the mutex returns all the same. *)
Theorem C256_make_refuted : exists i, i <> 0 /\ mutex_make false 0 0 i 0 = Gave false.
Proof. exists 12. split; [lia|reflexivity]. Qed.
Print Assumptions C256_make_refuted.

(** * C257: clocks, sleepers, semaphores, shared memory *)
Theorem C257_semaphores : forall r,
  (semaphore_trylock r = Gave true <-> r = 0) /\ (forall debug clock, semaphore_trylock_for debug clock r = Gave true <-> clock = true /\ r = 0) /\
  (forall debug, semaphore_trylock_for debug true 110 = Gave false) /\
  (forall clock, exists b, semaphore_trylock_for false clock r = Gave b) /\
  (semaphore_trylock_for true true r = Threw CInterrupted <-> r = 4) /\ (semaphore_trylock_for true true r = Threw CInvalidArg <-> r = 22) /\ (semaphore_trylock_for true true r = Threw CBlocking <-> r = 11) /\
  (semaphore_make true r = Gave true <-> r = 0) /\ semaphore_make true r <> Gave false /\
  (semaphore_make true r = Threw CPermissions <-> r = 13 \/ r = 17) /\ (semaphore_make true r = Threw CInvalidArg <-> r = 22 \/ r = 36) /\
  (semaphore_make true r = Threw COutOfResources <-> r = 23 \/ r = 24) /\ (semaphore_make true r = Threw CMemory <-> r = 12) /\ (semaphore_make true r = Threw CConfiguration <-> r = 2).
Proof.
  intros r. unfold semaphore_trylock, semaphore_trylock_for, semaphore_make, asserted, sem_try_exception, sem_open_exception. cbn [negb andb].
  split; [destruct (Z.eqb_spec r 0); intuition congruence|]. split.
  { intros debug [|]; cbn [negb]; [|intuition discriminate]. destruct (Z.eqb_spec r 0); [intuition congruence|]. destruct (Z.eqb_spec r 110), debug; intuition congruence. }
  split; [intros [|]; reflexivity|]. split.
  { intros [|]; cbn [negb]; [|exists false; reflexivity]. destruct (r =? 0); [exists true; reflexivity|]. destruct (r =? 110); exists false; reflexivity. }
  destruct (Z.eqb_spec r 0); cbn [negb]; tables.
Qed.
Print Assumptions C257_semaphores.
Theorem C257_clocks : forall r,
  (sleep_call true r = Gave tt <-> r = 0) /\ sleep_call false r = Gave tt /\ (stamp_call true r = Gave tt <-> r = 0) /\ stamp_call false r = Gave tt /\
  (sleep_call true r = Threw CInterrupted <-> r = 4) /\ (sleep_call true r = Threw CInvalidInput <-> r = 22) /\ (sleep_call true r = Threw CMemory <-> r = 14) /\
  (stamp_call true r = Threw CNotSupported <-> r = 22) /\ (stamp_call true r = Threw COutOfRange <-> r = 14) /\
  (priority_exception r = CPermissions <-> r = 1 \/ r = 13) /\ (priority_exception r = CInvalidInput <-> r = 3 \/ r = 22) /\ (priority_exception r = CUnknown <-> r <> 1 /\ r <> 13 /\ r <> 3 /\ r <> 22).
Proof. intros r. unfold sleep_call, stamp_call, asserted, sleep_exception, stamp_exception, priority_exception. cbn [andb]. destruct (Z.eqb_spec r 0); cbn [negb]; tables. Qed.
Print Assumptions C257_clocks.
(** What a mapping that failed is called, when closing and unlinking afterwards succeed. *)
Definition map_class (r : Z) (c : code) : Prop :=
  (c = CPermissions <-> r = 1 \/ r = 13) /\ (c = CMemory <-> r = 11 \/ r = 12) /\ (c = CInvalidArg <-> r = 9 \/ r = 22) /\ (c = COutOfResources <-> r = 23) /\ (c = CNotSupported <-> r = 19).
Theorem C257_shared_partial : forall r, (shared_open r = Gave tt <-> r = 0) /\ (forall closing unlinking, shared_map r closing unlinking = Gave tt <-> r = 0) /\
  (shared_open r = Threw CPermissions <-> r = 13) /\ (shared_open r = Threw COutOfResources <-> r = 23 \/ r = 24) /\ (shared_open r = Threw CInvalidArg <-> r = 2 \/ r = 22 \/ r = 36) /\ (shared_open r = Threw CNotSupported <-> r = 38) /\
  (r <> 0 -> exists c, shared_map r 0 0 = Threw c /\ map_class r c).
Proof.
  intros r. unfold shared_open, shared_map. split; [destruct (Z.eqb_spec r 0); intuition congruence|]. split; [intros; destruct (Z.eqb_spec r 0); intuition congruence|].
  unfold shm_open_exception. split; [|split; [|split; [|split]]]; try (destruct (Z.eqb_spec r 0); tables).
  intros H. destruct (Z.eqb_spec r 0); [contradiction|]. change (0 =? 0) with true. cbv iota. exists (map_exception r). split; [reflexivity|]. unfold map_class, map_exception. tables.
Qed.
Print Assumptions C257_shared_partial.
(** If they do not, it goes by their failure. *)
Theorem C257_shared_refuted : exists r unlinking c, r <> 0 /\ shared_map r 0 unlinking = Threw c /\ ~ map_class r c.
Proof. exists 12, 13, CPermissions. split; [lia|]. split; [reflexivity|]. intros [H _]. pose proof (proj1 H eq_refl). lia. Qed.
Print Assumptions C257_shared_refuted.
