(** Theorems about ecl_ipc (C37, C38 and the related C108-C115). *)
From Verif Require Import Base ThreadModel ThreadProofs IpcModel IpcProofs.

(** ** C37: mutual exclusion across processes. *)
Theorem C37_mutual_exclusion : forall sch s tr,
  p_run p_init sch = Some (s, tr) -> calm_sched sch -> pdisciplined tr ->
  forall p q, pinside tr p -> pinside tr q -> p = q.
Proof.
  intros sch s tr R CA DI p q HP HQ. apply pinsideb_spec in HP, HQ.
  destruct (pinv_run sch s tr R CA DI) as [h [_ I]].
  pose proof (I p). pose proof (I q). intuition congruence.
Qed.
Print Assumptions C37_mutual_exclusion.

(** The count is 1 exactly when nobody is inside or on the way out, and trylock then succeeds;
    while somebody is inside it is refused; neither blocks. *)
Theorem C37_trylock : forall sch s tr p,
  p_run p_init sch = Some (s, tr) -> calm_sched sch -> pdisciplined tr -> p_pc s p = PRest ->
  ((exists q, pinside tr q) -> p_step s p PTry = Some (s, [PRefused p])) /\
  ((forall q, p_pc s q = PRest /\ ~ pinside tr q) -> exists s1, p_step s p PTry = Some (s1, [PAcquired p])).
Proof.
  intros sch s tr p R CA DI PC. destruct (pinv_run sch s tr R CA DI) as [h [C I]].
  unfold p_step. rewrite PC. split.
  - intros [q HQ]. apply pinsideb_spec in HQ. pose proof (I q).
    destruct h; [|exfalso; intuition congruence]. rewrite C. reflexivity.
  - intros H. destruct h as [q|].
    + exfalso. destruct (H q) as [PQ NQ]. pose proof (I q) as IQ. rewrite PQ in IQ. cbn in IQ.
      destruct IQ as [[A _]|[[_ [B _]]|[_ [_ B]]]]; [apply NQ; now apply pinsideb_spec|discriminate|congruence].
    + rewrite C. eexists; reflexivity.
Qed.
Print Assumptions C37_trylock.

(** After unlock() by the holder the semaphore is free again. *)
Theorem C37_unlock_releases : forall sch s tr p,
  p_run p_init sch = Some (s, tr) -> calm_sched sch -> pdisciplined tr -> p_pc s p = PRest -> pinside tr p ->
  exists s1, p_run s [(p, PUnlock); (p, PGo); (p, PGo)] = Some (s1, [PUnlockCalled p; PUnlocked p]) /\ p_count s1 = 1.
Proof.
  intros sch s tr p R CA DI PC HP. apply pinsideb_spec in HP.
  destruct (pinv_run sch s tr R CA DI) as [h [C I]]. pose proof (I p) as IP.
  assert (C0 : p_count s = 0) by (destruct h; [exact C|exfalso; intuition congruence]).
  clear C R I IP. destruct s as [cnt pc]; cbn [p_count p_pc] in *. subst cnt.
  unfold p_run, p_step, p_goto; cbn [p_pc p_count]. rewrite PC. cbn [p_pc p_count].
  rewrite fupd_same. cbn [p_pc p_count Z.eqb]. rewrite fupd_same. eexists; split; reflexivity.
Qed.
Print Assumptions C37_unlock_releases.

Example C37_example :
  let sch := [(0, PLock); (0, PGo); (1, PLock); (2, PTry); (0, PUnlock); (0, PGo); (0, PGo); (1, PGo)]%nat in
  exists s tr, p_run p_init sch = Some (s, tr) /\ calm_sched sch /\ pdisciplined tr /\ pinside tr 1%nat.
Proof.
  eexists; eexists. split; [vm_compute; reflexivity|]. split.
  - intros p H. cbn in H. intuition discriminate.
  - split; [apply pdisc_check; reflexivity|]. apply pinsideb_spec. reflexivity.
Qed.

(** ** C108: an extra unlock() is not harmless: by a process that does not hold the semaphore, it
    releases somebody else's lock, and two such calls racing let the count rise to 2. *)
Theorem C108_extra_unlock_is_harmless_refuted :
  (exists sch s tr, p_run p_init sch = Some (s, tr) /\ calm_sched sch /\ pinside tr 0%nat /\ pinside tr 1%nat) /\
  (exists sch s tr, p_run p_init sch = Some (s, tr) /\ calm_sched sch /\ p_count s = 2).
Proof.
  split.
  - exists [(0, PLock); (0, PGo); (2, PUnlock); (2, PGo); (2, PGo); (1, PLock); (1, PGo)]%nat.
    eexists; eexists. split; [vm_compute; reflexivity|].
    split; [intros p H; cbn in H; intuition discriminate|].
    split; apply pinsideb_spec; reflexivity.
  - exists [(0, PLock); (0, PGo); (0, PUnlock); (0, PGo); (1, PUnlock); (1, PGo); (0, PGo); (1, PGo)]%nat.
    eexists; eexists. split; [vm_compute; reflexivity|].
    split; [intros p H; cbn in H; intuition discriminate|]. reflexivity.
Qed.
Print Assumptions C108_extra_unlock_is_harmless_refuted.

(** It is when the semaphore is free and nothing else moves during the call. *)
Theorem C108_extra_unlock_partial : forall s p, p_count s = 1 -> p_pc s p = PRest ->
  exists s1, p_run s [(p, PUnlock); (p, PGo)] = Some (s1, [PUnlockCalled p; PUnlocked p]) /\
    p_count s1 = 1 /\ forall q, p_pc s1 q = p_pc s q.
Proof.
  intros [cnt pc] p C PC; cbn [p_count p_pc] in *. subst cnt.
  unfold p_run, p_step, p_goto; cbn [p_pc p_count]. rewrite PC. cbn [p_pc p_count].
  rewrite fupd_same. cbn [p_pc p_count Z.eqb Pos.eqb]. eexists; split; [reflexivity|].
  cbn. split; [reflexivity|]. intros q. unfold fupd. destruct (Nat.eqb q p) eqn:E; auto.
  apply Nat.eqb_eq in E; subst; auto.
Qed.
Print Assumptions C108_extra_unlock_partial.

(** ** C109: a signal handled while waiting makes lock() return without the semaphore. *)
Theorem C109_lock_survives_signals_refuted :
  exists sch s tr, p_run p_init sch = Some (s, tr) /\ pdisciplined tr /\ pinside tr 0%nat /\ pinside tr 1%nat.
Proof.
  exists [(0, PLock); (0, PGo); (1, PLock); (1, PSignal)]%nat. eexists; eexists.
  split; [vm_compute; reflexivity|]. split; [apply pdisc_check; reflexivity|].
  split; apply pinsideb_spec; reflexivity.
Qed.
Print Assumptions C109_lock_survives_signals_refuted.

(** ** C38: the deadline of trylock(timeout). *)
Definition in_ns (t : Z * Z) : Z := fst t * 1000000000 + snd t.
Definition normal (t : Z * Z) : Prop := 0 <= fst t /\ 0 <= snd t < 1000000000.

Theorem C38_deadline : forall now timeout, normal now -> normal timeout ->
  normal (sem_deadline now timeout) /\
  in_ns now + in_ns timeout <= in_ns (sem_deadline now timeout) <= in_ns now + in_ns timeout + 1000000000 /\
  (snd now + snd timeout <> 999999999 -> in_ns (sem_deadline now timeout) = in_ns now + in_ns timeout).
Proof.
  intros [ns nn] [ts tn] [A B] [C D]. unfold sem_deadline, normal, in_ns in *. cbn [fst snd] in *.
  rewrite Z.rem_mod_nonneg by lia.
  destruct (nn + tn >=? 999999999) eqn:E; lia.
Qed.
Print Assumptions C38_deadline.

Example C38_example : normal (100, 700000000) /\ normal (2, 500000000) /\
  sem_deadline (100, 700000000) (2, 500000000) = (103, 200000000).
Proof. unfold normal; cbn; repeat split; lia. Qed.

(** ** C110: the exact deadline: one second late when the nanoseconds add up to 999999999. *)
Theorem C110_exact_deadline_refuted :
  exists now timeout, normal now /\ normal timeout /\
    in_ns (sem_deadline now timeout) = in_ns now + in_ns timeout + 1000000000.
Proof. exists (1700000000, 499999999), (0, 500000000). unfold normal; cbn. repeat split; lia. Qed.
Print Assumptions C110_exact_deadline_refuted.

(** ** C111: objects with the same name refer to the same semaphore, as long as none is destroyed. *)
Theorem C111_same_name_same_semaphore : forall sch s p q k l,
  n_run n_init sch = Some s -> no_destroy sch -> n_handle s p = Some k -> n_handle s q = Some l -> k = l.
Proof.
  intros sch s p q k l R ND HP HQ.
  assert (H : forall p k, n_handle s p = Some k -> n_reg s = Some k).
  { eapply n_run_shared; eauto. intros; discriminate. }
  apply H in HP, HQ. congruence.
Qed.
Print Assumptions C111_same_name_same_semaphore.

Example C111_example : exists s, n_run n_init [NOpen 3; NOpen 5]%nat = Some s /\ n_handle s 3%nat = n_handle s 5%nat /\
  n_handle s 5%nat = Some O.
Proof. eexists; repeat split. Qed.

(** ** C112: destroying any of the objects removes the name, so a later one gets another semaphore
    and does not exclude the earlier users. *)
Theorem C112_destroy_keeps_the_name_refuted :
  exists sch s k l, n_run n_init sch = Some s /\ n_handle s 0%nat = Some k /\ n_handle s 2%nat = Some l /\ k <> l.
Proof.
  exists [NOpen 0; NOpen 1; NDestroy 1; NOpen 2]%nat. eexists; exists 0%nat, 1%nat.
  split; [reflexivity|]. repeat split; congruence.
Qed.
Print Assumptions C112_destroy_keeps_the_name_refuted.

(** ** C113: shared memory: every reader sees the last value written by anyone, when the creator
    stays attached, all processes use the same Storage and constructors do not overlap other
    operations. *)
Theorem C113_shared_memory : forall size need f h,
  (forall p, need p = size) -> ~ In (Detach f) h ->
  match s_run need s_init (expand (Attach f :: h)) with
  | None => True                      (* not an execution *)
  | Some (Ok s) => forall h1 p w h2, h = h1 ++ ReadV p w :: h2 -> w = last_written 0 h1
  | Some _ => False                   (* no fault *)
  end.
Proof.
  intros size need f h HN ND. cbn [expand flat_map]. rewrite s_run_app.
  destruct (sinv_first need size f HN) as [s [-> I]].
  pose proof (sinv_run need size f h HN 0 s I ND) as H. fold (expand h).
  destruct (s_run need s (expand h)) as [[s1| |]|]; auto. apply H.
Qed.
Print Assumptions C113_shared_memory.

Example C113_example :
  exists s, s_run (fun _ => 8) s_init (expand [Attach 0; Attach 1; ReadV 1 0; Write 1 7; ReadV 0 7; Detach 1; Attach 2; ReadV 2 7]%nat) = Some (Ok s).
Proof. eexists. vm_compute. reflexivity. Qed.

(** ** C114: when a second process attaches and writes while the creator's constructor is still
    running, its write is lost. *)
Theorem C114_overlapping_attach_refuted :
  exists sch s, s_run (fun _ => 8) s_init sch = Some (Ok s) /\
    exists sch1 sch2, sch = sch1 ++ SWrite 1 7 :: sch2 ++ [SRead 1 0] /\
      (forall p v, ~ In (SWrite p v) sch2).
Proof.
  exists [SBegin 0; SNext 0; SNext 0; SBegin 1; SNext 1; SNext 1; SNext 1; SWrite 1 7; SNext 0; SRead 1 0]%nat.
  eexists. split; [vm_compute; reflexivity|].
  exists [SBegin 0; SNext 0; SNext 0; SBegin 1; SNext 1; SNext 1; SNext 1]%nat, [SNext 0]%nat.
  split; [reflexivity|]. intros p v [H|[]]. discriminate.
Qed.
Print Assumptions C114_overlapping_attach_refuted.

(** ** C115: the creator's destructor removes the name: a process that attaches later does not
    see the data of one that is still attached. *)
Theorem C115_creator_may_leave_refuted :
  exists h s, s_run (fun _ => 8) s_init (expand h) = Some (Ok s) /\
    exists h1 h2, h = h1 ++ [Write 1 7; Attach 2; ReadV 2 0; ReadV 1 7]%nat ++ h2.
Proof.
  exists [Attach 0; Attach 1; Detach 0; Write 1 7; Attach 2; ReadV 2 0; ReadV 1 7]%nat. eexists.
  split; [vm_compute; reflexivity|]. exists [Attach 0; Attach 1; Detach 0]%nat, []. reflexivity.
Qed.
Print Assumptions C115_creator_may_leave_refuted.

(** ** C116: attaching with a smaller Storage cuts the segment: the creator's next access faults. *)
Theorem C116_smaller_storage_refuted :
  s_run (fun p => if Nat.eqb p 0 then 8192 else 16) s_init (expand [Attach 0; Write 0 3; Attach 1; ReadV 0 3]%nat) = Some UB.
Proof. reflexivity. Qed.
Print Assumptions C116_smaller_storage_refuted.

Local Open Scope Z_scope.

(** ** C109: how many signals it takes: every interrupted lock() admits at most one more process. *)
Definition interrupted (sch : list (nat * pact)) : Z := Zlen (filter (fun x => match snd x with PSignal => true | _ => false end) sch).
Definition busy (s : pst) (tr : list pev) (p : nat) : Prop := pinsideb tr p = true \/ pun (p_pc s p) = true.
Lemma remove_len (p : nat) l : NoDup l -> Zlen l <= Zlen (remove Nat.eq_dec p l) + 1.
Proof.
  unfold Zlen. induction l as [|q l IH]; intros N; [cbn; lia|]. inversion N; subst. cbn [remove]. destruct (Nat.eq_dec p q) as [->|E].
  - rewrite notin_remove by assumption. cbn [List.length]. lia.
  - cbn [List.length]. specialize (IH H2). lia.
Qed.
Lemma remove_nodup (p : nat) l : NoDup l -> NoDup (remove Nat.eq_dec p l).
Proof.
  induction l as [|q l IH]; intros N; [constructor|]. inversion N; subst. cbn [remove]. destruct (Nat.eq_dec p q); auto. constructor; auto.
  intros J. apply in_remove in J. tauto.
Qed.
Definition binv (k : Z) (s : pst) (tr : list pev) : Prop := 0 <= p_count s /\
  (forall p, pun (p_pc s p) = true -> pinsideb tr p = false) /\
  forall l, NoDup l -> (forall p, In p l -> busy s tr p) -> Zlen l + p_count s <= 1 + k.
Lemma binv_step k s tr p a s1 e : binv k s tr -> pdisciplined (tr ++ e) -> p_step s p a = Some (s1, e) ->
  binv (k + match a with PSignal => 1 | _ => 0 end) s1 (tr ++ e).
Proof.
  intros (C0 & U & B) DI ST. unfold p_step, p_goto in ST.
  assert (NE : forall u, u <> p -> Nat.eqb p u = false) by (intros; apply Nat.eqb_neq; congruence).
  assert (same : forall s1 e, p_count s1 = p_count s -> (forall q, q <> p -> p_pc s1 q = p_pc s q) -> pun (p_pc s1 p) = pun (p_pc s p) ->
     (forall q, pinsideb (tr ++ e) q = pinsideb tr q) -> binv (k + 0) s1 (tr ++ e)).
  { intros s2 e2 A1 A2 A3 A4. unfold binv. rewrite A1, Z.add_0_r. split; [exact C0|]. split.
    - intros q H. rewrite A4. apply U. destruct (Nat.eq_dec q p) as [->|N]; [now rewrite <- A3|now rewrite <- A2].
    - intros l ND H. apply B; [exact ND|]. intros q J. destruct (H q J) as [X|X]; [left; now rewrite <- A4|right].
      destruct (Nat.eq_dec q p) as [->|N]; [now rewrite <- A3|now rewrite <- A2]. }
  assert (fp : forall c q, q <> p -> fupd (p_pc s) p c q = p_pc s q) by (intros; now apply fupd_other).
  assert (refuse : forall q, pinsideb (tr ++ [PRefused p]) q = pinsideb tr q) by (intros q; rewrite pinsideb_snoc; reflexivity).
  assert (done : forall q, pinsideb (tr ++ [PUnlocked p]) q = pinsideb tr q) by (intros q; rewrite pinsideb_snoc; reflexivity).
  assert (enter : forall n s2 j, 0 <= n -> n <= p_count s + j - 1 -> p_count s2 = n -> (forall q, q <> p -> p_pc s2 q = p_pc s q) -> pun (p_pc s2 p) = false -> binv (k + j) s2 (tr ++ [PAcquired p])).
  { intros n s2 j A0 A1 A2 A3 A4. unfold binv. rewrite A2. split; [exact A0|]. split.
    - intros q H. destruct (Nat.eq_dec q p) as [->|N]; [congruence|]. rewrite pinsideb_snoc. cbn [pev_in]. rewrite NE by exact N. apply U. now rewrite <- A3.
    - intros l ND H. pose proof (remove_len p l ND).
      assert (Zlen (remove Nat.eq_dec p l) + p_count s <= 1 + k); [|lia]. apply B; [now apply remove_nodup|].
      intros q J. apply in_remove in J as [J N]. destruct (H q J) as [X|X].
      + left. rewrite pinsideb_snoc in X. cbn [pev_in] in X. now rewrite NE in X.
      + right. now rewrite <- A3. }
  destruct (p_pc s p) eqn:PC; destruct a; try discriminate;
  repeat match type of ST with context [if ?c then _ else _] => destruct c eqn:? end; try discriminate; injection ST as <- <-.
  - apply same; cbn [p_count p_pc]; try reflexivity; [apply fp|rewrite fupd_same, ?PC; reflexivity|intros; now rewrite app_nil_r].
  - apply (enter (p_count s - 1)); cbn [p_count p_pc]; try lia; try reflexivity. rewrite ?PC; reflexivity.
  - apply same; auto. now rewrite PC.
  - apply same; cbn [p_count p_pc]; try reflexivity; [apply fp|rewrite fupd_same, ?PC; reflexivity|intros; now rewrite app_nil_r].
  - apply pdisciplined_last in DI as DI'. unfold binv. cbn [p_count p_pc]. rewrite Z.add_0_r. split; [exact C0|]. split.
    + intros q H. rewrite pinsideb_snoc. cbn [pev_in]. destruct (Nat.eq_dec q p) as [->|N]; [now rewrite Nat.eqb_refl|]. rewrite NE by exact N. apply U. now rewrite <- (fp PCount).
    + intros l ND H. apply B; [exact ND|]. intros q J. destruct (Nat.eq_dec q p) as [->|N]; [now left|]. destruct (H q J) as [X|X].
      * left. rewrite pinsideb_snoc in X. cbn [pev_in] in X. now rewrite NE in X.
      * right. cbn [p_pc] in X. now rewrite fp in X.
  - apply (enter (p_count s - 1)); cbn [p_count p_pc]; try lia; try reflexivity; [apply fp|now rewrite fupd_same].
  - apply (enter (p_count s)); cbn [p_count p_pc]; try lia; try reflexivity; [apply fp|now rewrite fupd_same].
  - apply (enter (p_count s - 1)); cbn [p_count p_pc]; try lia; try reflexivity; [apply fp|now rewrite fupd_same].
  - apply same; cbn [p_count p_pc]; try reflexivity; [apply fp|rewrite fupd_same, ?PC; reflexivity|exact refuse].
  - unfold binv. cbn [p_count p_pc]. rewrite Z.add_0_r. split; [exact C0|]. split.
    + intros q H. rewrite done. destruct (Nat.eq_dec q p) as [->|N]; [now rewrite fupd_same in H|]. apply U. now rewrite <- (fp PRest).
    + intros l ND H. apply B; [exact ND|]. intros q J. destruct (Nat.eq_dec q p) as [->|N]; [right; rewrite ?PC; reflexivity|]. destruct (H q J) as [X|X].
      * left. now rewrite <- done. 
      * right. cbn [p_pc] in X. now rewrite fp in X.
  - apply same; cbn [p_count p_pc]; try reflexivity; [apply fp|rewrite fupd_same, ?PC; reflexivity|intros; now rewrite app_nil_r].
  - assert (UP : pinsideb tr p = false) by (apply U; rewrite ?PC; reflexivity). unfold binv. cbn [p_count p_pc]. rewrite Z.add_0_r. split; [lia|]. split.
    + intros q H. rewrite done. destruct (Nat.eq_dec q p) as [->|N]; [now rewrite fupd_same in H|]. apply U. now rewrite <- (fp PRest).
    + intros l ND H. assert (NI : ~ In p l). { intros J. destruct (H p J) as [X|X]; [rewrite done in X; congruence|]. cbn [p_pc] in X. now rewrite fupd_same in X. }
      assert (Zlen (p :: l) + p_count s <= 1 + k).
      { apply B; [now constructor|]. intros q [<-|J]; [right; rewrite ?PC; reflexivity|]. assert (N : q <> p) by (intros ->; tauto). destruct (H q J) as [X|X].
        - left. now rewrite <- done.
        - right. cbn [p_pc] in X. now rewrite fp in X. }
      unfold Zlen in *. cbn [List.length] in *. lia.
Qed.
Theorem C109_signals_partial : forall sch s tr l, p_run p_init sch = Some (s, tr) -> pdisciplined tr -> NoDup l -> (forall p, In p l -> pinside tr p) ->
  Zlen l <= 1 + interrupted sch.
Proof.
  intros sch s tr l R DI ND H.
  assert (G : binv (interrupted sch) s tr); [|destruct G as (C0 & _ & B); specialize (B l ND); assert (Zlen l + p_count s <= 1 + interrupted sch); [|lia]; apply B; intros p J; left; apply pinsideb_spec; auto].
  clear l ND H. revert s tr R DI. induction sch as [|[t a] sch IH] using rev_ind; intros s tr R DI.
  - injection R as <- <-. unfold binv, busy, interrupted. cbn. repeat split; try lia; try discriminate. intros [|x l] ND H; [cbn; lia|]. destruct (H x (or_introl eq_refl)); discriminate.
  - rewrite p_run_app in R. destruct (p_run p_init sch) as [[s1 e1]|] eqn:E; [|discriminate].
    cbn [p_run] in R. destruct (p_step s1 t a) as [[s2 e2]|] eqn:E2; [|discriminate].
    injection R as <- <-. rewrite app_nil_r in *. unfold interrupted. rewrite filter_app, Zlen_app. fold (interrupted sch).
    replace (Zlen (filter _ [(t, a)])) with (match a with PSignal => 1 | _ => 0 end) by (destruct a; reflexivity).
    eapply binv_step; eauto. apply IH; auto. eapply pdisciplined_prefix; eauto.
Qed.
Print Assumptions C109_signals_partial.
Example C109_case : exists s tr, p_run p_init [(0, PLock); (0, PGo); (1, PLock); (1, PSignal); (0, PUnlock); (1, PUnlock); (0, PGo); (1, PGo); (0, PGo); (1, PGo)]%nat = Some (s, tr) /\ pdisciplined tr /\ p_count s = 2.
Proof. eexists; eexists. split; [vm_compute; reflexivity|]. split; [apply pdisc_check; reflexivity|reflexivity]. Qed.

(** ** C110: exactly when the deadline is late. *)
Theorem C110_deadline_partial : forall now timeout, normal now -> normal timeout ->
  (in_ns (sem_deadline now timeout) = in_ns now + in_ns timeout <-> snd now + snd timeout <> 999999999).
Proof.
  intros [ns nn] [ts tn] [A B] [C D]. unfold sem_deadline, normal, in_ns in *. cbn [fst snd] in *. rewrite Z.rem_mod_nonneg by lia.
  destruct (nn + tn >=? 999999999) eqn:E; lia.
Qed.
Print Assumptions C110_deadline_partial.

(** ** C112: two objects refer to the same semaphore exactly when none was destroyed between their constructions. *)
Lemma n_run_app a b : forall s, n_run s (a ++ b) = match n_run s a with Some s1 => n_run s1 b | None => None end.
Proof. induction a as [|x a IH]; intros s; cbn [n_run app]; [reflexivity|]. destruct (n_step s x); auto. Qed.
Definition fresh_names (s : nst) : Prop := (forall k, n_reg s = Some k -> (k < n_next s)%nat).
Lemma n_step_fresh s a s1 : n_step s a = Some s1 -> fresh_names s -> fresh_names s1 /\ (n_next s <= n_next s1)%nat.
Proof.
  unfold fresh_names. destruct a as [p|p]; cbn [n_step]; destruct (n_handle s p); try discriminate.
  - destruct (n_reg s) as [k|] eqn:R; intros [= <-] F; cbn [n_reg n_next]; (split; [|lia]); intros j [= <-]; [now apply F|lia].
  - intros [= <-] F; cbn [n_reg n_next]. split; [discriminate|lia].
Qed.
Lemma n_run_keep h : forall s s1 p, n_run s h = Some s1 -> n_handle s p <> None -> ~ In (NDestroy p) h -> n_handle s1 p = n_handle s p.
Proof.
  induction h as [|a h IH]; intros s s1 p R H ND; cbn [n_run] in R; [congruence|]. destruct (n_step s a) as [s2|] eqn:E; [|discriminate].
  assert (K : n_handle s2 p = n_handle s p).
  { destruct a as [q|q]; cbn [n_step] in E; destruct (n_handle s q) eqn:Q; try discriminate.
    - assert (p <> q) by (intros ->; congruence). destruct (n_reg s); injection E as <-; cbn; now rewrite fupd_other.
    - assert (p <> q) by (intros ->; apply ND; now left). injection E as <-. cbn. now rewrite fupd_other. }
  rewrite (IH s2 s1 p R); [exact K|congruence|]. intros J. apply ND. now right.
Qed.
Lemma n_run_names h k : forall s s1, n_run s h = Some s1 -> fresh_names s -> (k < n_next s)%nat ->
  fresh_names s1 /\ (k < n_next s1)%nat /\
  (n_reg s = Some k -> (forall r, ~ In (NDestroy r) h) -> n_reg s1 = Some k) /\
  ((forall j, n_reg s = Some j -> (k < j)%nat) \/ (exists r, In (NDestroy r) h) -> forall j, n_reg s1 = Some j -> (k < j)%nat).
Proof.
  induction h as [|a h IH]; intros s s1 R F K; cbn [n_run] in R.
  - injection R as <-. repeat split; auto. intros [H|[r []]]; exact H.
  - destruct (n_step s a) as [s2|] eqn:E; [|discriminate]. destruct (n_step_fresh _ _ _ E F) as [F2 N2].
    destruct (IH s2 s1 R F2 ltac:(lia)) as (F3 & K3 & A & B). split; [exact F3|split; [exact K3|split]].
    + intros H ND. apply A; [|intros r J; apply (ND r); now right]. destruct a as [q|q]; [|exfalso; apply (ND q); now left].
      cbn [n_step] in E. rewrite H in E. destruct (n_handle s q); [discriminate|]. injection E as <-. reflexivity.
    + intros H. apply B. destruct a as [q|q]; cbn [n_step] in E; destruct (n_handle s q) eqn:Q; try discriminate.
      * destruct H as [H|[r [J|J]]]; [left|discriminate|right; eauto].
        destruct (n_reg s) as [j|] eqn:G; injection E as <-; cbn; intros j' [= <-]; [now apply H|exact K].
      * left. injection E as <-. cbn. discriminate.
Qed.
Lemma n_run_fresh h : forall s s1, n_run s h = Some s1 -> fresh_names s -> fresh_names s1.
Proof.
  induction h as [|a h IH]; intros s s1 R F; cbn [n_run] in R; [injection R as <-; exact F|]. destruct (n_step s a) as [s2|] eqn:E; [|discriminate].
  destruct (n_step_fresh _ _ _ E F). eauto.
Qed.
Theorem C112_same_name_partial : forall h1 p h2 q h3 s, n_run n_init (h1 ++ NOpen p :: h2 ++ NOpen q :: h3) = Some s ->
  ~ In (NDestroy p) (h2 ++ h3) -> ~ In (NDestroy q) h3 ->
  n_handle s p <> None /\ n_handle s q <> None /\ (n_handle s p = n_handle s q <-> forall r, ~ In (NDestroy r) h2).
Proof.
  intros h1 p h2 q h3 s R NP NQ. rewrite n_run_app in R. destruct (n_run n_init h1) as [s1|] eqn:R1; [|discriminate].
  assert (F1 : fresh_names s1) by (apply (n_run_fresh h1 n_init); [exact R1|unfold fresh_names; cbn; discriminate]).
  cbn [n_run] in R. destruct (n_step s1 (NOpen p)) as [s2|] eqn:E2; [|discriminate]. destruct (n_step_fresh _ _ _ E2 F1) as [F2 _].
  assert (P : exists k, n_handle s2 p = Some k /\ n_reg s2 = Some k).
  { cbn [n_step] in E2. destruct (n_handle s1 p); [discriminate|]. destruct (n_reg s1) as [k|]; injection E2 as <-; cbn; rewrite fupd_same; eauto. }
  destruct P as (k & P & G2). rewrite n_run_app in R. destruct (n_run s2 h2) as [s3|] eqn:R3; [|discriminate]. cbn [n_run] in R.
  destruct (n_step s3 (NOpen q)) as [s4|] eqn:E4; [|discriminate].
  destruct (n_run_names h2 k s2 s3 R3 F2 (F2 k G2)) as (F3 & K3 & A & B).
  assert (P3 : n_handle s3 p = Some k) by (rewrite (n_run_keep h2 s2 s3 p R3); [exact P|congruence|intros J; apply NP, in_or_app; now left]).
  assert (Q : exists j, n_handle s4 q = Some j /\ n_handle s4 p = Some k /\ (n_reg s3 = None /\ j = n_next s3 \/ n_reg s3 = Some j)).
  { cbn [n_step] in E4. destruct (n_handle s3 q) eqn:Q; [discriminate|]. assert (p <> q) by (intros ->; congruence).
    destruct (n_reg s3) as [j|] eqn:G3; injection E4 as <-; cbn; rewrite fupd_same, fupd_other by assumption; eauto 8. }
  destruct Q as (j & Q & P4 & Hj).
  assert (EP : n_handle s p = Some k) by (rewrite (n_run_keep h3 s4 s p R); [exact P4|congruence|intros J; apply NP, in_or_app; now right]).
  assert (EQ : n_handle s q = Some j) by (rewrite (n_run_keep h3 s4 s q R); [exact Q|congruence|exact NQ]).
  rewrite EP, EQ. split; [discriminate|split; [discriminate|]]. split.
  - intros [= <-] r J. destruct Hj as [[_ Hj]|Hj]; [lia|]. assert (k < k)%nat; [|lia]. apply (B (or_intror (ex_intro _ r J)) k Hj).
  - intros ND. specialize (A G2 ND). destruct Hj as [[Hj _]|Hj]; congruence.
Qed.
Print Assumptions C112_same_name_partial.
Example C112_case : exists s, n_run n_init ([NOpen 3; NDestroy 3] ++ NOpen 0 :: [NOpen 1] ++ NOpen 2 :: [NDestroy 1])%nat = Some s /\ n_handle s 0%nat = n_handle s 2%nat.
Proof. eexists. split; reflexivity. Qed.

(** ** C114: constructors may overlap anything except writes before the creator's constructor has returned. *)
Definition nexts (f : nat) (sch : list sact) : Z := Zlen (filter (fun a => match a with SNext p => Nat.eqb p f | _ => false end) sch).
Definition latest (sch : list sact) : Z := fold_left (fun v a => match a with SWrite _ w => w | _ => v end) sch 0.
Definition stage (c : Z) (p : spos) : Prop :=
  (c = 0 /\ p = MOpened 0 true) \/ (c = 1 /\ p = MMapped 0 true) \/ (c = 2 /\ p = MSized 0 true) \/ (c = 3 /\ p = MAttached 0 true).
Definition later (x size : Z) (p : spos) : Prop :=
  p = MNone \/ p = MOpened 0 false \/ p = MMapped 0 false \/ (p = MSized 0 false /\ x = size) \/ (p = MAttached 0 false /\ x = size).
Definition oinv (size : Z) (f : nat) (c v : Z) (s : shst) : Prop := exists x,
  s_reg s = Some O /\ s_segs s = [v] /\ s_len s = [x] /\ stage c (s_pos s f) /\ (c >= 2 -> x = size) /\ (c < 3 -> v = 0) /\
  forall p, p <> f -> later x size (s_pos s p).
Lemma nexts_snoc f sch a : nexts f (sch ++ [a]) = nexts f sch + match a with SNext p => if Nat.eqb p f then 1 else 0 | _ => 0 end.
Proof. unfold nexts. rewrite filter_app, Zlen_app. f_equal. cbn [filter]. destruct a; try reflexivity. now destruct (Nat.eqb p f). Qed.
Lemma latest_snoc sch a : latest (sch ++ [a]) = match a with SWrite _ w => w | _ => latest sch end.
Proof. unfold latest. rewrite fold_left_app. cbn. now destruct a. Qed.
Lemma oinv_step need size f c v s a : (forall p, need p = size) -> oinv size f c v s -> a <> SDestroy f -> (forall p w, a = SWrite p w -> 3 <= c) ->
  match s_step need s a with
  | None => True
  | Some (Ok s1) => oinv size f (c + match a with SNext p => if Nat.eqb p f then 1 else 0 | _ => 0 end) (match a with SWrite _ w => w | _ => v end) s1 /\ (forall p w, a = SRead p w -> w = v)
  | Some _ => False
  end.
Proof.
  intros HN (x & RG & SG & LN & ST & X2 & V3 & LT) ND HW.
  assert (FP : forall p q, q <> p -> forall z, fupd (s_pos s) p z q = s_pos s q) by (intros; now apply fupd_other).
  assert (Y : forall p k m, s_pos s p = MAttached k m -> k = O /\ x = size).
  { intros p k m E. destruct (Nat.eq_dec p f) as [->|N].
    - unfold stage in ST. rewrite E in ST. assert (c = 3 /\ k = O) as [C K] by intuition congruence. split; [exact K|apply X2; lia].
    - specialize (LT p N). unfold later in LT. rewrite E in LT. intuition congruence. }
  destruct a as [p|p|p w|p w|p]; cbn [s_step].
  - destruct (s_pos s p) eqn:P; auto. rewrite RG. split; [|discriminate]. rewrite Z.add_0_r. exists x. cbn [s_reg s_segs s_len s_pos].
    assert (N : p <> f) by (intros ->; unfold stage in ST; rewrite P in ST; intuition congruence).
    rewrite FP by congruence. repeat (split; [assumption || reflexivity|]). intros q Q. destruct (Nat.eq_dec q p) as [->|NQ]; [rewrite fupd_same; right; now left|rewrite FP by exact NQ; auto].
  - destruct (Nat.eq_dec p f) as [->|N].
    + rewrite Nat.eqb_refl. unfold stage in ST. destruct ST as [[C E]|[[C E]|[[C E]|[C E]]]]; rewrite E; auto.
      * split; [|discriminate]. exists x. cbn [s_reg s_segs s_len s_pos]. rewrite fupd_same. repeat (split; [assumption || reflexivity|]). split; [right; left; split; [lia|reflexivity]|].
        split; [lia|]. split; [intros; apply V3; lia|]. intros q Q. rewrite FP by exact Q. auto.
      * split; [|discriminate]. exists size. cbn [s_reg s_segs s_len s_pos]. rewrite fupd_same. rewrite LN, HN. cbn [upd]. repeat (split; [assumption || reflexivity|]). split; [right; right; left; split; [lia|reflexivity]|].
        split; [reflexivity|]. split; [intros; apply V3; lia|]. intros q Q. rewrite FP by exact Q. specialize (LT q Q). unfold later in *. tauto.
      * assert (x = size) by (apply X2; lia). subst x. rewrite LN, HN, SG. cbn [nth]. rewrite Z.ltb_irrefl. split; [|discriminate]. exists size. cbn [s_reg s_segs s_len s_pos upd].
        rewrite fupd_same. rewrite (V3 ltac:(lia)) in *. repeat (split; [assumption || reflexivity|]). split; [right; right; right; split; [lia|reflexivity]|].
        split; [reflexivity|]. split; [reflexivity|]. intros q Q. rewrite FP by exact Q. auto.
    + replace (Nat.eqb p f) with false by (symmetry; now apply Nat.eqb_neq). rewrite Z.add_0_r.
      assert (NF : f <> p) by congruence. pose proof (LT p N) as LP. unfold later in LP.
      destruct LP as [E|[E|[E|[[E EX]|[E EX]]]]]; rewrite E; auto; (split; [|discriminate]).
      * exists x. cbn [s_reg s_segs s_len s_pos]. rewrite FP by exact NF. repeat (split; [assumption || reflexivity|]). intros q Q. destruct (Nat.eq_dec q p) as [->|NQ]; [rewrite fupd_same; right; right; now left|rewrite FP by exact NQ; auto].
      * exists size. cbn [s_reg s_segs s_len s_pos]. rewrite FP by exact NF. rewrite LN, HN. cbn [upd]. repeat (split; [assumption || reflexivity|]). intros q Q.
        destruct (Nat.eq_dec q p) as [->|NQ]; [rewrite fupd_same; right; right; right; left; split; reflexivity|rewrite FP by exact NQ]. specialize (LT q Q). unfold later in *. tauto.
      * exists x. cbn [s_reg s_segs s_len s_pos]. rewrite FP by exact NF. repeat (split; [assumption || reflexivity|]). intros q Q. destruct (Nat.eq_dec q p) as [->|NQ]; [rewrite fupd_same; right; right; right; right; split; [reflexivity|exact EX]|rewrite FP by exact NQ; auto].
  - destruct (s_pos s p) eqn:P; auto. destruct (Y p _ _ P) as [-> EX]. rewrite LN, HN. cbn [nth]. rewrite EX, Z.ltb_irrefl. split; [|discriminate]. rewrite Z.add_0_r.
    exists size. cbn [s_reg s_segs s_len s_pos]. rewrite SG. cbn [upd]. subst x. repeat (split; [assumption || reflexivity|]). split; [|exact LT]. specialize (HW p w eq_refl). lia.
  - destruct (s_pos s p) eqn:P; auto. destruct (Y p _ _ P) as [-> EX]. rewrite LN, HN. cbn [nth]. rewrite EX, Z.ltb_irrefl, SG. cbn [nth]. destruct (v =? w) eqn:E; auto.
    rewrite Z.add_0_r. split; [exists x; tauto|]. intros q u [= -> ->]. lia.
  - destruct (s_pos s p) eqn:P; auto. assert (N : p <> f) by congruence. pose proof (LT p N) as LP. unfold later in LP. rewrite P in LP.
    assert (manager = false /\ seg = O) as [-> ->] by intuition congruence. split; [|discriminate]. rewrite Z.add_0_r. exists x. cbn [s_reg s_segs s_len s_pos].
    rewrite FP by congruence. repeat (split; [assumption || reflexivity|]). intros q Q. destruct (Nat.eq_dec q p) as [->|NQ]; [rewrite fupd_same; now left|rewrite FP by exact NQ; auto].
Qed.
Lemma oinv_run need size f sch : (forall p, need p = size) -> ~ In (SDestroy f) sch -> (forall s1 p w s2, sch = s1 ++ SWrite p w :: s2 -> 3 <= nexts f s1) ->
  match s_run need s_init (SBegin f :: sch) with
  | None => True
  | Some (Ok s) => oinv size f (nexts f sch) (latest sch) s
  | Some _ => False
  end.
Proof.
  intros HN. induction sch as [|a sch IH] using rev_ind; intros ND HW.
  - cbn. exists 0. cbn. rewrite fupd_same. repeat (split; [reflexivity|]). split; [left; split; reflexivity|]. split; [unfold nexts; cbn; lia|]. split; [reflexivity|].
    intros p N. rewrite fupd_other by exact N. now left.
  - rewrite app_comm_cons, s_run_app.
    assert (IH' : match s_run need s_init (SBegin f :: sch) with None => True | Some (Ok s) => oinv size f (nexts f sch) (latest sch) s | Some _ => False end).
    { apply IH; [intros J; apply ND, in_or_app; now left|]. intros s1 p w s2 E. apply (HW s1 p w (s2 ++ [a])). rewrite E, <- app_assoc. reflexivity. }
    destruct (s_run need s_init (SBegin f :: sch)) as [[s| |]|]; auto.
    pose proof (oinv_step need size f _ _ s a HN IH') as H. cbn [s_run].
    assert (N1 : a <> SDestroy f) by (intros ->; apply ND, in_or_app; right; now left).
    specialize (H N1). assert (W1 : forall p w, a = SWrite p w -> 3 <= nexts f sch) by (intros p w ->; now apply (HW sch p w [])).
    specialize (H W1). destruct (s_step need s a) as [[s1| |]|]; auto. rewrite nexts_snoc, latest_snoc. apply H.
Qed.
(** [f] creates the segment and stays; the calls of all processes interleave in any way. *)
Theorem C114_overlapping_attach_partial : forall size need f sch, (forall p, need p = size) -> ~ In (SDestroy f) sch ->
  (forall s1 p w s2, sch = s1 ++ SWrite p w :: s2 -> 3 <= nexts f s1) ->
  match s_run need s_init (SBegin f :: sch) with
  | None => True                      (* not an execution *)
  | Some (Ok s) => forall s1 p w s2, sch = s1 ++ SRead p w :: s2 -> w = latest s1
  | Some _ => False                   (* no fault *)
  end.
Proof.
  intros size need f sch HN ND HW. pose proof (oinv_run need size f sch HN ND HW) as H.
  destruct (s_run need s_init (SBegin f :: sch)) as [[s| |]|] eqn:R; auto. intros s1 p w s2 E. subst sch.
  rewrite app_comm_cons, s_run_app in R. assert (I1 := oinv_run need size f s1 HN).
  assert (N1 : ~ In (SDestroy f) s1) by (intros J; apply ND, in_or_app; now left). specialize (I1 N1).
  assert (W1 : forall s3 p0 w0 s4, s1 = s3 ++ SWrite p0 w0 :: s4 -> 3 <= nexts f s3) by (intros s3 q u s4 E; apply (HW s3 q u (s4 ++ SRead p w :: s2)); rewrite E, <- app_assoc; reflexivity).
  specialize (I1 W1). destruct (s_run need s_init (SBegin f :: s1)) as [[t| |]|]; try easy.
  pose proof (oinv_step need size f _ _ t (SRead p w) HN I1 ltac:(discriminate) ltac:(discriminate)) as S. cbn [s_run] in R.
  destruct (s_step need t (SRead p w)) as [[t1| |]|]; try easy. destruct S as [_ S]. now apply (S p w).
Qed.
Print Assumptions C114_overlapping_attach_partial.
Example C114_case : exists s, s_run (fun _ => 8) s_init (SBegin 0 :: [SBegin 1; SNext 0; SNext 1; SNext 1; SNext 0; SNext 1; SRead 1 0; SNext 0; SWrite 1 7; SBegin 2; SRead 0 7; SNext 2; SWrite 0 9; SNext 2; SNext 2; SRead 2 9])%nat = Some (Ok s).
Proof. eexists. vm_compute. reflexivity. Qed.

(** ** C115: the creator may leave if nobody attaches afterwards. *)
Lemma last_written_app h1 h2 : forall v, last_written v (h1 ++ h2) = last_written (last_written v h1) h2.
Proof. induction h1 as [|o h1 IH]; intros v; [reflexivity|]. destruct o; cbn; auto. Qed.
Definition linv (size v : Z) (s : shst) : Prop := s_reg s = None /\ s_segs s = [v] /\ s_len s = [size] /\ (forall p, s_pos s p = MNone \/ s_pos s p = MAttached 0 false).
Lemma linv_run need size h : (forall p, need p = size) -> forall v s, linv size v s -> (forall p, ~ In (Attach p) h) ->
  match s_run need s (expand h) with
  | None => True
  | Some (Ok s1) => forall h1 p w h2, h = h1 ++ ReadV p w :: h2 -> w = last_written v h1
  | Some _ => False
  end.
Proof.
  intros HN. induction h as [|o h IH]; intros v s (RG & SG & LN & PS) NA; [cbn; intros h1 p w h2 E; destruct h1; discriminate|].
  cbn [expand flat_map]. rewrite s_run_app. fold (expand h).
  assert (NA' : forall p, ~ In (Attach p) h) by (intros p J; apply (NA p); now right).
  assert (K : forall v1 s1, linv size v1 s1 -> last_written v [o] = v1 -> (forall p w, o = ReadV p w -> w = v) ->
     match s_run need s1 (expand h) with None => True | Some (Ok s2) => forall h1 p w h2, o :: h = h1 ++ ReadV p w :: h2 -> w = last_written v h1 | Some _ => False end).
  { intros v1 s1 I1 E1 RD. pose proof (IH v1 s1 I1 NA') as H. destruct (s_run need s1 (expand h)) as [[s2| |]|]; auto.
    intros h1 p w h2 E. destruct h1 as [|x h1]; cbn [app] in E; injection E as -> E; [now apply (RD p w)|].
    rewrite (H _ _ _ _ E), <- E1. destruct x; reflexivity. }
  destruct o as [p|p w|p w|p]; cbn [expand1 s_run s_step].
  - exfalso. apply (NA p). now left.
  - destruct (PS p) as [P|P]; rewrite P; auto. rewrite LN, HN. cbn [nth]. rewrite Z.ltb_irrefl. apply (K w); [|reflexivity|discriminate].
    unfold linv. cbn. rewrite SG. repeat split; auto.
  - destruct (PS p) as [P|P]; rewrite P; auto. rewrite LN, HN. cbn [nth]. rewrite Z.ltb_irrefl, SG. cbn [nth]. destruct (v =? w) eqn:E; auto.
    apply (K v); [unfold linv; auto|reflexivity|]. intros q u [= -> ->]. lia.
  - destruct (PS p) as [P|P]; rewrite P; auto. apply (K v); [|reflexivity|discriminate]. unfold linv. cbn. repeat split; auto.
    intros q. destruct (Nat.eq_dec q p) as [->|N]; [left; apply fupd_same|rewrite fupd_other by exact N; auto].
Qed.
Theorem C115_creator_may_leave_partial : forall size need f h1 h2, (forall p, need p = size) -> ~ In (Detach f) h1 -> (forall p, ~ In (Attach p) h2) ->
  match s_run need s_init (expand (Attach f :: h1 ++ Detach f :: h2)) with
  | None => True
  | Some (Ok s) => forall h3 p w h4, h1 ++ Detach f :: h2 = h3 ++ ReadV p w :: h4 -> w = last_written 0 h3
  | Some _ => False
  end.
Proof.
  intros size need f h1 h2 HN ND NA. cbn [expand flat_map]. rewrite s_run_app. destruct (sinv_first need size f HN) as (s & -> & I).
  rewrite flat_map_app. cbn [flat_map]. fold (expand h1). fold (expand h2). rewrite s_run_app.
  pose proof (sinv_run need size f h1 HN 0 s I ND) as H. destruct (s_run need s (expand h1)) as [[s1| |]|]; auto.
  destruct H as [(RG & SG & LN & [m PF] & PS) RD]. cbn [expand1]. rewrite s_run_app. cbn [s_run s_step]. rewrite PF.
  assert (m = true). { destruct (PS f) as [E|E]; rewrite E in PF; [discriminate|]. rewrite Nat.eqb_refl in PF. congruence. } subst m.
  assert (L : linv size (last_written 0 h1) (MkS None (s_segs s1) (s_len s1) (fupd (s_pos s1) f MNone))).
  { unfold linv. cbn. repeat split; auto. intros p. destruct (Nat.eq_dec p f) as [->|N]; [left; apply fupd_same|]. rewrite fupd_other by exact N.
    destruct (PS p) as [E|E]; [now left|right]. rewrite E. f_equal. now apply Nat.eqb_neq. }
  pose proof (linv_run need size h2 HN _ _ L NA) as H. destruct (s_run need _ (expand h2)) as [[s2| |]|]; auto.
  intros h3 p w h4 E. assert (D : (exists l, h1 = h3 ++ ReadV p w :: l) \/ (exists l, h3 = h1 ++ Detach f :: l /\ h2 = l ++ ReadV p w :: h4)).
  { clear - E. revert h3 E. induction h1 as [|x h1 IH]; intros [|y h3] E; cbn [app] in E; try discriminate.
    - injection E as -> E. right. exists h3. split; [reflexivity|exact E].
    - injection E as -> E. left. exists h1. reflexivity.
    - injection E as -> E. destruct (IH h3 E) as [[l ->]|[l [-> ->]]]; [left|right]; exists l; [reflexivity|split; reflexivity]. }
  destruct D as [[l E1]|[l [E1 E2]]].
  - apply (RD h3 p w l E1).
  - rewrite E1, last_written_app. cbn [last_written]. apply (H l p w h4 E2).
Qed.
Print Assumptions C115_creator_may_leave_partial.
Example C115_case : exists s, s_run (fun _ => 8) s_init (expand (Attach 0 :: [Attach 1; Attach 2; Write 0 5] ++ Detach 0 :: [ReadV 1 5; Write 2 6; ReadV 1 6; Detach 2]))%nat = Some (Ok s).
Proof. eexists. vm_compute. reflexivity. Qed.

(** ** C116: Storages of different sizes are harmless when no process attaches with a smaller one than those before. *)
Definition ginv (need : nat -> Z) (f : nat) (v x : Z) (s : shst) : Prop :=
  s_reg s = Some O /\ s_segs s = [v] /\ s_len s = [x] /\ (forall p, s_pos s p = MNone \/ (s_pos s p = MAttached 0 (Nat.eqb p f) /\ need p <= x)) /\ s_pos s f <> MNone.
Fixpoint grows (need : nat -> Z) (x : Z) (h : list shop) : Prop :=
  match h with [] => True | Attach p :: h' => x <= need p /\ grows need (need p) h' | _ :: h' => grows need x h' end.
Lemma ginv_run need f h : forall v x s, ginv need f v x s -> ~ In (Detach f) h -> grows need x h ->
  match s_run need s (expand h) with
  | None => True
  | Some (Ok s1) => forall h1 p w h2, h = h1 ++ ReadV p w :: h2 -> w = last_written v h1
  | Some _ => False
  end.
Proof.
  induction h as [|o h IH]; intros v x s (RG & SG & LN & PS & PF) ND GR; [cbn; intros h1 p w h2 E; destruct h1; discriminate|].
  cbn [expand flat_map]. rewrite s_run_app. fold (expand h).
  assert (ND' : ~ In (Detach f) h) by (intros J; apply ND; now right).
  assert (K : forall v1 x1 s1, ginv need f v1 x1 s1 -> grows need x1 h -> last_written v [o] = v1 -> (forall p w, o = ReadV p w -> w = v) ->
     match s_run need s1 (expand h) with None => True | Some (Ok s2) => forall h1 p w h2, o :: h = h1 ++ ReadV p w :: h2 -> w = last_written v h1 | Some _ => False end).
  { intros v1 x1 s1 I1 G1 E1 RD. pose proof (IH v1 x1 s1 I1 ND' G1) as H. destruct (s_run need s1 (expand h)) as [[s2| |]|]; auto.
    intros h1 p w h2 E. destruct h1 as [|y h1]; cbn [app] in E; injection E as -> E; [now apply (RD p w)|].
    rewrite (H _ _ _ _ E), <- E1. destruct y; reflexivity. }
  destruct o as [p|p w|p w|p]; cbn [expand1 s_run s_step].
  - destruct (PS p) as [P|[P L]]; rewrite P; auto. rewrite RG. cbn [s_pos s_reg s_segs s_len]. rewrite fupd_same. cbn [s_pos s_reg s_segs s_len]. rewrite fupd_same.
    cbn [s_pos s_reg s_segs s_len]. rewrite fupd_same. cbn [grows] in GR. destruct GR as [G1 G2]. assert (NP : p <> f) by (intros ->; congruence).
    apply (K v (need p)); [|exact G2|reflexivity|discriminate]. unfold ginv. cbn [s_pos s_reg s_segs s_len]. rewrite LN. cbn [upd]. repeat (split; [assumption || reflexivity|]). split.
    + intros q. destruct (Nat.eq_dec q p) as [->|N]; [right; rewrite fupd_same; split; [f_equal; symmetry; now apply Nat.eqb_neq|lia]|].
      rewrite !fupd_other by exact N. destruct (PS q) as [Q|[Q L]]; [now left|right; split; [exact Q|lia]].
    + now rewrite !fupd_other by congruence.
  - destruct (PS p) as [P|[P L]]; rewrite P; auto. rewrite LN. cbn [nth]. replace (x <? need p) with false by lia. apply (K w x); [|exact GR|reflexivity|discriminate].
    unfold ginv. cbn. rewrite SG. repeat split; auto.
  - destruct (PS p) as [P|[P L]]; rewrite P; auto. rewrite LN. cbn [nth]. replace (x <? need p) with false by lia. rewrite SG. cbn [nth]. destruct (v =? w) eqn:E; auto.
    apply (K v x); [unfold ginv; auto|exact GR|reflexivity|]. intros q u [= -> ->]. lia.
  - destruct (PS p) as [P|[P L]]; rewrite P; auto. assert (NP : p <> f) by (intros ->; apply ND; now left). replace (Nat.eqb p f) with false by (symmetry; now apply Nat.eqb_neq).
    apply (K v x); [|exact GR|reflexivity|discriminate]. unfold ginv. cbn. repeat (split; [assumption || reflexivity|]). split.
    + intros q. destruct (Nat.eq_dec q p) as [->|N]; [left; apply fupd_same|rewrite fupd_other by exact N; auto].
    + now rewrite fupd_other by congruence.
Qed.
Lemma grows_of need f h : (forall h1 p h2 q h3, Attach f :: h = h1 ++ Attach p :: h2 ++ Attach q :: h3 -> need p <= need q) -> grows need (need f) h.
Proof.
  intros H.
  assert (G : forall h f pre, (forall o, In o pre -> forall p, o <> Attach p) ->
     (forall h1 p h2 q h3, Attach f :: pre ++ h = h1 ++ Attach p :: h2 ++ Attach q :: h3 -> need p <= need q) -> grows need (need f) h).
  { clear. induction h as [|o h IH]; intros f pre NP H; cbn [grows]; [exact I|].
    assert (O : (exists p, o = Attach p) \/ (forall p, o <> Attach p)) by (destruct o; [left; eauto|right; discriminate..]).
    destruct O as [[p ->]|NO]; [|assert (GR : grows need (need f) h); [|destruct o; [now destruct (NO p)|exact GR..]]; apply (IH f (pre ++ [o])); [|rewrite <- app_assoc; exact H]; intros o' J; apply in_app_or in J as [J|[<-|[]]]; auto].
    split; [exact (H [] f pre p h eq_refl)|]. apply (IH p []); [intros o []|]. intros h1 a h2 b h3 E. apply (H (Attach f :: pre ++ h1) a h2 b h3). cbn [app] in *. now rewrite E, <- app_assoc. }
  apply (G h f []); [intros o []|exact H].
Qed.
Theorem C116_larger_storages_partial : forall need f h, ~ In (Detach f) h ->
  (forall h1 p h2 q h3, Attach f :: h = h1 ++ Attach p :: h2 ++ Attach q :: h3 -> need p <= need q) ->
  match s_run need s_init (expand (Attach f :: h)) with
  | None => True
  | Some (Ok s) => forall h1 p w h2, h = h1 ++ ReadV p w :: h2 -> w = last_written 0 h1
  | Some _ => False
  end.
Proof.
  intros need f h ND HG. cbn [expand flat_map]. rewrite s_run_app. fold (expand h).
  assert (F : exists s, s_run need s_init (expand1 (Attach f)) = Some (Ok s) /\ ginv need f 0 (need f) s).
  { cbn [expand1 s_run s_step s_init s_pos s_reg]. cbn [s_pos s_reg s_segs s_len app length]. rewrite fupd_same. cbn [s_pos s_reg s_segs s_len]. rewrite fupd_same.
    cbn [s_pos s_reg s_segs s_len upd nth]. rewrite fupd_same. cbn [upd nth]. rewrite Z.ltb_irrefl. eexists; split; [reflexivity|].
    unfold ginv; cbn [s_pos s_reg s_segs s_len upd]. repeat (split; [reflexivity|]). split; [|now rewrite fupd_same].
    intros p. destruct (Nat.eq_dec p f) as [->|N]; [right; rewrite fupd_same, Nat.eqb_refl; split; [reflexivity|lia]|left; now rewrite !fupd_other by assumption]. }
  destruct F as (s & -> & I). exact (ginv_run need f h 0 (need f) s I ND (grows_of need f h HG)).
Qed.
Print Assumptions C116_larger_storages_partial.
Example C116_case : exists s, s_run (fun p => 8 * (Z.of_nat p + 1)) s_init (expand (Attach 0 :: [Attach 1; Write 0 5; ReadV 1 5; Attach 4; ReadV 0 5]))%nat = Some (Ok s).
Proof. eexists. vm_compute. reflexivity. Qed.

(** C116, exactly, for two processes: the creator's value survives if and only if the other one's Storage is not smaller. *)
Theorem C116_two_exactly : forall need v,
  (need 1%nat < need 0%nat -> s_run need s_init (expand [Attach 0; Write 0 v; Attach 1; ReadV 0 v])%nat = Some UB) /\
  (need 0%nat <= need 1%nat -> exists s, s_run need s_init (expand [Attach 0; Write 0 v; Attach 1; ReadV 0 v])%nat = Some (Ok s)).
Proof.
  intros need v. pose proof (Z.ltb_irrefl (need 0%nat)) as R. pose proof (Z.eqb_refl v) as Q. cbn -[Z.ltb Z.eqb]. rewrite R. cbn -[Z.ltb Z.eqb]. rewrite ?R. cbn -[Z.ltb Z.eqb]. destruct (Z.ltb_spec (need 1%nat) (need 0%nat)); (split; intros H1; [try lia|]); try lia; try reflexivity.
  cbn -[Z.ltb Z.eqb]. rewrite ?Q. cbn -[Z.ltb Z.eqb]. eexists. reflexivity.
Qed.
Print Assumptions C116_two_exactly.

(** Cases meeting the hypotheses of C108 and C110. *)
Example C108_case : exists s tr, p_run p_init [(0, PLock); (0, PGo); (0, PUnlock); (0, PGo); (0, PGo)]%nat = Some (s, tr) /\ p_count s = 1 /\ p_pc s 1%nat = PRest.
Proof. eexists _, _. repeat split; reflexivity. Qed.
Example C110_case : normal (7, 999999000) /\ normal (1, 500) /\ in_ns (sem_deadline (7, 999999000) (1, 500)) = in_ns (7, 999999000) + in_ns (1, 500) /\
  in_ns (sem_deadline (7, 999999000) (1, 999)) <> in_ns (7, 999999000) + in_ns (1, 999).
Proof. repeat split; cbn; try lia; discriminate. Qed.
