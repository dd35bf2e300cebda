(** C214-C216: the mutex on Windows. *)
From Coq Require Import ZArith List Lia Bool.
Import ListNotations.
From Verif Require Import WMutModel.
Open Scope Z_scope.

(** * What can be told from the calls: how often a thread was given the mutex and has not begun to give it back *)
Fixpoint count (p : event -> bool) (l : list event) : Z := match l with [] => 0 | e :: tl => (if p e then 1 else 0) + count p tl end.
Definition is (t : nat) (e : event) : bool := match e with ELock u | EEnter u | ETest u | ERefuse u | ETryLock u | EUnlock u | EUnlocked u => Nat.eqb u t end.
Definition got (e : event) : bool := match e with EEnter _ => true | _ => false end.
Definition gave (e : event) : bool := match e with EUnlock _ => true | _ => false end.
Definition held (t : nat) (l : list event) : Z := count (fun e => is t e && got e) l - count (fun e => is t e && gave e) l.
(** Calls that have begun and not returned: lock() or trylock() past its test, and unlock(). *)
Definition asks (e : event) : bool := match e with ELock _ | ETryLock _ => true | _ => false end.
Definition gone (e : event) : bool := match e with EUnlocked _ => true | _ => false end.
Definition in_lock (l : list event) : Z := count asks l - count got l.
Definition in_unlock (l : list event) : Z := count gave l - count gone l.
Definition total (l : list event) : Z := count got l - count gave l.

Lemma count_app p l m : count p (l ++ m) = count p l + count p m.
Proof. induction l as [|e l IH]; cbn [app count]; lia. Qed.
Lemma events_snoc l : forall s e, w_events s (l ++ [e]) = match w_events s l with Next s' => w_event s' e | o => o end.
Proof. induction l as [|a l IH]; intros s e; cbn [app w_events]; [now destruct (w_event s e)|]. destruct (w_event s a); auto. Qed.
Lemma count_nonneg p l : 0 <= count p l.
Proof. induction l as [|e l IH]; cbn [count]; [lia|]. destruct (p e); lia. Qed.

(** * The invariant *)
Definition depth (s : cs) : Z := match owner s with Some (_, d) => d | None => 0 end.
Definition of_thread (s : cs) (t : nat) : Z := match owner s with Some (u, d) => if Nat.eqb u t then d else 0 | None => 0 end.
Record inv (l : list event) (s : cs) : Prop := mkInv {
  i_held : forall t, held t l = of_thread s t;
  i_total : total l = depth s;
  i_deep : match owner s with Some (_, d) => 1 <= d | None => True end;
  i_locks : locks s = (total l + in_lock l + in_unlock l) mod 2 ^ 32;
  i_lock_pos : 0 <= in_lock l; i_unlock_pos : 0 <= in_unlock l;
}.
(** How many threads are at a place, counted from the events. *)
Definition enters (t : nat) (l : list event) : Z := count (fun e => is t e && asks e) l - count (fun e => is t e && got e) l.
Definition leaves (t : nat) (l : list event) : Z := count (fun e => is t e && gave e) l - count (fun e => is t e && gone e) l.
Definition placed (l : list event) (s : cs) : Prop := forall t,
  enters t l = (match at_ s t with Entering _ => 1 | _ => 0 end) /\ leaves t l = (match at_ s t with Left => 1 | _ => 0 end).
Lemma counts_split (f g : event -> bool) l : (forall t, 0 <= count (fun e => is t e && f e) l - count (fun e => is t e && g e) l) -> 0 <= count f l - count g l.
Proof.
  remember (length l) as n eqn:N. revert l N. induction n as [n IH] using (well_founded_induction lt_wf). intros l N H.
  destruct l as [|e l]; [cbn; lia|]. set (t := match e with ELock u | EEnter u | ETest u | ERefuse u | ETryLock u | EUnlock u | EUnlocked u => u end).
  set (others := filter (fun x => negb (is t x)) (e :: l)).
  assert (C : forall p m, count p m = count (fun x => is t x && p x) m + count p (filter (fun x => negb (is t x)) m)).
  { intros p m. induction m as [|x m IHm]; [reflexivity|]. cbn [count filter]. destruct (is t x); cbn [negb andb count]; lia. }
  assert (D : forall u p m, count (fun x => is u x && p x) (filter (fun x => negb (is t x)) m) = if Nat.eqb u t then 0 else count (fun x => is u x && p x) m).
  { intros u p m. induction m as [|x m IHm]; [cbn; now destruct (Nat.eqb u t)|]. cbn [count filter]. destruct (is t x) eqn:T; cbn [negb count]; rewrite ?IHm.
    - destruct (Nat.eqb_spec u t) as [->|U]; [reflexivity|]. assert (is u x = false) as ->; [|reflexivity]. destruct x; cbn in *; apply Nat.eqb_eq in T; apply Nat.eqb_neq; congruence.
    - destruct (Nat.eqb_spec u t) as [->|U]; [|reflexivity]. rewrite T. reflexivity. }
  assert (L : (length others < n)%nat).
  { unfold others. cbn [filter]. assert (is t e = true) as -> by (unfold t; destruct e; cbn; apply Nat.eqb_refl). cbn [negb]. subst n. cbn [length]. clear. induction l as [|x l IH]; cbn; [lia|]. destruct (negb (is t x)); cbn; lia. }
  pose proof (IH _ L others eq_refl) as G. specialize (H t) as Ht. rewrite (C f), (C g). fold others. cut (0 <= count f others - count g others); [lia|]. apply G. intros u. unfold others. rewrite !D.
  destruct (Nat.eqb u t); [lia|]. apply H.
Qed.
Lemma move_same s t p : move s t p t = p. Proof. unfold move. now rewrite Nat.eqb_refl. Qed.
Lemma move_other s t p u : u <> t -> move s t p u = at_ s u. Proof. unfold move. intros N. now apply Nat.eqb_neq in N as ->. Qed.
Lemma placed_all l : forall s, w_events cs0 l = Next s -> placed l s.
Proof.
  induction l as [|e l IH] using rev_ind; intros s H; [injection H as <-; intros t; split; reflexivity|].
  rewrite events_snoc in H. destruct (w_events cs0 l) as [s0| |]; try discriminate. specialize (IH s0 eq_refl). intros u. specialize (IH u) as [E L]. unfold enters, leaves in *. rewrite !count_app. cbn [count].
  destruct e as [t|t|t|t|t|t|t]; cbn [is asks got gave gone w_event] in *; rewrite ?andb_false_r, ?andb_true_r;
    (destruct (at_ s0 t) eqn:A; try discriminate); try (destruct (owner s0) as [[v d]|]; try discriminate); try (destruct (Nat.eqb v t); try discriminate);
    try (destruct (0 <? locks s0); try discriminate); injection H as <-; cbn [at_ locks owner];
    (destruct (Nat.eqb_spec t u) as [->|N]; [rewrite ?move_same, ?A in *|rewrite ?move_other by congruence]; split; lia).
Qed.
Lemma inv_all l : forall s, w_events cs0 l = Next s -> inv l s.
Proof.
  induction l as [|e l IH] using rev_ind; intros s H.
  { injection H as <-. split; try reflexivity; lia. }
  pose proof (placed_all _ _ H) as PL. rewrite events_snoc in H. destruct (w_events cs0 l) as [s0| |]; try discriminate. specialize (IH s0 eq_refl). destruct IH as [I1 I2 I3 I4 I5 I6].
  assert (P1 : 0 <= in_lock (l ++ [e])).
  { apply counts_split. intros t. destruct (PL t) as [E _]. unfold enters in E. rewrite E. destruct (at_ s t); lia. }
  assert (P2 : 0 <= in_unlock (l ++ [e])).
  { apply counts_split. intros t. destruct (PL t) as [_ E]. unfold leaves in E. rewrite E. destruct (at_ s t); lia. }
  assert (MM : forall a b, (a mod 2 ^ 32 + b) mod 2 ^ 32 = (a + b) mod 2 ^ 32) by (intros a b; now rewrite Zplus_mod_idemp_l).
  destruct e as [t|t|t|t|t|t|t]; cbn [w_event] in H;
    (destruct (at_ s0 t) eqn:A; try discriminate); try (destruct (owner s0) as [[v d]|] eqn:O; try discriminate); try (destruct (Nat.eqb_spec v t) as [->|]; try discriminate);
    try (destruct (0 <? locks s0); try discriminate); injection H as <-;
    (split;
     [intros u; specialize (I1 u); unfold held, of_thread in *; rewrite !count_app; cbn [count is asks got gave gone owner]; rewrite ?andb_false_r, ?andb_true_r; rewrite ?O in *
     |unfold total, depth in *; rewrite !count_app; cbn [count got gave owner]; rewrite ?O in *
     |cbn [owner] in *; rewrite ?O in *
     |unfold total, in_lock, in_unlock in *; rewrite !count_app; cbn [count asks got gave gone locks]; rewrite ?I4; unfold wrap32, Z.sub; rewrite ?MM
     |exact P1|exact P2]);
    try lia; try (f_equal; lia); try exact I;
    try (destruct (Z.eqb_spec d 1)); try (destruct (Nat.eqb_spec t u)); try lia.
Qed.

(** * C214 *)
(** At any moment at most one thread holds the mutex, whatever the schedule; a thread holds it as often as it was given it. *)
Theorem C214_exclusion : forall l s t u, w_events cs0 l = Next s -> held t l <> 0 -> held u l <> 0 -> t = u.
Proof.
  intros l s t u H T U. destruct (inv_all l s H) as [I _ _ _ _ _]. rewrite I in T, U. unfold of_thread in *. destruct (owner s) as [[v d]|]; [|contradiction].
  destruct (Nat.eqb_spec v t), (Nat.eqb_spec v u); congruence.
Qed.
Print Assumptions C214_exclusion.
(** A thread that holds it can lock it again without waiting, and must unlock it as often. *)
Theorem C214_recursive : forall l s t, w_events cs0 l = Next s -> at_ s t = Outside -> held t l > 0 \/ (forall u, held u l = 0) ->
  exists s', w_events cs0 (l ++ [ELock t; EEnter t]) = Next s' /\ held t (l ++ [ELock t; EEnter t]) = held t l + 1.
Proof.
  intros l s t H A P. destruct (inv_all l s H) as [I _ D _ _ _]. change [ELock t; EEnter t] with ([ELock t] ++ [EEnter t]). rewrite app_assoc, !events_snoc, H. cbn [w_event]. rewrite A.
  cbn [w_event at_ owner]. rewrite move_same.
  assert (E : held t ((l ++ [ELock t]) ++ [EEnter t]) = held t l + 1).
  { unfold held. rewrite !count_app. cbn [count is got gave]. rewrite Nat.eqb_refl. cbn. lia. }
  rewrite E. destruct (owner s) as [[v d]|] eqn:O; [|eexists; split; reflexivity].
  assert (v = t) as ->.
  { specialize (I t) as It. unfold of_thread in It. rewrite O in It. destruct (Nat.eqb_spec v t); [assumption|]. destruct P as [P|P]; [lia|]. specialize (I v). unfold of_thread in I. rewrite O, Nat.eqb_refl, P in I. lia. }
  rewrite Nat.eqb_refl. eexists. split; reflexivity.
Qed.
Print Assumptions C214_recursive.
(** Unlocking is well defined exactly for the holder. *)
Theorem C214_unlock : forall l s t, w_events cs0 l = Next s -> at_ s t = Outside -> (w_event s (EUnlock t) = Undefined <-> held t l = 0).
Proof.
  intros l s t H A. destruct (inv_all l s H) as [I _ D _ _ _]. rewrite I. unfold of_thread. cbn [w_event]. rewrite A. destruct (owner s) as [[v d]|]; [|tauto].
  destruct (Nat.eqb_spec v t); split; intros; try reflexivity; try discriminate; lia.
Qed.
Print Assumptions C214_unlock.
Definition two : list event := [ELock 1; EEnter 1; ELock 2; ELock 1; EEnter 1; EUnlock 1; EUnlocked 1; EUnlock 1; EEnter 2; EUnlocked 1]%nat.
Example C214_case : exists s, w_events cs0 two = Next s /\ held 1 two = 0 /\ held 2 two = 1 /\ locks s = 1.
Proof. eexists. split; [reflexivity|]. repeat split. Qed.

(** * C215: the counter *)
(** locks() counts the locks held and the lock and unlock calls in progress: when no call is in progress, the locks held. *)
Theorem C215_counter : forall l s, w_events cs0 l = Next s -> total l + in_lock l + in_unlock l < 2 ^ 32 ->
  locks s = total l + in_lock l + in_unlock l /\ 0 <= total l /\ 0 <= in_lock l /\ 0 <= in_unlock l /\
  ((forall t, at_ s t = Outside) -> forall t, held t l <> 0 -> locks s = held t l).
Proof.
  intros l s H B. pose proof (inv_all l s H) as [I T D L P1 P2]. pose proof (placed_all l s H) as PL.
  assert (T0 : 0 <= total l) by (rewrite T; unfold depth; destruct (owner s) as [[v d]|]; lia).
  assert (E : locks s = total l + in_lock l + in_unlock l) by (rewrite L; apply Z.mod_small; lia).
  split; [exact E|]. split; [exact T0|]. split; [exact P1|]. split; [exact P2|]. intros Q t N.
  assert (Z1 : in_lock l = 0).
  { cut (0 <= count got l - count asks l); [unfold in_lock in *; lia|]. apply counts_split. intros u. destruct (PL u) as [X _]. rewrite Q in X. unfold enters in X. lia. }
  assert (Z2 : in_unlock l = 0).
  { cut (0 <= count gone l - count gave l); [unfold in_unlock in *; lia|]. apply counts_split. intros u. destruct (PL u) as [_ X]. rewrite Q in X. unfold leaves in X. lia. }
  rewrite E, Z1, Z2, T. rewrite I in *. unfold depth, of_thread in *. destruct (owner s) as [[v d]|]; [|contradiction]. destruct (Nat.eqb v t); [lia|contradiction].
Qed.
Print Assumptions C215_counter.
(** It counts locks, not threads: the documentation says the number of threads associated with the mutex. *)
Theorem C215_counts_threads_refuted : exists l s, w_events cs0 l = Next s /\ (forall t, t <> 1%nat -> count (is t) l = 0) /\ locks s = 2.
Proof.
  exists [ELock 1; EEnter 1; ELock 1; EEnter 1]%nat. eexists. split; [reflexivity|]. split; [|reflexivity]. intros t N. cbn [count is]. assert (Nat.eqb 1 t = false) as -> by (apply Nat.eqb_neq; congruence). reflexivity.
Qed.
Print Assumptions C215_counts_threads_refuted.

(** * C216: trylock *)
(** An uninterrupted trylock takes the mutex if nobody holds it or is about to take or leave it, and refuses otherwise. *)
Theorem C216_uninterrupted_partial : forall l s t, w_events cs0 l = Next s -> total l + in_lock l + in_unlock l < 2 ^ 32 -> at_ s t = Outside ->
  (total l + in_lock l + in_unlock l = 0 -> exists s', w_events cs0 (l ++ [ETest t; ETryLock t; EEnter t]) = Next s' /\ held t (l ++ [ETest t; ETryLock t; EEnter t]) = 1) /\
  (total l + in_lock l + in_unlock l <> 0 -> w_events cs0 (l ++ [ERefuse t]) = Next s) /\
  (w_event s (ERefuse t) = Blocked <-> total l + in_lock l + in_unlock l = 0) /\ (w_event s (ETest t) = Blocked <-> total l + in_lock l + in_unlock l <> 0).
Proof.
  intros l s t H B A. destruct (C215_counter l s H B) as (E & T0 & L0 & U0 & _). pose proof (inv_all l s H) as [I T D _ _ _]. split; [intros Z|split; [intros Z|split]].
  - assert (O : owner s = None). { unfold depth in T. destruct (owner s) as [[v d]|]; [lia|reflexivity]. }
    change [ETest t; ETryLock t; EEnter t] with ([ETest t] ++ [ETryLock t] ++ [EEnter t]). rewrite !app_assoc, !events_snoc, H. cbn [w_event]. rewrite A. replace (0 <? locks s) with false by lia.
    cbn [w_event at_ owner locks]. rewrite move_same. cbn [w_event at_ owner locks]. rewrite move_same, O. eexists. split; [reflexivity|].
    unfold held. rewrite !count_app. cbn [count is got gave]. rewrite Nat.eqb_refl. cbn [andb]. specialize (I t). unfold held, of_thread in I. rewrite O in I. lia.
  - rewrite events_snoc, H. cbn [w_event]. rewrite A. replace (0 <? locks s) with true by lia. reflexivity.
  - cbn [w_event]. rewrite A. destruct (Z.ltb_spec 0 (locks s)); split; intros; try reflexivity; try discriminate; lia.
  - cbn [w_event]. rewrite A. destruct (Z.ltb_spec 0 (locks s)); split; intros; try reflexivity; try discriminate; lia.
Qed.
Print Assumptions C216_uninterrupted_partial.
(** trylock() returns true only with the mutex. *)
Theorem C216_success_holds : forall l s t, w_events cs0 (l ++ [EEnter t]) = Next s -> 0 < held t (l ++ [EEnter t]).
Proof.
  intros l s t H. destruct (inv_all _ _ H) as [I _ D _ _ _]. rewrite I. rewrite events_snoc in H. destruct (w_events cs0 l) as [s0| |]; try discriminate. cbn [w_event] in H.
  destruct (at_ s0 t); try discriminate. destruct (owner s0) as [[v d]|]; [destruct (Nat.eqb v t); try discriminate|]; injection H as <-; unfold of_thread in *; cbn [owner] in *; rewrite Nat.eqb_refl; lia.
Qed.
Print Assumptions C216_success_holds.
(** Two threads that try at the same time: one of them waits for the other, for as long as that one keeps the mutex. *)
Theorem C216_may_block_refuted : exists l s, w_events cs0 l = Next s /\ at_ s 2%nat = Entering true /\ count (fun e => match e with ELock _ => true | _ => false end) l = 0 /\
  w_event s (EEnter 2) = Blocked /\ forall n, exists s', w_events s (concat (repeat [ERefuse 1; ERefuse 3]%nat n)) = Next s' /\ w_event s' (EEnter 2) = Blocked.
Proof.
  exists [ETest 1; ETest 2; ETryLock 1; EEnter 1; ETryLock 2]%nat. eexists. split; [reflexivity|]. split; [reflexivity|]. split; [reflexivity|]. split; [reflexivity|].
  induction n as [|n IH]; [eexists; split; reflexivity|]. cbn [repeat concat app w_events w_event at_ locks]. exact IH.
Qed.
Print Assumptions C216_may_block_refuted.
(** A trylock can refuse a mutex nobody holds: another thread has called unlock and not yet returned. *)
Theorem C216_refuses_free_refuted : exists l s, w_events cs0 l = Next s /\ (forall t, held t l = 0) /\ in_lock l = 0 /\ w_event s (ERefuse 2) = Next s.
Proof.
  exists [ELock 1; EEnter 1; EUnlock 1]%nat. eexists. split; [reflexivity|]. split; [|split; reflexivity]. intros t. unfold held. cbn [count is got gave]. rewrite ?andb_false_r, ?andb_true_r. destruct (Nat.eqb 1 t); reflexivity.
Qed.
Print Assumptions C216_refuses_free_refuted.
(** The holder is refused although lock() would let it in again. *)
Theorem C216_holder_refused_refuted : exists l s, w_events cs0 l = Next s /\ held 1 l = 1 /\ at_ s 1%nat = Outside /\ w_event s (ETest 1) = Blocked /\ w_event s (ERefuse 1) = Next s /\ exists s', w_events s [ELock 1; EEnter 1]%nat = Next s'.
Proof. exists [ELock 1; EEnter 1]%nat. eexists. split; [reflexivity|]. repeat split. eexists. reflexivity. Qed.
Print Assumptions C216_holder_refused_refuted.

(** One thread has the mutex twice, a second waits in lock(), a third is refused. *)
Definition busy : list event := [ELock 0; EEnter 0; ELock 0; EEnter 0; ELock 1; ERefuse 2]%nat.
Example C215_case : exists s, w_events cs0 busy = Next s /\ total busy = 2 /\ in_lock busy = 1 /\ in_unlock busy = 0 /\ held 0 busy = 2 /\ locks s = 3.
Proof. eexists. repeat split; reflexivity. Qed.
Example C216_case : exists s s' t, w_events cs0 busy = Next s /\ at_ s 2%nat = Outside /\
  w_events cs0 ([ELock 0; EEnter 0; EUnlock 0; EUnlocked 0]%nat ++ [ETest 1; ETryLock 1; EEnter 1]%nat) = Next s' /\
  w_events cs0 [ELock 0; EEnter 0; EUnlock 0; EUnlocked 0]%nat = Next t /\ at_ t 1%nat = Outside /\ total [ELock 0; EEnter 0; EUnlock 0; EUnlocked 0]%nat = 0.
Proof. eexists _, _, _. repeat split; reflexivity. Qed.
