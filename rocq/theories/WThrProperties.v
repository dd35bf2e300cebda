(** C217-C219: threads on Windows. *)
From Coq Require Import ZArith List Bool Arith Lia.
Import ListNotations.
From Verif Require Import WThrModel.

(** The priorities for which a start can succeed in a debug build, with the cooperation of the system. *)
Definition settable (p : priority) : Prop := ~ In p [DefaultPriority; UnknownPriority; NormalPriority; CriticalPriority].
(** A constructor that does not throw. *)
Definition gentle (debug : bool) (c : wcall) : Prop :=
  match c with TConstructStart p cr ok => debug = false \/ settable p /\ cr = true /\ ok = true | _ => True end.
Definition status (w : world) (t : nat) : option tstat := option_map fst (nth_error (threads w) t).
Definition running (w : world) (t : nat) : Prop := status w t = Some Fresh \/ status w t = Some Working.

Lemma set_nth_len {A} (l : list A) i x : i < length l -> length (set_nth l i x) = length l.
Proof. intros L. unfold set_nth. rewrite app_length. cbn [length]. rewrite firstn_length, skipn_length. lia. Qed.
Lemma set_nth_same {A} (l : list A) i x : i < length l -> nth_error (set_nth l i x) i = Some x.
Proof. intros L. unfold set_nth. rewrite nth_error_app2; rewrite firstn_length; [|lia]. now replace (i - Nat.min i (length l)) with 0 by lia. Qed.
Lemma set_nth_other {A} (l : list A) i j x : i < length l -> i <> j -> nth_error (set_nth l i x) j = nth_error l j.
Proof.
  revert i j. induction l as [|a l IH]; intros [|i] [|j] L N; cbn in *; try lia; try reflexivity. unfold set_nth in *. cbn [firstn skipn app nth_error]. apply (IH i j); lia.
Qed.

(** * The invariant: what belongs to the object is all there is *)
Record tidy (w : world) : Prop := mkTidy {
  y_alive : forall t k, (nth_error (threads w) t = Some (Fresh, k) \/ nth_error (threads w) t = Some (Working, k)) ->
    exists o, object w = Some o /\ o_handle o = Some t /\ o_task o = Some k;
  y_handles : forall t, In t (handles w) <-> exists o, object w = Some o /\ o_handle o = Some t;
  y_tasks : forall k, nth_error (tasks w) k = Some true <-> exists o, object w = Some o /\ o_task o = Some k;
  y_handle : forall o t, object w = Some o -> o_handle o = Some t -> t < length (threads w) /\ o_started o = true /\ exists s k, nth_error (threads w) t = Some (s, k) /\ o_task o = Some k;
  y_task : forall o k, object w = Some o -> o_task o = Some k -> o_started o = true;
}.
Lemma tidy0 : tidy world0.
Proof.
  split; cbn.
  - intros [|t] k [H|H]; discriminate.
  - intros t. split; [contradiction|]. intros (o & H & _). discriminate.
  - intros [|k]; (split; [discriminate|intros (o & H & _); discriminate]).
  - discriminate.
  - discriminate.
Qed.
Definition idle (o : tobj) : Prop := o_handle o = None /\ o_task o = None.
(** No object, or one that has nothing. *)
Lemma tidy_empty w : tidy w -> (forall o, object w = Some o -> idle o) -> handles w = [] /\ (forall t k, nth_error (threads w) t = Some (Fresh, k) \/ nth_error (threads w) t = Some (Working, k) -> False) /\ forall k, nth_error (tasks w) k <> Some true.
Proof.
  intros [A H T _ _] I. split; [|split].
  - destruct (handles w) as [|t tl]; [reflexivity|]. destruct (proj1 (H t) (or_introl eq_refl)) as (o & O & X). destruct (I o O). congruence.
  - intros t k X. destruct (A t k X) as (o & O & Y & _). destruct (I o O). congruence.
  - intros k X. apply T in X as (o & O & Y). destruct (I o O). congruence.
Qed.
Lemma tidy_from_empty w o : handles w = [] -> (forall t k, nth_error (threads w) t = Some (Fresh, k) \/ nth_error (threads w) t = Some (Working, k) -> False) -> (forall k, nth_error (tasks w) k <> Some true) ->
  (forall x, o = Some x -> idle x) -> tidy (with_object w o).
Proof.
  intros H A T I. split; cbn.
  - intros t k X. destruct (A t k X).
  - intros t. rewrite H. split; [contradiction|]. intros (x & E & Y). destruct (I x E). congruence.
  - intros k. split; [intros X; destruct (T k X)|]. intros (x & E & Y). destruct (I x E). congruence.
  - intros x t E Y. destruct (I x E). congruence.
  - intros x k E Y. destruct (I x E). congruence.
Qed.
(** Starting on an idle object. *)
Lemma start_tidy debug w o p cr ok w1 o1 r : handles w = [] -> (forall t k, nth_error (threads w) t = Some (Fresh, k) \/ nth_error (threads w) t = Some (Working, k) -> False) -> (forall k, nth_error (tasks w) k <> Some true) ->
  o_started o = false -> start debug w o p cr ok = (w1, o1, r) -> tidy (with_object w1 (Some o1)).
Proof.
  intros H A T S E. unfold start in E. rewrite S in E. destruct cr; injection E as <- <- <-.
  - split; cbn [with_object threads tasks handles object].
    + intros t k X. destruct (Nat.lt_ge_cases t (length (threads w))) as [L|L].
      * rewrite nth_error_app1 in X by exact L. destruct (A t k X).
      * rewrite nth_error_app2 in X by exact L. destruct (t - length (threads w)) as [|n] eqn:N; cbn in X; [|destruct n; cbn in X; destruct X; discriminate].
        assert (t = length (threads w)) as -> by lia. eexists. split; [reflexivity|]. cbn. destruct X as [X|X]; [|discriminate]. injection X as <-. auto.
    + intros t. rewrite H. cbn. split; [intros [<-|[]]; eexists; split; reflexivity|]. intros (x & X & Y). injection X as <-. cbn in Y. injection Y as <-. auto.
    + intros k. destruct (Nat.lt_ge_cases k (length (tasks w))) as [L|L].
      * rewrite nth_error_app1 by exact L. split; [intros X; destruct (T k X)|]. intros (x & X & Y). injection X as <-. cbn in Y. injection Y as <-. lia.
      * rewrite nth_error_app2 by exact L. split.
        -- intros X. destruct (k - length (tasks w)) as [|n] eqn:N; cbn in X; [|destruct n; discriminate]. assert (k = length (tasks w)) as -> by lia. eexists. split; reflexivity.
        -- intros (x & X & Y). injection X as <-. cbn in Y. injection Y as <-. now rewrite Nat.sub_diag.
    + intros x t X Y. injection X as <-. cbn in Y. injection Y as <-. rewrite app_length. cbn. split; [lia|]. split; [reflexivity|]. exists Fresh, (length (tasks w)). rewrite nth_error_app2, Nat.sub_diag by lia. auto.
    + intros x k X Y. injection X as <-. reflexivity.
  - split; cbn [with_object threads tasks handles object].
    + intros t k X. destruct (A t k X).
    + intros t. rewrite H. split; [contradiction|]. intros (x & X & Y). injection X as <-. discriminate.
    + intros k. destruct (Nat.lt_ge_cases k (length (tasks w))) as [L|L].
      * rewrite nth_error_app1 by exact L. split; [intros X; destruct (T k X)|]. intros (x & X & Y). injection X as <-. cbn in Y. injection Y as <-. lia.
      * rewrite nth_error_app2 by exact L. split.
        -- intros X. destruct (k - length (tasks w)) as [|n] eqn:N; cbn in X; [|destruct n; discriminate]. assert (k = length (tasks w)) as -> by lia. eexists. split; reflexivity.
        -- intros (x & X & Y). injection X as <-. cbn in Y. injection Y as <-. now rewrite Nat.sub_diag.
    + intros x t X Y. injection X as <-. discriminate.
    + intros x k X Y. injection X as <-. reflexivity.
Qed.
Lemma cancel_empty w o w1 o1 : tidy w -> object w = Some o -> cancel w o = (w1, o1) ->
  idle o1 /\ o_started o1 = false /\ handles w1 = [] /\ (forall t k, nth_error (threads w1) t = Some (Fresh, k) \/ nth_error (threads w1) t = Some (Working, k) -> False) /\ (forall k, nth_error (tasks w1) k <> Some true) /\
  (forall t s, status w t = Some s -> status w1 t = Some (if alive s then Killed else s)).
Proof.
  intros [A H T HD TK] O E. unfold cancel in E. injection E as <- <-. split; [split; reflexivity|]. split; [reflexivity|].
  set (w1 := match o_handle o with Some t => _ | None => w end).
  assert (W1 : handles w1 = [] /\ (forall t k, nth_error (threads w1) t = Some (Fresh, k) \/ nth_error (threads w1) t = Some (Working, k) -> False) /\ tasks w1 = tasks w /\ (forall t s, status w t = Some s -> status w1 t = Some (if alive s then Killed else s))).
  { unfold w1. destruct (o_handle o) as [t|] eqn:OH.
    - destruct (HD o t O OH) as (L & _ & s & k & N & OT). cbn [handles threads tasks]. split; [|split; [|split; [reflexivity|]]].
      + assert (forall x, In x (handles w) -> x = t) as X. { intros x I. apply H in I as (y & OY & YH). congruence. }
        destruct (remove Nat.eq_dec t (handles w)) as [|x tl] eqn:R; [reflexivity|]. assert (I : In x (remove Nat.eq_dec t (handles w))) by (rewrite R; left; reflexivity). apply in_remove in I as [I1 I2]. destruct (I2 (X x I1)).
      + intros u j X. rewrite N in X. destruct (alive s) eqn:AL.
        * destruct (Nat.eq_dec t u) as [<-|NE]; [rewrite set_nth_same in X by exact L; destruct X; discriminate|]. rewrite set_nth_other in X by auto. destruct (A u j X) as (y & OY & YH & _). congruence.
        * destruct (A u j X) as (y & OY & YH & _). rewrite O in OY. injection OY as <-. rewrite OH in YH. injection YH as <-. rewrite N in X. destruct X as [X|X]; injection X as -> _; discriminate.
      + intros u su SU. unfold status in *. cbn [threads]. rewrite N. destruct (alive s) eqn:AL.
        * destruct (Nat.eq_dec t u) as [<-|NE]; [rewrite set_nth_same by exact L; rewrite N in SU; cbn in *; injection SU as <-; now rewrite AL|]. rewrite set_nth_other by auto. rewrite SU. f_equal.
          destruct (nth_error (threads w) u) as [[s' k']|] eqn:NU; [|discriminate]. cbn in SU. injection SU as ->. destruct su; cbn; try reflexivity; exfalso.
          -- destruct (A u k' ltac:(auto)) as (y & OY & YH & _). congruence.
          -- destruct (A u k' ltac:(auto)) as (y & OY & YH & _). congruence.
        * rewrite SU. f_equal. destruct (nth_error (threads w) u) as [[s' k']|] eqn:NU; [|discriminate]. cbn in SU. injection SU as ->. destruct su; cbn; try reflexivity; exfalso.
          -- destruct (A u k' ltac:(auto)) as (y & OY & YH & _). rewrite O in OY. injection OY as <-. rewrite OH in YH. injection YH as <-. rewrite N in NU. injection NU as -> _. discriminate.
          -- destruct (A u k' ltac:(auto)) as (y & OY & YH & _). rewrite O in OY. injection OY as <-. rewrite OH in YH. injection YH as <-. rewrite N in NU. injection NU as -> _. discriminate.
    - split; [|split; [|split; [reflexivity|]]].
      + destruct (handles w) as [|x tl] eqn:R; [reflexivity|]. destruct (proj1 (H x) (or_introl eq_refl)) as (y & OY & YH). congruence.
      + intros u j X. destruct (A u j X) as (y & OY & YH & _). congruence.
      + intros u su SU. rewrite SU. f_equal. unfold status in SU. destruct (nth_error (threads w) u) as [[s' k']|] eqn:NU; [|discriminate]. cbn in SU. injection SU as ->. destruct su; cbn; try reflexivity; exfalso.
        * destruct (A u k' ltac:(auto)) as (y & OY & YH & _). congruence.
        * destruct (A u k' ltac:(auto)) as (y & OY & YH & _). congruence. }
  destruct W1 as (W1 & W2 & W3 & W4). destruct (o_task o) as [k|] eqn:OT.
  - assert (TKK : nth_error (tasks w) k = Some true) by (apply T; eauto). assert (L : k < length (tasks w)) by (apply nth_error_Some; congruence).
    cbn [handles threads tasks]. split; [exact W1|]. split; [exact W2|]. split; [|exact W4]. intros j X. rewrite W3 in X. destruct (Nat.eq_dec k j) as [<-|NE]; [rewrite set_nth_same in X by exact L; discriminate|].
    rewrite set_nth_other in X by auto. apply T in X as (y & OY & YT). congruence.
  - split; [exact W1|]. split; [exact W2|]. split; [|exact W4]. intros j X. rewrite W3 in X. apply T in X as (y & OY & YT). congruence.
Qed.
Lemma progress_tidy w t s s' k : tidy w -> nth_error (threads w) t = Some (s, k) -> alive s = true -> tidy (mkW (set_nth (threads w) t (s', k)) (tasks w) (handles w) (object w)).
Proof.
  intros [A H T HD TK] N AL. assert (L : t < length (threads w)) by (apply nth_error_Some; congruence).
  assert (M : exists o, object w = Some o /\ o_handle o = Some t /\ o_task o = Some k) by (apply A; destruct s; try discriminate; auto).
  split; cbn [threads tasks handles object]; auto.
  - intros u j X. destruct (Nat.eq_dec t u) as [<-|NE].
    + rewrite set_nth_same in X by exact L. assert (j = k) as -> by (destruct X as [X|X]; congruence). exact M.
    + rewrite set_nth_other in X by auto. now apply A.
  - intros o u O OH. destruct (HD o u O OH) as (LU & ST & su & ku & NU & KU). rewrite set_nth_len by exact L. split; [exact LU|]. split; [exact ST|].
    destruct (Nat.eq_dec t u) as [<-|NE]; [exists s', k; rewrite set_nth_same by exact L; split; [reflexivity|]; rewrite N in NU; injection NU as <- <-; exact KU|]. exists su, ku. rewrite set_nth_other by auto. auto.
Qed.
Lemma start_fresh debug w o p cr ok w1 o1 r : start debug w o p cr ok = (w1, o1, r) -> o_started o = true -> w1 = w /\ o1 = o.
Proof. unfold start. intros E HS. rewrite HS in E. injection E as <- <- <-. auto. Qed.
Lemma step_tidy debug w c w1 r : tidy w -> gentle debug c -> t_step debug w c = WNext w1 r -> tidy w1.
Proof.
  intros Y G E. destruct c as [|p cr ok|p cr ok| | | | |t|t]; cbn [t_step] in E.
  - destruct (object w) as [o|] eqn:O; [discriminate|]. injection E as <- _. destruct (tidy_empty w Y ltac:(congruence)) as (H & A & T). apply tidy_from_empty; auto. intros x X. injection X as <-. split; reflexivity.
  - destruct (object w) as [o|] eqn:O; [discriminate|]. destruct (tidy_empty w Y ltac:(congruence)) as (H & A & T).
    destruct (start debug w (mkO None None false) p cr ok) as [[w2 o2] r2] eqn:S.
    assert (NT : thrown r2 = false).
    { unfold start in S. cbn [o_started] in S. cbn [gentle] in G. destruct G as [->|(P & -> & ->)].
      - destruct cr; injection S as <- <- <-; [destruct (set_result p ok)|]; reflexivity.
      - injection S as <- <- <-. assert (set_result p true = true) as ->; [|reflexivity]. unfold settable in P. destruct p; cbn; try reflexivity; exfalso; apply P; cbn; auto 10. }
    rewrite NT in E. injection E as <- _. exact (start_tidy debug w (mkO None None false) p cr ok w2 o2 r2 H A T eq_refl S).
  - destruct (object w) as [o|] eqn:O; [|discriminate]. destruct (start debug w o p cr ok) as [[w2 o2] r2] eqn:S. injection E as <- _.
    destruct (o_started o) eqn:ST.
    + apply start_fresh in S as [-> ->]; [|exact ST]. replace (with_object w (Some o)) with w; [exact Y|]. unfold with_object; rewrite <- O; now destruct w.
    + destruct (tidy_empty w Y) as (H & A & T); [|exact (start_tidy debug w o p cr ok w2 o2 r2 H A T ST S)]. intros x X. destruct Y as [_ _ _ HD TK]. split.
      * destruct (o_handle x) as [t|] eqn:XH; [|reflexivity]. destruct (HD x t X XH) as (_ & ? & _). congruence.
      * destruct (o_task x) as [k|] eqn:XT; [|reflexivity]. pose proof (TK x k X XT). congruence.
  - destruct (object w) as [o|] eqn:O; [|discriminate]. destruct (cancel w o) as [w2 o2] eqn:C. injection E as <- _. destruct (cancel_empty w o w2 o2 Y O C) as (I & _ & H & A & T & _). apply tidy_from_empty; auto. intros x X. injection X as <-. exact I.
  - destruct (object w) as [o|] eqn:O; [|discriminate]. destruct (o_handle o) as [t|]; [|injection E as <- _; exact Y]. destruct (nth_error (threads w) t) as [[s k]|]; [|discriminate]. destruct (alive s); [discriminate|]. injection E as <- _. exact Y.
  - destruct (object w) as [o|] eqn:O; [|discriminate]. injection E as <- _. exact Y.
  - destruct (object w) as [o|] eqn:O; [|discriminate]. destruct (cancel w o) as [w2 o2] eqn:C. injection E as <- _. destruct (cancel_empty w o w2 o2 Y O C) as (I & _ & H & A & T & _). apply tidy_from_empty; auto. discriminate.
  - destruct (nth_error (threads w) t) as [[s k]|] eqn:N; [|discriminate]. destruct s; try discriminate. destruct (nth k (tasks w) false); [|discriminate]. injection E as <- _. exact (progress_tidy w t Fresh Working k Y N eq_refl).
  - destruct (nth_error (threads w) t) as [[s k]|] eqn:N; [|discriminate]. destruct s; try discriminate. destruct (nth k (tasks w) false); [|discriminate]. injection E as <- _. exact (progress_tidy w t Working Finished k Y N eq_refl).
Qed.
Lemma run_cons debug w c l : t_run debug w (c :: l) = match t_step debug w c with WNext w1 r => match l with [] => WNext w1 r | _ => t_run debug w1 l end | o => o end.
Proof. destruct l; cbn [t_run]; [now destruct (t_step debug w c)|reflexivity]. Qed.
Lemma run_tidy debug l : forall w w1 r, tidy w -> Forall (gentle debug) l -> t_run debug w l = WNext w1 r -> tidy w1.
Proof.
  induction l as [|c l IH]; intros w w1 r Y G E; [injection E as <- _; exact Y|]. rewrite run_cons in E. inversion G as [|? ? G1 G2]; subst. destruct (t_step debug w c) as [w2 r2| |] eqn:S; try discriminate.
  pose proof (step_tidy debug w c w2 r2 Y G1 S) as Y2. destruct l as [|c2 l]; [injection E as <- _; exact Y2|]. exact (IH w2 w1 r Y2 G2 E).
Qed.
Lemma step_defined debug w c : tidy w -> t_step debug w c <> WUndefined.
Proof.
  intros [A H T HD TK]. destruct c as [|p cr ok|p cr ok| | | | |t|t]; cbn [t_step].
  - destruct (object w); discriminate.
  - destruct (object w); [discriminate|]. destruct (start debug w (mkO None None false) p cr ok) as [[w2 o2] r2]. destruct (thrown r2); discriminate.
  - destruct (object w) as [o|]; [|discriminate]. destruct (start debug w o p cr ok) as [[w2 o2] r2]. discriminate.
  - destruct (object w) as [o|]; [|discriminate]. destruct (cancel w o). discriminate.
  - destruct (object w) as [o|] eqn:O; [|discriminate]. destruct (o_handle o) as [t|] eqn:OH; [|discriminate]. destruct (HD o t eq_refl OH) as (_ & _ & s & k & N & _). rewrite N. destruct (alive s); discriminate.
  - destruct (object w); discriminate.
  - destruct (object w) as [o|]; [|discriminate]. destruct (cancel w o). discriminate.
  - destruct (nth_error (threads w) t) as [[s k]|] eqn:N; [|discriminate]. destruct s; try discriminate. destruct (A t k ltac:(auto)) as (o & O & _ & OT). assert (X : nth_error (tasks w) k = Some true) by (apply T; eauto). erewrite nth_error_nth by exact X. discriminate.
  - destruct (nth_error (threads w) t) as [[s k]|] eqn:N; [|discriminate]. destruct s; try discriminate. destruct (A t k ltac:(auto)) as (o & O & _ & OT). assert (X : nth_error (tasks w) k = Some true) by (apply T; eauto). erewrite nth_error_nth by exact X. discriminate.
Qed.

(** * C217: starting *)
(** Starting an object that is not started: the reply tells whether the thread exists, in a release build for every priority,
    in a debug build for the priorities that can be set, if the system sets them. *)
Theorem C217_start_partial : forall debug l w r o p created set_ok, t_run debug world0 l = WNext w r -> Forall (gentle debug) l -> object w = Some o -> o_started o = false ->
  (debug = true -> settable p /\ set_ok = true) ->
  exists w1 r1, t_step debug w (TStart p created set_ok) = WNext w1 r1 /\
    (created = true -> r1 = NoErrorR /\ exists t, running w1 t /\ status w t = None /\ forall u, running w1 u -> u = t) /\
    (created = false -> (r1 = if debug then ThrowUnknown else UnknownErrorR) /\ forall u, ~ running w1 u).
Proof.
  intros debug l w r o p cr ok E G O ST P. pose proof (run_tidy debug l world0 w r tidy0 G E) as Y. destruct Y as [A H T HD TK]. cbn [t_step]. rewrite O.
  assert (NA : forall u, ~ running w u).
  { intros u U. assert (X : exists k, nth_error (threads w) u = Some (Fresh, k) \/ nth_error (threads w) u = Some (Working, k)).
    { unfold running, status in U. destruct (nth_error (threads w) u) as [[s k]|]; cbn in U; [|destruct U; discriminate]. exists k. destruct U as [U|U]; injection U as ->; auto. }
    destruct X as (k & X). destruct (A u k X) as (o' & O' & OH & OT). rewrite O in O'. injection O' as <-. pose proof (TK o k O OT). congruence. }
  unfold start. rewrite ST. destruct cr.
  - eexists _, _. split; [reflexivity|]. split; [intros _|discriminate]. split.
    + destruct debug; [|now destruct (set_result p ok)]. destruct (P eq_refl) as [S ->]. assert (set_result p true = true) as ->; [|reflexivity]. unfold settable in S. destruct p; cbn; try reflexivity; exfalso; apply S; cbn; auto 10.
    + exists (length (threads w)). split; [left; unfold status; cbn [with_object threads]; now rewrite nth_error_app2, Nat.sub_diag by lia|]. split; [unfold status; assert (nth_error (threads w) (length (threads w)) = None) as -> by (apply nth_error_None; lia); reflexivity|].
      intros u U. destruct (Nat.lt_trichotomy u (length (threads w))) as [L|[L|L]]; [exfalso|exact L|exfalso].
      * apply (NA u). unfold running, status in *. cbn [with_object threads] in U. rewrite nth_error_app1 in U by exact L. exact U.
      * unfold running, status in U. cbn [with_object threads] in U. assert (nth_error (threads w ++ [(Fresh, length (tasks w))]) u = None) as X by (apply nth_error_None; rewrite app_length; cbn; lia). rewrite X in U. destruct U; discriminate.
  - eexists _, _. split; [reflexivity|]. split; [discriminate|intros _]. split; [reflexivity|]. intros u U. apply (NA u). exact U.
Qed.
Print Assumptions C217_start_partial.
(** In a debug build, starting a thread with the default priority throws although the thread was created, runs and finishes; so do
    the unknown, normal and critical priorities. *)
Theorem C217_default_throws_refuted : forall p, In p [DefaultPriority; UnknownPriority; NormalPriority; CriticalPriority] ->
  exists w, t_run true world0 [TConstruct; TStart p true true] = WNext w ThrowPriority /\ running w 0 /\
  exists w2, t_run true w [TBegin 0; TFinish 0] = WNext w2 Silent /\ status w2 0 = Some Finished.
Proof. intros p P. cbn in P. destruct P as [<-|[<-|[<-|[<-|[]]]]]; (eexists; split; [reflexivity|]; split; [left; reflexivity|]; eexists; split; reflexivity). Qed.
Print Assumptions C217_default_throws_refuted.
(** Constructing and starting in one go leaves, each time, a running thread that nobody can join, a handle and a task. *)
Theorem C217_constructor_loses_refuted : forall n, exists w r, t_run true world0 (repeat (TConstructStart DefaultPriority true true) n) = WNext w r /\
  (n <> 0 -> r = ThrowPriority) /\ object w = None /\ length (handles w) = n /\ tasks w = repeat true n /\ (forall t, t < n -> running w t).
Proof.
  assert (X : forall n w, object w = None -> exists w' r, t_run true w (repeat (TConstructStart DefaultPriority true true) n) = WNext w' r /\ (n <> 0 -> r = ThrowPriority) /\ object w' = None /\
    length (handles w') = length (handles w) + n /\ tasks w' = tasks w ++ repeat true n /\ length (threads w') = length (threads w) + n /\
    (forall t, running w t -> running w' t) /\ forall t, length (threads w) <= t < length (threads w') -> running w' t).
  { induction n as [|n IH]; intros w O.
    - exists w, Silent. cbn. rewrite app_nil_r. repeat split; auto; try lia.
    - cbn [repeat]. rewrite run_cons. cbn [t_step]. rewrite O. cbn [start o_started set_result thrown].
      match goal with |- context [t_run true ?w1 _] => destruct (IH w1 eq_refl) as (w' & r & E & R & O' & H' & T' & L' & K' & N') end.
      assert (K0 : forall t, running w t -> running (with_object (mkW (threads w ++ [(Fresh, length (tasks w))]) (tasks w ++ [true]) (length (threads w) :: handles w) (object w)) None) t).
      { intros t U. unfold running, status in *. cbn [with_object threads]. rewrite nth_error_app1; [exact U|]. apply nth_error_Some. destruct (nth_error (threads w) t); [discriminate|]. cbn in U. destruct U; discriminate. }
      assert (K1 : running (with_object (mkW (threads w ++ [(Fresh, length (tasks w))]) (tasks w ++ [true]) (length (threads w) :: handles w) (object w)) None) (length (threads w))).
      { left. unfold status. cbn [with_object threads]. now rewrite nth_error_app2, Nat.sub_diag by lia. }
      cbn [with_object handles tasks threads] in *. rewrite app_length in *. cbn [length] in *.
      destruct n as [|n].
      + cbn [repeat]. eexists _, _. split; [reflexivity|]. split; [reflexivity|]. split; [reflexivity|]. cbn [with_object handles tasks threads length]. rewrite app_length. cbn [length]. repeat split; try lia; [exact K0|].
        intros t [L1 L2]. assert (t = length (threads w)) as -> by lia. exact K1.
      + exists w', r. split; [exact E|]. split; [intros _; apply R; discriminate|]. split; [exact O'|]. split; [lia|]. split; [rewrite T', <- app_assoc; reflexivity|]. split; [lia|]. split; [auto|].
        intros t [L1 L2]. destruct (Nat.eq_dec t (length (threads w))) as [->|NE]; [auto|]. apply N'. lia. }
  intros n. destruct (X n world0 eq_refl) as (w & r & E & R & O & H & T & L & _ & N). exists w, r. cbn in *. repeat split; auto. intros t LT. apply N. lia.
Qed.
Print Assumptions C217_constructor_loses_refuted.
Example C217_case : exists w, t_run true world0 [TConstruct; TStart HighPriority true true; TBegin 0; TFinish 0; TJoin; TCancel; TStart LowPriority true true] = WNext w NoErrorR /\ running w 1.
Proof. eexists. split; [reflexivity|]. left. reflexivity. Qed.

(** * C218: one worker *)
(** However an object is used, at most one of its threads is running at any time, and a started object refuses another start
    until it is cancelled. *)
Theorem C218_one_worker : forall debug l w r t u, t_run debug world0 l = WNext w r -> Forall (gentle debug) l -> running w t -> running w u -> t = u.
Proof.
  intros debug l w r t u E G T U. pose proof (run_tidy debug l world0 w r tidy0 G E) as [A _ _ _ _].
  assert (X : forall v, running w v -> exists o, object w = Some o /\ o_handle o = Some v).
  { intros v V. unfold running, status in V. destruct (nth_error (threads w) v) as [[s k]|] eqn:N; cbn in V; [|destruct V; discriminate].
    destruct (A v k) as (o & O & OH & _); [destruct V as [V|V]; injection V as ->; auto|]. eauto. }
  destruct (X t T) as (o & O & OH). destruct (X u U) as (o' & O' & OH'). congruence.
Qed.
Print Assumptions C218_one_worker.
Theorem C218_busy : forall debug l w r o p q cr ok cr' ok' w1 r1, t_run debug world0 l = WNext w r -> object w = Some o ->
  t_step debug w (TStart p cr ok) = WNext w1 r1 -> t_step debug w1 (TStart q cr' ok') = WNext w1 (if debug then ThrowBusy else BusyErrorR).
Proof.
  intros debug l w r o p q cr ok cr' ok' w1 r1 E O S. cbn [t_step] in S. rewrite O in S. destruct (start debug w o p cr ok) as [[w2 o2] r2] eqn:ST. injection S as <- _. cbn [t_step with_object object].
  assert (o_started o2 = true) as X. { unfold start in ST. destruct (o_started o) eqn:OS; [injection ST as <- <- <-; exact OS|]. destruct cr; injection ST as <- <- <-; reflexivity. }
  unfold start. rewrite X. reflexivity.
Qed.
Print Assumptions C218_busy.
(** That includes a start that failed: it can only be tried again after a cancel. *)
Theorem C218_retry_refuted : exists w w2, t_run false world0 [TConstruct; TStart DefaultPriority false false] = WNext w UnknownErrorR /\ (forall t, ~ running w t) /\
  t_step false w (TStart DefaultPriority true true) = WNext w BusyErrorR /\
  t_run false w [TCancel; TStart DefaultPriority true true] = WNext w2 NoErrorR /\ running w2 0.
Proof. eexists _, _. split; [reflexivity|]. split; [intros t [H|H]; unfold status in H; cbn in H; destruct t; discriminate|]. split; [reflexivity|]. split; [reflexivity|left; reflexivity]. Qed.
Print Assumptions C218_retry_refuted.

(** * C219: joining, asking, destroying *)
(** Nothing is undefined: no thread reads a task that was freed. join() returns only when the thread is no longer running. *)
Theorem C219_safe : forall debug l w r c, t_run debug world0 l = WNext w r -> Forall (gentle debug) l -> t_step debug w c <> WUndefined /\
  (c = TJoin -> forall w1 r1, t_step debug w c = WNext w1 r1 -> forall t, ~ running w1 t).
Proof.
  intros debug l w r c E G. pose proof (run_tidy debug l world0 w r tidy0 G E) as Y. split; [now apply step_defined|]. intros -> w1 r1 S t T. destruct Y as [A H TS HD TK]. cbn [t_step] in S.
  destruct (object w) as [o|] eqn:O; [|discriminate].
  assert (W : w1 = w /\ forall u, o_handle o = Some u -> ~ running w u).
  { destruct (o_handle o) as [u|] eqn:OH; [|injection S as <- _; split; [reflexivity|discriminate]]. destruct (nth_error (threads w) u) as [[s k]|] eqn:N; [|discriminate]. destruct (alive s) eqn:AL; [discriminate|]. injection S as <- _.
    split; [reflexivity|]. intros v V. injection V as <-. unfold running, status. rewrite N. cbn. intros [X|X]; injection X as ->; discriminate. }
  destruct W as [-> W]. unfold running, status in T. destruct (nth_error (threads w) t) as [[s k]|] eqn:N; cbn in T; [|destruct T; discriminate].
  destruct (A t k) as (o' & O' & OH & _); [destruct T as [T|T]; injection T as ->; auto|]. injection O' as <-. apply (W t OH). unfold running, status. rewrite N. exact T.
Qed.
Print Assumptions C219_safe.
(** Destroying (and cancelling) an object leaves no handle and no task behind... *)
Theorem C219_nothing_lost : forall debug l w r w1 r1 c, t_run debug world0 l = WNext w r -> Forall (gentle debug) l -> c = TDestroy \/ c = TCancel -> t_step debug w c = WNext w1 r1 ->
  handles w1 = [] /\ (forall k, nth_error (tasks w1) k <> Some true) /\ forall t, ~ running w1 t.
Proof.
  intros debug l w r w1 r1 c E G C S. pose proof (run_tidy debug l world0 w r tidy0 G E) as Y.
  assert (X : exists o w2 o2, object w = Some o /\ cancel w o = (w2, o2) /\ threads w1 = threads w2 /\ tasks w1 = tasks w2 /\ handles w1 = handles w2).
  { destruct C as [-> | ->]; cbn [t_step] in S; (destruct (object w) as [o|] eqn:O; [|discriminate]); destruct (cancel w o) as [w2 o2] eqn:CC; injection S as <- _; exists o, w2, o2; auto. }
  destruct X as (o & w2 & o2 & O & CC & X1 & X2 & X3). destruct (cancel_empty w o w2 o2 Y O CC) as (_ & _ & H & A & T & _). rewrite X2, X3. split; [exact H|]. split; [exact T|]. intros t R. unfold running, status in R. rewrite X1 in R.
  destruct (nth_error (threads w2) t) as [[s k]|] eqn:N; cbn in R; [|destruct R; discriminate]. apply (A t k). rewrite N. destruct R as [R|R]; injection R as ->; auto.
Qed.
Print Assumptions C219_nothing_lost.
(** ... because the thread is killed. The documentation says it is detached and keeps running. *)
Theorem C219_destroy_kills_refuted : forall debug l w r t, t_run debug world0 l = WNext w r -> Forall (gentle debug) l -> running w t ->
  exists w1, t_step debug w TDestroy = WNext w1 Silent /\ status w1 t = Some Killed.
Proof.
  intros debug l w r t E G R. pose proof (run_tidy debug l world0 w r tidy0 G E) as Y. assert (Y' := Y). destruct Y' as [A _ _ _ _].
  assert (X : exists s, status w t = Some s /\ alive s = true) by (destruct R; eauto). destruct X as (s & SS & AL).
  assert (X : exists o, object w = Some o). { unfold status in SS. destruct (nth_error (threads w) t) as [[s' k]|] eqn:N; [|discriminate]. cbn in SS. injection SS as ->. destruct (A t k) as (o & O & _); [destruct s; try discriminate; auto|]. eauto. }
  destruct X as (o & O). cbn [t_step]. rewrite O. destruct (cancel w o) as [w2 o2] eqn:CC. destruct (cancel_empty w o w2 o2 Y O CC) as (_ & _ & _ & _ & _ & K). eexists. split; [reflexivity|].
  specialize (K t s SS). rewrite AL in K. exact K.
Qed.
Print Assumptions C219_destroy_kills_refuted.
(** isRunning() says yes when the function has returned, even after a join. *)
Theorem C219_is_running_refuted : exists l w, Forall (gentle true) l /\ t_run true world0 l = WNext w Silent /\ (forall t, ~ running w t) /\ status w 0 = Some Finished /\ t_step true w TIsRunning = WNext w (Answer true).
Proof.
  exists [TConstructStart HighPriority true true; TBegin 0; TFinish 0; TJoin]. eexists. split; [|split; [reflexivity|split; [|split; reflexivity]]].
  - constructor; [|repeat constructor]. cbn. right. repeat split. unfold settable. cbn. intuition discriminate.
  - intros t [H|H]; unfold status in H; cbn in H; (destruct t as [|[|t]]; discriminate).
Qed.
Print Assumptions C219_is_running_refuted.

(** A worker runs in both builds after histories without a throwing constructor. *)
Example C218_case : forall debug, exists w r o w1 r1, Forall (gentle debug) [TConstruct; TStart HighPriority true true; TBegin 0] /\
  t_run debug world0 [TConstruct; TStart HighPriority true true; TBegin 0] = WNext w r /\ running w 0 /\ object w = Some o /\ t_step debug w (TStart LowPriority true true) = WNext w1 r1.
Proof. intros [|]; eexists _, _, _, _, _; (split; [repeat constructor|]); (split; [reflexivity|]); (split; [right; reflexivity|]); split; reflexivity. Qed.
Example C219_case : forall debug, exists w r w1 r1 w2 r2, t_run debug world0 [TConstruct; TStart HighPriority true true; TBegin 0] = WNext w r /\
  t_step debug w TCancel = WNext w1 r1 /\ t_step debug w TDestroy = WNext w2 r2.
Proof. intros [|]; eexists _, _, _, _, _, _; repeat split; reflexivity. Qed.
