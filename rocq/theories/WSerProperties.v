(** C226, C227: opening and closing serial ports on Windows. *)
From Coq Require Import ZArith List Bool Arith Lia.
Import ListNotations.
From Verif Require Import WSerModel.
Open Scope Z_scope.

(** The event thread can be created. *)
Definition threaded (c : scall) : Prop := match c with SOpen _ a | SNewOpen _ a => a_thread a = true | _ => True end.
Definition is_open_now (w : wworld) : Prop := exists o, w_obj w = Some o /\ s_open o = Some true.

Record sound (w : wworld) : Prop := mkSound {
  n_open : forall o, w_obj w = Some o -> s_open o = Some true -> exists h, s_fd o = Some h /\ In h (w_ports w) /\ s_thread o = Waiting;
  n_def : forall o, w_obj w = Some o -> s_open o <> None;
  n_wait : forall o, w_obj w = Some o -> s_thread o = Waiting -> s_open o = Some true;
  n_closing : forall o, w_obj w = Some o -> s_closing o = true -> s_run o = false /\ s_open o = Some true;
  n_run : forall o, w_obj w = Some o -> s_open o = Some true -> s_closing o = false -> s_run o = true;
}.
Lemma sound0 : sound ww0.
Proof. split; discriminate. Qed.
Ltac inj := match goal with H : Some _ = Some _ |- _ => injection H as <- | H : Goes _ _ = Goes _ _ |- _ => injection H as <- <- end.
Lemma open_sound w o port a w1 r : a_thread a = true -> w_obj w = Some o -> s_open o = Some false -> s_thread o <> Waiting -> s_closing o = false -> do_open w o port a = (w1, r) ->
  sound w1 /\ incl (w_ports w) (w_ports w1) /\ w_handles w <= w_handles w1 /\
  (r = RDone -> is_open_now w1 /\ In port (w_ports w1) /\ ~ In port (w_ports w) /\ w_handles w1 = w_handles w + 2) /\ (In port (w_ports w) -> exists e, r = RThrow e).
Proof.
  intros TH O OF NW NC E. unfold do_open in E. cbv zeta in E.
  destruct (a_ev1 a); cbn [negb] in E; [|injection E as <- <-; split; [split; cbn; intros x X; inj; congruence|split; [intros x; auto|split; [cbn; lia|split; [discriminate|eauto]]]]].
  destruct (a_ev2 a); cbn [negb] in E; [|injection E as <- <-; split; [split; cbn; intros x X; inj; congruence|split; [intros x; auto|split; [cbn; lia|split; [discriminate|eauto]]]]].
  destruct (a_there a && negb (existsb (Nat.eqb port) (w_ports w))) eqn:F.
  - apply andb_prop in F as [_ F]. apply negb_true_iff in F.
    assert (NI : ~ In port (w_ports w)). { intros I. assert (existsb (Nat.eqb port) (w_ports w) = true) by (apply existsb_exists; exists port; split; [exact I|apply Nat.eqb_refl]). congruence. }
    destruct (a_get a && a_set a); cbn [negb] in E.
    + rewrite TH in E. injection E as <- <-. split; [|split; [intros x; right; assumption|split; [cbn; lia|split; [intros _|contradiction]]]].
      * split; cbn; intros x X; inj; cbn; try discriminate; auto. intros _. exists port. auto.
      * split; [eexists; split; reflexivity|]. split; [left; reflexivity|]. split; [exact NI|reflexivity].
    + injection E as <- <-. split; [split; cbn; intros x X; inj; cbn; congruence|]. split; [intros x; right; assumption|split; [cbn; lia|split; [discriminate|eauto]]].
  - injection E as <- <-. split; [split; cbn; intros x X; inj; cbn; congruence|]. split; [intros x; auto|split; [cbn; lia|split; [discriminate|eauto]]].
Qed.
Lemma end_sound w o : sound w -> w_obj w = Some o -> sound (end_thread w o) /\ w_ports (end_thread w o) = w_ports w /\ w_handles (end_thread w o) = w_handles w /\ ~ is_open_now (end_thread w o).
Proof.
  intros N O. unfold end_thread, finish_close. destruct (s_closing o) eqn:C; cbn; (split; [split; cbn; intros x X; inj; cbn; congruence|split; [reflexivity|split; [reflexivity|]]]);
    intros (x & X & Y); injection X as <-; discriminate.
Qed.
Lemma step_sound w c w1 r : sound w -> threaded c -> s_step w c = Goes w1 r -> sound w1 /\ incl (w_ports w) (w_ports w1) /\ w_handles w <= w_handles w1.
Proof.
  intros N T E. assert (REFL : sound w /\ incl (w_ports w) (w_ports w) /\ w_handles w <= w_handles w) by (split; [exact N|split; [intros x; auto|lia]]).
  unfold s_step in E. destruct (w_obj w) as [o|] eqn:O; [|destruct c; try discriminate; injection E as <- <-; split; [split; cbn; intros x X; inj; cbn; congruence|split; [intros x; auto|cbn; lia]]].
  pose proof N as [NO ND NW NC NR].
  assert (CL : forall w2 b, s_closing o = false -> do_close w o = Some (w2, b) -> sound w2 /\ incl (w_ports w) (w_ports w2) /\ w_handles w <= w_handles w2 /\
    (b = true -> w2 = w /\ s_open o = Some false /\ s_thread o <> Waiting)).
  { intros w2 b SC D. unfold do_close in D. destruct (s_open o) as [[|]|] eqn:OP; [| |discriminate].
    - destruct (NO o O OP) as (h & FD & IN & TW). rewrite TW in D. injection D as <- <-. split; [|split; [intros x; auto|split; [cbn; lia|discriminate]]].
      split; cbn; intros x X; inj; cbn; try congruence; auto. intros _. exists h. auto.
    - injection D as <- <-. split; [exact N|]. split; [intros x; auto|]. split; [lia|]. intros _. split; [reflexivity|]. split; [reflexivity|]. intros TW. specialize (NW o O TW). congruence. }
  destruct c as [|p a|p a| | | | |].
  - discriminate.
  - discriminate.
  - destruct (s_closing o) eqn:SC; [discriminate|]. destruct (do_close w o) as [[w2 [|]]|] eqn:D; [| |discriminate].
    + destruct (CL w2 true eq_refl eq_refl) as (S2 & I2 & H2 & X). destruct (X eq_refl) as (-> & OF & NTW). rewrite O in E. destruct (do_open w o p a) as [w3 r3] eqn:DO. injection E as <- <-.
      destruct (open_sound w o p a w3 r3 T O OF NTW SC DO) as (S3 & I3 & H3 & _). auto.
    + injection E as <- <-. destruct (CL w2 false eq_refl eq_refl) as (S2 & I2 & H2 & _). auto.
  - destruct (s_closing o) eqn:SC; [discriminate|]. destruct (do_close w o) as [[w2 [|]]|] eqn:D; [| |discriminate]; injection E as <- <-; [destruct (CL w2 true eq_refl eq_refl) as (S2 & I2 & H2 & _)|destruct (CL w2 false eq_refl eq_refl) as (S2 & I2 & H2 & _)]; auto.
  - destruct (s_closing o) eqn:SC; [discriminate|]. destruct (do_close w o) as [[w2 [|]]|] eqn:D; [| |discriminate]; injection E as <- <-; [destruct (CL w2 true eq_refl eq_refl) as (S2 & I2 & H2 & _)|destruct (CL w2 false eq_refl eq_refl) as (S2 & I2 & H2 & _)]; [|auto].
    split; [split; discriminate|]. auto.
  - destruct (s_closing o); [discriminate|]. destruct (s_open o); [|discriminate]. injection E as <- <-. exact REFL.
  - destruct (s_thread o) eqn:TW; try discriminate. destruct (s_run o); injection E as <- <-; [exact REFL|]. destruct (end_sound w o N O) as (S2 & P2 & H2 & _). rewrite P2, H2. split; [exact S2|split; [intros x; auto|lia]].
  - destruct (s_thread o) eqn:TW; try discriminate. injection E as <- <-. destruct (end_sound w o N O) as (S2 & P2 & H2 & _). rewrite P2, H2. split; [exact S2|split; [intros x; auto|lia]].
Qed.
Lemma run_sound l : forall w w1 r, sound w -> Forall threaded l -> s_run_all w l = Goes w1 r -> sound w1 /\ incl (w_ports w) (w_ports w1) /\ w_handles w <= w_handles w1.
Proof.
  induction l as [|c l IH]; intros w w1 r N F E; cbn [s_run_all] in E; [injection E as <- <-; split; [exact N|split; [intros x; auto|lia]]|].
  inversion F as [|? ? F1 F2]; subst. destruct (s_step w c) as [w2 r2| |] eqn:S; try discriminate. destruct (step_sound w c w2 r2 N F1 S) as (N2 & I2 & H2). destruct (IH w2 w1 r N2 F2 E) as (N1 & I1 & H1).
  split; [exact N1|]. split; [intros x X; auto|lia].
Qed.

(** * C226 *)
(** A port that says it is open can be used: it has a handle, and a thread that waits for events. *)
Theorem C226_open_partial : forall l w r o, s_run_all ww0 l = Goes w r -> Forall threaded l -> w_obj w = Some o -> s_open o = Some true ->
  exists h, s_fd o = Some h /\ In h (w_ports w) /\ s_thread o = Waiting.
Proof. intros l w r o E F O OP. destruct (run_sound l ww0 w r sound0 F E) as ([NO _ _ _ _] & _). exact (NO o O OP). Qed.
Print Assumptions C226_open_partial.
(** But a port is never freed: neither close() nor the destructor nor anything else closes its handle, so that opening it again, with this
    object or another one, fails for as long as the process runs. *)
Theorem C226_freed_refuted : forall l w r p, s_run_all ww0 l = Goes w r -> Forall threaded l -> In p (w_ports w) ->
  forall l2 w2 r2 a w3 r3, Forall threaded l2 -> s_run_all w l2 = Goes w2 r2 -> a_thread a = true -> s_step w2 (SOpen p a) = Goes w3 r3 -> r3 = RWaits \/ exists e, r3 = RThrow e.
Proof.
  intros l w r p E F I l2 w2 r2 a w3 r3 F2 E2 TH S. destruct (run_sound l ww0 w r sound0 F E) as (N & _). destruct (run_sound l2 w w2 r2 N F2 E2) as (N2 & I2 & _). specialize (I2 p I).
  cbn [s_step] in S. destruct (w_obj w2) as [o|] eqn:O; [|discriminate]. destruct (s_closing o) eqn:SC; [discriminate|]. destruct (do_close w2 o) as [[w4 [|]]|] eqn:D; [| |discriminate].
  - unfold do_close in D. destruct (s_open o) as [[|]|] eqn:OP; [| |discriminate].
    + destruct N2 as [NO _ _ _ _]. destruct (NO o O OP) as (h & _ & _ & TW). rewrite TW in D. discriminate.
    + injection D as <-. rewrite O in S. destruct (do_open w2 o p a) as [w5 r5] eqn:DO. injection S as <- <-. right.
      destruct (open_sound w2 o p a w5 r5 TH O OP) as (_ & _ & _ & _ & X); auto. destruct N2 as [_ _ NW _ _]. intros TW. specialize (NW o O TW). congruence.
  - injection S as <- <-. auto.
Qed.
Print Assumptions C226_freed_refuted.
(** Every successful open takes two event handles that are never closed. *)
Theorem C226_events_refuted : forall l w r, s_run_all ww0 l = Goes w r -> Forall threaded l ->
  (forall l2 w2 r2, Forall threaded l2 -> s_run_all w l2 = Goes w2 r2 -> w_handles w <= w_handles w2) /\
  (forall p a w1, a_thread a = true -> s_step w (SOpen p a) = Goes w1 RDone -> w_handles w1 = w_handles w + 2).
Proof.
  intros l w r E F. destruct (run_sound l ww0 w r sound0 F E) as (N & _). split; [intros l2 w2 r2 F2 E2; now destruct (run_sound l2 w w2 r2 N F2 E2) as (_ & _ & ?)|].
  intros p a w1 TH S. cbn [s_step] in S. destruct (w_obj w) as [o|] eqn:O; [|discriminate]. destruct (s_closing o) eqn:SC; [discriminate|]. destruct (do_close w o) as [[w4 [|]]|] eqn:D; [| |discriminate].
  - unfold do_close in D. destruct (s_open o) as [[|]|] eqn:OP; [| |discriminate].
    + destruct N as [NO _ _ _ _]. destruct (NO o O OP) as (h & _ & _ & TW). rewrite TW in D. discriminate.
    + injection D as <-. rewrite O in S. destruct (do_open w o p a) as [w5 r5] eqn:DO. injection S as <- ->.
      destruct (open_sound w o p a w5 RDone TH O OP) as (_ & _ & _ & X & _); auto; [destruct N as [_ _ NW _ _]; intros TW; specialize (NW o O TW); congruence|]. now destruct (X eq_refl) as (_ & _ & _ & ?).
  - discriminate.
Qed.
Print Assumptions C226_events_refuted.
Definition yes : answers := mkA true true true true true true.
Example C226_case : exists w w2, s_run_all ww0 [SNew; SOpen 3 yes; SClose; TEvent; SOpen 4 yes] = Goes w RDone /\ is_open_now w /\ w_ports w = [4; 3]%nat /\ w_handles w = 4 /\
  s_run_all w [TAbort; SOpen 3 yes] = Goes w2 RDone /\ w_ports w2 = [4; 3]%nat /\ ~ is_open_now w2.
Proof. eexists _, _. split; [reflexivity|]. split; [eexists; split; reflexivity|]. repeat (split; [reflexivity|]). intros (o & O & S). cbn in O. injection O as <-. discriminate. Qed.

(** * C227 *)
(** Closing an open port does not return before the event thread's wait for a byte does; until then nothing else can be done with the object. *)
Theorem C227_close_waits_refuted : forall l w r, s_run_all ww0 l = Goes w r -> Forall threaded l -> is_open_now w -> (forall o, w_obj w = Some o -> s_closing o = false) ->
  exists w1, s_step w SClose = Goes w1 RWaits /\ is_open_now w1 /\ (forall c, c <> TEvent -> c <> TAbort -> s_step w1 c = Cannot) /\
    (forall c w2 r2, c = TEvent \/ c = TAbort -> s_step w1 c = Goes w2 r2 -> ~ is_open_now w2).
Proof.
  intros l w r E F (o & O & OP) NC. destruct (run_sound l ww0 w r sound0 F E) as (N & _). pose proof N as [NO _ _ _ _]. destruct (NO o O OP) as (h & FD & IN & TW). specialize (NC o O).
  eexists. split; [cbn [s_step]; rewrite O, NC; unfold do_close; rewrite OP, TW; reflexivity|]. split; [eexists; split; [reflexivity|reflexivity]|]. split.
  - intros c C1 C2. destruct c; try reflexivity; contradiction.
  - intros c w2 r2 [-> | ->] S; cbn in S; injection S as <- <-; intros (x & X & Y); cbn in X; injection X as <-; discriminate.
Qed.
Print Assumptions C227_close_waits_refuted.
(** Closing a port that is not open returns and changes nothing. *)
Theorem C227_close_closed : forall l w r o, s_run_all ww0 l = Goes w r -> Forall threaded l -> w_obj w = Some o -> s_open o = Some false -> s_closing o = false -> s_step w SClose = Goes w RDone.
Proof. intros l w r o E F O OP SC. cbn [s_step]. rewrite O, SC. unfold do_close. rewrite OP. reflexivity. Qed.
Print Assumptions C227_close_closed.
(** Closing an open port whose event thread could not be made returns at once, and frees the port: it is the only way to. *)
Theorem C227_threadless : forall w o h, w_obj w = Some o -> s_open o = Some true -> s_thread o <> Waiting -> s_closing o = false -> s_fd o = Some h ->
  exists w1, s_step w SClose = Goes w1 RDone /\ ~ is_open_now w1 /\ ~ In h (w_ports w1) /\ (forall p, p <> h -> (In p (w_ports w1) <-> In p (w_ports w))) /\ w_handles w1 = w_handles w.
Proof.
  intros w o h O OP TW SC FD. eexists. split; [cbn [s_step]; rewrite O, SC; unfold do_close; rewrite OP; destruct (s_thread o); [reflexivity|contradiction|reflexivity]|].
  unfold finish_close. rewrite FD. cbn [w_ports w_handles]. split; [intros (x & X & Y); cbn in X; injection X as <-; discriminate|]. split; [apply remove_In|]. split; [|reflexivity].
  intros p N. split; [intros I; exact (proj1 (in_remove _ _ _ _ I))|intros I; apply in_in_remove; [exact N|exact I]].
Qed.
Print Assumptions C227_threadless.
Example C227_threadless_case : exists w o, s_run_all ww0 [SNew; SOpen 3 (mkA true true true true true false)] = Goes w RDone /\ w_obj w = Some o /\ s_open o = Some true /\ s_thread o = NoThread /\ s_closing o = false /\ s_fd o = Some 3%nat.
Proof. eexists _, _. repeat split. Qed.
(** Constructing a port that opens itself reads a variable that was never written. *)
Theorem C227_constructor_refuted : forall w p a, w_obj w = None -> s_step w (SNewOpen p a) = Undef.
Proof. intros w p a O. cbn [s_step]. now rewrite O. Qed.
Print Assumptions C227_constructor_refuted.
Example C227_case : exists w, s_run_all ww0 [SNew; SClose; SOpen 1 yes] = Goes w RDone /\ is_open_now w /\ (forall o, w_obj w = Some o -> s_closing o = false).
Proof. eexists. split; [reflexivity|]. split; [eexists; split; reflexivity|]. intros o O. injection O as <-. reflexivity. Qed.

(** The events an attempt to open makes, and those of a history: every one of them is lost, whether the attempt succeeds or fails. *)
Definition events_made (a : answers) : Z := if a_ev1 a then (if a_ev2 a then 2 else 1) else 0.
Lemma close_keeps_handles w o w1 b : do_close w o = Some (w1, b) -> w_handles w1 = w_handles w.
Proof.
  unfold do_close. destruct (s_open o) as [[|]|]; [|intros [= <- _]; reflexivity|discriminate].
  destruct (s_thread o); intros [= <- _]; reflexivity.
Qed.
Theorem C226_lost_events_exactly :
  w_handles ww0 = 0 /\
  forall w c w1 r, s_step w c = Goes w1 r ->
    w_handles w1 = w_handles w + match c with SOpen _ a => match r with RWaits => 0 | _ => events_made a end | _ => 0 end.
Proof.
  split; [reflexivity|]. intros w c w1 r S1. unfold s_step in S1.
  assert (EN : forall o, w_handles (end_thread w o) = w_handles w) by (intros o; unfold end_thread; destruct (s_closing o); reflexivity).
  destruct c as [|p a|p a| | | | |]; destruct (w_obj w) as [o|]; try discriminate;
    try (destruct (s_closing o) eqn:SC; [discriminate|]);
    try (injection S1 as <- <-; cbn; lia).
  - destruct (do_close w o) as [[w4 [|]]|] eqn:D; [| |discriminate].
    + apply close_keeps_handles in D. destruct (w_obj w4) as [o4|]; [|discriminate].
      destruct (do_open w4 o4 p a) as [w5 r5] eqn:DO. injection S1 as <- <-. unfold do_open in DO. unfold events_made.
      destruct (a_ev1 a); cbn [negb] in DO; [|injection DO as <- <-; cbn [w_handles]; lia].
      destruct (a_ev2 a); cbn [negb] in DO; [|injection DO as <- <-; cbn [w_handles]; lia].
      destruct (a_there a && _); [destruct (negb _)|]; injection DO as <- <-; cbn [w_handles]; lia.
    + apply close_keeps_handles in D. injection S1 as <- <-. lia.
  - destruct (do_close w o) as [[w4 [|]]|] eqn:D; [| |discriminate]; apply close_keeps_handles in D; injection S1 as <- <-; lia.
  - destruct (do_close w o) as [[w4 [|]]|] eqn:D; [| |discriminate]; apply close_keeps_handles in D; injection S1 as <- <-; cbn [w_handles]; lia.
  - destruct (s_open o); [|discriminate]. injection S1 as <- <-. lia.
  - destruct (s_thread o); try discriminate. destruct (s_run o); injection S1 as <- <-; rewrite ?EN; lia.
  - destruct (s_thread o); try discriminate. injection S1 as <- <-; rewrite ?EN; lia.
Qed.
Print Assumptions C226_lost_events_exactly.
Example C226_lost_case : exists w w1, s_run_all ww0 [SNew; SOpen 3 (mkA true false true true true true)] = Goes w (RDone) /\ w_handles w = 1
  /\ s_run_all w [SOpen 3 (mkA true true false true true true)] = Goes w1 RDone /\ w_handles w1 = 3.
Proof. eexists _, _. repeat split. Qed.
