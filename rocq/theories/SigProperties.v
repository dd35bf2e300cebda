(** Theorems about ecl_sigslots (C24-C26, C91-C94). *)
From Verif Require Import Base SigModel SigProofs SigEmit.
Open Scope Z_scope.

(** C24: every legal history runs without error, and every emission invokes the user functions once per route from
    the signal (over shared topics, through signals that pass signals on), with the data, and nothing else. *)
Theorem C24_emissions_reach_connected_slots : forall depth l, good depth c0 l ->
  exists w outs, run depth w0 l = Ok (w, outs) /\ outputs c0 l outs.
Proof. intros depth l H. destruct (run_ok depth l w0 c0 Rel0 H) as (w & outs & H1 & _ & H2). eauto. Qed.
Print Assumptions C24_emissions_reach_connected_slots.
(** C24, without signals passing signals on: exactly once per shared topic. *)
Theorem C24_once_per_shared_topic : forall c a d evs, reaches c a d evs -> (forall t x, cP c a t -> cS c x t -> ckind c x <> Relay) ->
  NoDup evs /\ forall r y, In (r, y) evs <-> y = d /\ exists t x, r = [(t, x)] /\ cP c a t /\ cS c x t.
Proof.
  intros c a d evs [H1 H2] HR. split; [exact H1|]. intros r y. rewrite H2, Route_inv. unfold Cont. split.
  - intros [(t & x & r' & -> & A & B & C) ->]. split; [reflexivity|]. exists t, x. destruct (ckind c x) eqn:E; [exfalso; exact (HR t x A B E)|]. subst r'. auto.
  - intros [-> (t & x & -> & A & B)]. split; [|reflexivity]. exists t, x, []. split; [reflexivity|]. split; [exact A|]. split; [exact B|]. destruct (ckind c x) eqn:E; [exfalso; exact (HR t x A B E)|reflexivity].
Qed.
Print Assumptions C24_once_per_shared_topic.
(** Signal 1 on topics A and B; slot 2 on A and B (A twice); slot 3 on B; signal 4 on A passing on to topic C with slot 5. *)
Definition demo : list op :=
  [ONew 1 100 Relay; OSignal 1 [65]; OSignal 1 [66]; ONew 2 90 (Call 2); OSlot 2 [66]; OSlot 2 [65]; OSlot 2 [65];
   ONew 3 110 (Call 3); OSlot 3 [66]; ONew 4 80 Relay; OSlot 4 [65]; OSignal 4 [67]; ONew 5 70 (Call 5); OSlot 5 [67]; OCopy 3 6; ODestroy 3;
   OEmit 1 7; ODisc 2; OEmit 1 8; ODestroy 6; OEmit 1 9].
Example C24_case : match run 3 w0 demo with Ok (_, outs) => outs | _ => [] end =
  [[([([65], 80); ([67], 70)], 7); ([([65], 90)], 7); ([([66], 90)], 7); ([([66], 110)], 7)];
   [([([65], 80); ([67], 70)], 8); ([([66], 110)], 8)]; [([([65], 80); ([67], 70)], 9)]].
Proof. reflexivity. Qed.
Example C24_case_good : good 3 c0 demo.
Proof.
  set (rk := fun a => if a =? 100 then 1%nat else 0%nat).
  cbn [good demo legal].
  repeat match goal with |- _ /\ _ => split end; cbn; try congruence; try (intros u F; repeat destruct (_ =? _); congruence); eauto.
  all: try (exists 100, rk; split; [reflexivity|split; [reflexivity|split; [|cbn; lia]]]; intros s t x; cbn; unfold rk; intros HP HS HK;
    intuition; try congruence; repeat match goal with H : Some _ = Some _ |- _ => injection H as H; subst end; subst; cbn in *; try lia; try discriminate).
  - exists 110. split; [reflexivity|]. left. exists 6. split; [lia|reflexivity].
  - eexists. split; [reflexivity|]. intros (n & A & B & C). intuition congruence.
  - eexists. split; [reflexivity|]. right. intros (n & A & B & C). intuition congruence.
Qed.

(** C25: after any legal history, disconnecting a slot, or a signal that is not the only member of a topic in both
    roles, succeeds and removes exactly its own connections. *)
Theorem C25_disconnect_safe : forall depth l v a, good depth c0 l -> own (after c0 l) v = Some a ->
  ckind (after c0 l) a <> Relay \/ (forall n, ~ lonely (cP (after c0 l)) (cS (after c0 l)) a n) ->
  exists w outs w', run depth w0 l = Ok (w, outs) /\ step depth w (ODisc v) = Ok (w', []) /\
    (forall b n, inP (topics w') b n <-> cP (after c0 l) b n /\ b <> a) /\
    (forall b n, inS (topics w') b n <-> cS (after c0 l) b n /\ b <> a).
Proof.
  intros depth l v a HG HO HK. destruct (run_ok depth l w0 c0 Rel0 HG) as (w & outs & H1 & HR & _). exists w, outs.
  assert (HL : legal depth (after c0 l) (ODisc v)).
  { exists a. split; [exact HO|]. destruct HK as [HK|HK]; [|intros (n & F); exact (HK n F)].
    intros (n & F & _). apply HK. clear - HG F HO.
    assert (HP : forall b m, cP (after c0 l) b m -> ckind (after c0 l) b = Relay /\ exists u, own (after c0 l) u = Some b).
    { assert (HX : forall l c, good depth c l -> (forall b m, cP c b m -> ckind c b = Relay /\ exists u, own c u = Some b) ->
        forall b m, cP (after c l) b m -> ckind (after c l) b = Relay /\ exists u, own (after c l) u = Some b).
      { induction l0 as [|o l0 IH]; intros c HG0 HI b m HP; [eauto|]. destruct HG0 as [G1 G2]. cbn [after] in *. revert b m HP. apply IH; [exact G2|].
        clear IH G2. destruct o as [v0 a0 k|v0 n0|v0 n0|v0|v0 u|v0 u|v0|v0 d]; cbn [cstep cP own ckind legal] in *; intros b m HP.
        - destruct G1 as [G1 G3]. destruct (HI b m HP) as [I1 (u & I2)]. assert (b <> a0) by (intros ->; exact (G3 u I2)). replace (b =? a0) with false by lia. split; [exact I1|].
          exists u. destruct (u =? v0) eqn:E; [|exact I2]. apply Z.eqb_eq in E. subst u. congruence.
        - destruct HP as [HP|[HP _]]; [eauto|]. destruct G1 as (a0 & G3 & G4). assert (a0 = b) as -> by congruence. eauto.
        - eauto.
        - destruct HP as [HP _]. eauto.
        - destruct (HI b m HP) as [I1 (x & I2)]. split; [exact I1|]. exists x. destruct (x =? u) eqn:E; [|exact I2]. apply Z.eqb_eq in E. subst x. destruct G1. congruence.
        - eauto.
        - destruct HP as [HP HU]. split; [eapply HI; eauto|exact HU].
        - eauto. }
      apply HX; [exact HG|]. intros b m []. }
    exact (proj1 (HP _ _ F)). }
  destruct (step_ok depth w (after c0 l) (ODisc v) HR HL) as (w' & out & E & R' & ->). exists w'. split; [exact H1|]. split; [exact E|].
  split; intros b n; [rewrite (r_P _ _ R')|rewrite (r_S _ _ R')]; cbn [cstep cP cS]; rewrite HO; intuition congruence.
Qed.
Print Assumptions C25_disconnect_safe.
(** C91: otherwise the manager dereferences the end of its topic map: exactly then, after any legal history. *)
Theorem C91_lonely_disconnect_undefined : forall depth l v a n, good depth c0 l -> own (after c0 l) v = Some a ->
  lonely (cP (after c0 l)) (cS (after c0 l)) a n ->
  exists w outs, run depth w0 l = Ok (w, outs) /\ step depth w (ODisc v) = UB.
Proof.
  intros depth l v a n HG HO (L1 & L2 & L3). destruct (run_ok depth l w0 c0 Rel0 HG) as (w & outs & H1 & HR & _). exists w, outs. split; [exact H1|].
  destruct (Rel_ptr _ _ _ _ HR HO) as (E & s & HA). cbn [step]. rewrite E. cbn [bind].
  rewrite (disconnect_UB w a s n (r_inv _ _ HR) HA); [reflexivity|]. split; [apply HR; exact L1|]. split; [apply HR; exact L2|].
  intros b F. apply L3. rewrite <- (r_P _ _ HR), <- (r_S _ _ HR). exact F.
Qed.
Print Assumptions C91_lonely_disconnect_undefined.
Theorem C91_signal_on_its_own_topic_refuted : good 1 c0 [ONew 1 100 Relay; OSignal 1 [65]; OSlot 1 [65]] /\
  run 1 w0 [ONew 1 100 Relay; OSignal 1 [65]; OSlot 1 [65]; ODestroy 1] = UB.
Proof.
  split; [|reflexivity]. cbn [good legal]. repeat match goal with |- _ /\ _ => split end; cbn; try congruence; try (intros u F; congruence); eauto.
Qed.
Print Assumptions C91_signal_on_its_own_topic_refuted.

(** C26: after any legal history (copies, destructions, assignments between copies) a connection's memory exists
    exactly as long as some signal or slot owns it. *)
Theorem C26_shared_connection_lives_with_last_copy : forall depth l, good depth c0 l ->
  exists w outs, run depth w0 l = Ok (w, outs) /\
    (forall v, vfind v (vars w) = own (after c0 l) v) /\
    (forall a, heap w a <> None <-> exists v, own (after c0 l) v = Some a) /\
    (forall a s, heap w a = Some s -> handles s = Zlen (filter (fun p => snd p =? a) (vars w))) /\
    (forall a n, inP (topics w) a n \/ inS (topics w) a n -> exists v, own (after c0 l) v = Some a).
Proof.
  intros depth l HG. destruct (run_ok depth l w0 c0 Rel0 HG) as (w & outs & H1 & HR & _). exists w, outs. split; [exact H1|].
  split; [apply HR|]. split; [apply HR|]. split; [apply HR|]. intros a n F. apply (r_live _ _ HR). apply (i_live _ (r_inv _ _ HR) a n). exact F.
Qed.
Print Assumptions C26_shared_connection_lives_with_last_copy.
(** C92: assignment between different slots does not count: the connection is freed while still owned ... *)
Theorem C92_assignment_frees_early_refuted :
  (exists r, run 1 w0 [ONew 1 100 (Call 1); ONew 2 200 (Call 2); OAssign 1 2; ODestroy 2] = Ok r /\ vfind 1 (vars (fst r)) = Some 100 /\ heap (fst r) 100 = None) /\
  run 1 w0 [ONew 1 100 (Call 1); ONew 2 200 (Call 2); OAssign 1 2; ODestroy 2; ODestroy 1] = UB.
Proof. split; [eexists; split; [vm_compute; reflexivity|split; reflexivity]|vm_compute; reflexivity]. Qed.
Print Assumptions C92_assignment_frees_early_refuted.
(** C92: ... and the slot assigned to keeps being invoked forever, owned by nobody. *)
Theorem C92_assignment_leaks_refuted : exists r, run 1 w0 [ONew 1 100 (Call 1); ONew 2 200 (Call 2); OSlot 2 [65]; OAssign 1 2; ONew 3 300 Relay; OSignal 3 [65]; OEmit 3 5] = Ok r /\
  snd r = [[([([65], 200)], 5)]] /\ (forall v, vfind v (vars (fst r)) <> Some 200).
Proof. eexists. split; [vm_compute; reflexivity|]. split; [reflexivity|]. intros v. cbn. repeat destruct (v =? _); discriminate. Qed.
Print Assumptions C92_assignment_leaks_refuted.

(** C93: a signal that passes on to itself (or a circle of signals) never stops: no stack is large enough. *)
Lemma circle_emit : forall depth w path, topics w = [([65], mkTopic 0 [100] [100])] ->
  (exists s, heap w 100 = Some s /\ skind s = Relay /\ pubs s = [([65], 0)]) -> emit depth w 100 5 path = UB.
Proof.
  induction depth as [|depth IH]; intros w path HT (s & E & K & P); [reflexivity|].
  cbn [emit]. unfold deref. rewrite E. cbn [bind]. rewrite P. cbn [each snd fst]. rewrite HT. cbn [tnode tid Z.eqb each tsub]. unfold process, deref. rewrite E. cbn [bind]. rewrite K.
  rewrite IH; [reflexivity|exact HT|]. eexists. split; [cbn [heap set_heap]; apply hput_eq|]. cbn. auto.
Qed.
Theorem C93_circular_signals_refuted : forall depth, exists w, run depth w0 [ONew 1 100 Relay; OSignal 1 [65]; OSlot 1 [65]] = Ok (w, []) /\ step depth w (OEmit 1 5) = UB.
Proof.
  intros depth. eexists. split; [vm_compute; reflexivity|]. cbn [step ptr vars]. cbn [bind vfind Z.eqb]. change (ptr _ 1) with (@Ok Z 100). cbn [bind]. rewrite circle_emit; [reflexivity|reflexivity|].
  eexists. split; [reflexivity|]. split; reflexivity.
Qed.
Print Assumptions C93_circular_signals_refuted.

(** C94: leaving one topic through the sigslot: it cannot be rejoined as a slot, and leaving everything afterwards is
    undefined. *)
Theorem C94_topic_disconnect_refuted : exists w1 w2, run 1 w0 [ONew 1 100 (Call 1); OSlot 1 [65]] = Ok (w1, []) /\
  disconnect_topic w1 100 [65] = Ok w2 /\ slot_connect w2 100 [65] = Ok w2 /\ topics w2 = [] /\ disconnect w2 100 = UB.
Proof. do 2 eexists. split; [vm_compute; reflexivity|]. split; [vm_compute; reflexivity|]. repeat split; reflexivity. Qed.
Print Assumptions C94_topic_disconnect_refuted.
(** What leaving one topic does to the sigslot's own lists: it stops sending to that topic and to no other, and what it listens to stays listed. *)
Theorem C94_topic_disconnect : forall w a n w' s, heap w a = Some s -> disconnect_topic w a n = Ok w' ->
  exists s', heap w' a = Some s' /\ subs s' = subs s /\ skind s' = skind s /\ handles s' = handles s /\
    (forall m i, In (m, i) (pubs s') <-> In (m, i) (pubs s) /\ m <> n) /\ (forall b, b <> a -> heap w' b = heap w b).
Proof.
  intros w a n w' s E. unfold disconnect_topic, deref. rewrite E. cbn [bind]. unfold man_disc. cbn [topics set_heap]. destruct (tfind n (topics w)) as [t|]; [|discriminate].
  intros [= <-]. eexists. split; [cbn [heap set_topics set_heap]; apply hput_eq|]. cbn [subs skind handles pubs set_pubs]. repeat (split; [reflexivity|]). split.
  - intros m i. rewrite filter_In. cbn [fst]. rewrite negb_true_iff. split; intros (A & B); (split; [exact A|]).
    + intros ->. rewrite str_eqb_refl in B. discriminate.
    + apply not_true_is_false. intros Q. apply str_eqb_iff in Q. congruence.
  - intros b B. cbn [heap set_topics set_heap]. apply hput_ne. exact B.
Qed.
Print Assumptions C94_topic_disconnect.
(** Topics are kept apart by name: of two names exactly one comes first, unless they are equal. *)
Theorem C24_names_are_ordered : forall a b, (str_lt a b = true /\ a <> b /\ str_lt b a = false) \/ (str_lt b a = true /\ a <> b /\ str_lt a b = false)
  \/ (a = b /\ str_lt a b = false).
Proof.
  induction a as [|x a IH]; destruct b as [|y b]; cbn; auto.
  - left. repeat split. discriminate.
  - right; left. repeat split. discriminate.
  - destruct (Z.ltb_spec x y), (Z.ltb_spec y x), (Z.eqb_spec x y), (Z.eqb_spec y x); try lia; cbn.
    + left. repeat split. congruence.
    + right; left. repeat split. congruence.
    + subst y. destruct (IH b) as [(A & B & C)|[(A & B & C)|(-> & C)]]; [left|right; left|right; right]; repeat split; congruence.
Qed.
Print Assumptions C24_names_are_ordered.

(** The same topics, connections and kinds; only the counters of calls in progress may differ. *)
Definition wsim (w w' : world) : Prop := topics w' = topics w /\ forall x,
  match heap w x, heap w' x with
  | Some s, Some s' => skind s' = skind s /\ pubs s' = pubs s
  | None, None => True
  | _, _ => False
  end.
Lemma wsim_refl w : wsim w w.
Proof. split; [reflexivity|]. intros x. destruct (heap w x); auto. Qed.
Lemma wsim_trans a b c : wsim a b -> wsim b c -> wsim a c.
Proof.
  intros [A1 A2] [B1 B2]. split; [congruence|]. intros x. specialize (A2 x). specialize (B2 x).
  destruct (heap a x), (heap b x), (heap c x); try tauto. destruct A2, B2. split; congruence.
Qed.
Definition keeps {A} (f : world -> A -> res (world * list call)) : Prop :=
  forall w x, f w x = UB \/ exists w' e, f w x = Ok (w', e) /\ wsim w w'.
Lemma each_keeps {A} (f : world -> A -> res (world * list call)) : keeps f -> keeps (each f).
Proof.
  intros H w l. revert w. induction l as [|x l IH]; intros w; cbn [each]; [right; do 2 eexists; split; [reflexivity|apply wsim_refl]|].
  destruct (H w x) as [E|(w1 & e & E & S)]; rewrite E; cbn [bind fst snd]; [auto|].
  destruct (IH w1) as [E2|(w2 & e2 & E2 & S2)]; rewrite E2; cbn [bind fst snd]; [auto|].
  right. do 2 eexists. split; [reflexivity|]. exact (wsim_trans _ _ _ S S2).
Qed.
Lemma wsim_lock w a s c b : heap w a = Some s -> wsim w (set_heap w a (Some (set_lock s c b))).
Proof.
  intros E. split; [reflexivity|]. intros x. cbn [heap set_heap]. destruct (Z.eq_dec x a) as [->|N]; [rewrite hput_eq, E; auto|].
  rewrite hput_ne by exact N. destruct (heap w x); auto.
Qed.
Lemma process_keeps em d path : (forall w a p, em w a d p = UB \/ exists w' e, em w a d p = Ok (w', e) /\ wsim w w') ->
  forall w x, process em w x d path = UB \/ exists w' e, process em w x d path = Ok (w', e) /\ wsim w w'.
Proof.
  intros H w x. unfold process, deref. destruct (heap w x) as [s|] eqn:E; cbn [bind]; [|auto].
  pose proof (wsim_lock w x s (cnt s + 1) true E) as S1. set (w1 := set_heap w x (Some (set_lock s (cnt s + 1) true))) in *.
  assert (R : (match skind s with Call _ => Ok (w1, [(path, d)]) | Relay => em w1 x d path end) = UB \/
    exists w2 e, (match skind s with Call _ => Ok (w1, [(path, d)]) | Relay => em w1 x d path end) = Ok (w2, e) /\ wsim w1 w2).
  { destruct (skind s); [apply H|]. right. do 2 eexists. split; [reflexivity|apply wsim_refl]. }
  destruct R as [R|(w2 & e & R & S2)]; rewrite R; cbn [bind fst snd]; [auto|].
  destruct (heap w2 x) as [s2|] eqn:E2; cbn [bind]; [|auto]. right. do 2 eexists. split; [reflexivity|].
  apply (wsim_trans _ w1); [exact S1|]. apply (wsim_trans _ w2); [exact S2|]. apply wsim_lock. exact E2.
Qed.
Lemma emit_keeps d : forall depth w a path, emit depth w a d path = UB \/ exists w' e, emit depth w a d path = Ok (w', e) /\ wsim w w'.
Proof.
  induction depth as [|dep IH]; intros w a path; [left; reflexivity|]. cbn [emit]. unfold deref.
  destruct (heap w a) as [s|]; cbn [bind]; [|auto]. apply each_keeps. intros w1 p. destruct (tnode (snd p) (topics w1)) as [t|]; [|auto].
  apply each_keeps. intros w2 x. apply process_keeps. exact IH.
Qed.
Lemma each_UB {A} (f : world -> A -> res (world * list call)) w0 x : keeps f -> (forall w, wsim w0 w -> f w x = UB) ->
  forall l w, wsim w0 w -> In x l -> each f w l = UB.
Proof.
  intros HK HU. induction l as [|y l IH]; intros w S F; [destruct F|]; destruct F as [F|F]; cbn [each].
  - subst y. rewrite (HU w S). reflexivity.
  - destruct (HK w y) as [E|(w1 & e & E & S1)]; rewrite E; cbn [bind fst snd]; [reflexivity|].
    rewrite (IH w1 (wsim_trans _ _ _ S S1) F). reflexivity.
Qed.
(** Every member of [X] is a signal that passes on to a member of [X]. *)
Definition circ (X : Z -> Prop) (w : world) : Prop := forall a, X a -> exists s n i t x sx,
  heap w a = Some s /\ In (n, i) (pubs s) /\ tnode i (topics w) = Some t /\ In x (tsub t) /\ heap w x = Some sx /\ skind sx = Relay /\ X x.
Lemma circ_sim X w w' : wsim w w' -> circ X w -> circ X w'.
Proof.
  intros [T H] C a Ha. destruct (C a Ha) as (s & n & i & t & x & sx & E1 & E2 & E3 & E4 & E5 & E6 & E7).
  pose proof (H a) as H1. rewrite E1 in H1. destruct (heap w' a) as [s'|] eqn:G1; [|tauto]. destruct H1 as [_ H1].
  pose proof (H x) as H2. rewrite E5 in H2. destruct (heap w' x) as [sx'|] eqn:G2; [|tauto]. destruct H2 as [H2 _].
  exists s', n, i, t, x, sx'. rewrite T, H1, H2. auto 9.
Qed.
Lemma circ_emit X d : forall depth w a path, circ X w -> X a -> emit depth w a d path = UB.
Proof.
  induction depth as [|dep IH]; intros w a path C Ha; [reflexivity|].
  destruct (C a Ha) as (s & n & i & t & x & sx & E1 & E2 & E3 & E4 & E5 & E6 & E7). cbn [emit]. unfold deref. rewrite E1. cbn [bind].
  apply (each_UB _ w (n, i)); [| |apply wsim_refl|exact E2].
  - intros w1 p. destruct (tnode (snd p) (topics w1)) as [t1|]; [|auto]. apply each_keeps. intros w2 y. apply process_keeps. apply emit_keeps.
  - intros w1 S1. cbn [snd fst]. pose proof S1 as [T1 _]. rewrite T1, E3. apply (each_UB _ w x); [| |exact S1|exact E4].
    + intros w2 y. apply process_keeps. apply emit_keeps.
    + intros w2 S2. pose proof (proj2 S2 x) as H2. rewrite E5 in H2. unfold process, deref. destruct (heap w2 x) as [s2|] eqn:F2; [|tauto]. cbn [bind].
      destruct H2 as [H2 _]. rewrite H2, E6. rewrite IH; [reflexivity| |exact E7].
      apply (circ_sim X w2); [apply wsim_lock; exact F2|]. exact (circ_sim X w w2 S2 C).
Qed.
(** C93: after any legal history, an emission that can be passed on for ever overflows every stack. *)
Theorem C93_any_circle_refuted : forall depth l v a (X : Z -> Prop), good depth c0 l -> own (after c0 l) v = Some a -> X a ->
  (forall s, X s -> exists t x, cP (after c0 l) s t /\ cS (after c0 l) x t /\ ckind (after c0 l) x = Relay /\ X x) ->
  exists w outs, run depth w0 l = Ok (w, outs) /\ forall stack d, step stack w (OEmit v d) = UB.
Proof.
  intros depth l v a X HG HO HX HC. destruct (run_ok depth l w0 c0 Rel0 HG) as (w & outs & H1 & HR & _). exists w, outs. split; [exact H1|].
  intros stack d. destruct (Rel_ptr _ _ _ _ HR HO) as (E & s & HA). cbn [step]. rewrite E. cbn [bind]. rewrite (circ_emit X d stack w a []); [reflexivity| |exact HX].
  intros b Hb. destruct (HC b Hb) as (t & x & P1 & P2 & P3 & P4). apply (r_P _ _ HR) in P1. apply (r_S _ _ HR) in P2. pose proof (r_inv _ _ HR) as HI.
  assert (LB : heap w b <> None) by (apply (i_live _ HI b t); auto). assert (LX : heap w x <> None) by (apply (i_live _ HI x t); auto).
  destruct (heap w b) as [sb|] eqn:EB; [|congruence]. destruct (heap w x) as [sx|] eqn:EX; [|congruence].
  destruct (i_ss _ HI _ _ EB) as (N1 & N2 & G1 & G2 & G3). apply G2, in_map_iff in P1. destruct P1 as ([n i] & <- & P1). cbn [fst] in *.
  destruct (G3 _ _ P1) as (q & Fq & Fi). destruct P2 as (q' & Fq' & P2). assert (q' = q) as -> by congruence.
  exists sb, n, i, q, x, sx. split; [reflexivity|]. split; [exact P1|]. split; [rewrite <- Fi; exact (tfind_node _ _ _ _ (i_ok _ HI) Fq)|].
  split; [exact P2|]. split; [exact EX|]. split; [rewrite (r_kind _ _ HR _ _ EX); exact P3|exact P4].
Qed.
Print Assumptions C93_any_circle_refuted.
(** C93 (partial): with an order on the signals an emission returns if the stack holds as many calls as the order has
    steps below the signal. *)
Theorem C93_ordered_partial : forall depth l v a rk d, good depth c0 l -> own (after c0 l) v = Some a -> ckind (after c0 l) a = Relay ->
  ranked (after c0 l) rk ->
  exists w outs, run depth w0 l = Ok (w, outs) /\ forall stack, (rk a < stack)%nat ->
    exists w' evs, step stack w (OEmit v d) = Ok (w', [evs]) /\ reaches (after c0 l) a d evs.
Proof.
  intros depth l v a rk d HG HO HK HRk. destruct (run_ok depth l w0 c0 Rel0 HG) as (w & outs & H1 & HR & _). exists w, outs. split; [exact H1|].
  intros stack Hs. destruct (run_ok stack [OEmit v d] w (after c0 l) HR) as (w' & o & E & _ & O).
  { cbn [good legal]. split; [|exact I]. exists a, rk. auto. }
  cbn [outputs] in O. destruct O as (a' & evs & o' & Q1 & -> & Q2 & ->). assert (a' = a) as -> by congruence.
  exists w', evs. split; [|exact Q2]. cbn [run] in E. destruct (step stack w (OEmit v d)) as [[w1 e1]| |]; cbn [bind fst snd] in E; try discriminate.
  injection E as E1 E2. rewrite app_nil_r in E2. congruence.
Qed.
Print Assumptions C93_ordered_partial.
Example C93_case : exists rk, ranked (after c0 [ONew 1 100 Relay; OSignal 1 [65]; ONew 2 90 (Call 2); OSlot 2 [65]; ONew 4 80 Relay; OSlot 4 [65]; OSignal 4 [67]]) rk /\
  rk 100 = 1%nat.
Proof.
  exists (fun x => if x =? 100 then 1%nat else 0%nat). split; [|reflexivity]. intros s t x. cbn. intros HP HS _.
  repeat match goal with H : _ \/ _ |- _ => destruct H | H : _ /\ _ |- _ => destruct H | H : Some _ = Some _ |- _ => injection H as <- end; subst; try tauto; try discriminate; cbn; lia.
Qed.
(** C92 (partial): assigning between copies of one connection changes nothing. *)
Theorem C92_between_copies_partial : forall depth l v u, good depth c0 l -> own (after c0 l) v <> None ->
  own (after c0 l) u = own (after c0 l) v ->
  exists w outs, run depth w0 l = Ok (w, outs) /\ step depth w (OAssign v u) = Ok (w, []).
Proof.
  intros depth l v u HG HO HE. destruct (run_ok depth l w0 c0 Rel0 HG) as (w & outs & H1 & HR & _). exists w, outs. split; [exact H1|].
  destruct (own (after c0 l) v) as [a|] eqn:EV; [|congruence].
  cbn [step]. unfold obj_assign, ptr. rewrite !(r_own _ _ HR), EV, HE. cbn [bind]. f_equal. f_equal.
  assert (L : map (fun p : Z * Z => if fst p =? u then (u, a) else p) (vars w) = vars w).
  { assert (HU : vfind u (vars w) = Some a) by (rewrite (r_own _ _ HR); exact HE). pose proof (r_dup _ _ HR) as HD. revert HU HD.
    induction (vars w) as [|[x y] r IH]; intros HU HD; [reflexivity|]. cbn [map fst vfind] in *. inversion HD; subst. destruct (u =? x) eqn:F.
    - apply Z.eqb_eq in F. subst x. injection HU as ->. rewrite Z.eqb_refl. f_equal. rewrite <- (map_id r) at 2. apply map_ext_in. intros [x y] G. cbn [fst].
      destruct (x =? u) eqn:K; [|reflexivity]. apply Z.eqb_eq in K. subst x. exfalso. apply H2. apply (in_map fst) in G. exact G.
    - replace (x =? u) with false by lia. f_equal. auto. }
  rewrite L. destruct w; reflexivity.
Qed.
Print Assumptions C92_between_copies_partial.
(** C92: assigning between different connections never adjusts the counts of owners: after any legal history the connection
    that is shared afterwards counts one owner too few, the one given up one too many. *)
Theorem C92_counts_refuted : forall depth l v u a b, good depth c0 l -> own (after c0 l) v = Some a -> own (after c0 l) u = Some b -> a <> b ->
  exists w outs w', run depth w0 l = Ok (w, outs) /\ step depth w (OAssign v u) = Ok (w', []) /\
    (forall x, vfind x (vars w') = if x =? u then Some a else own (after c0 l) x) /\
    (exists s, heap w' a = Some s /\ handles s = Zlen (filter (fun p => snd p =? a) (vars w')) - 1) /\
    (exists s, heap w' b = Some s /\ handles s = Zlen (filter (fun p => snd p =? b) (vars w')) + 1).
Proof.
  intros depth l v u a b HG HV HU Hab. destruct (run_ok depth l w0 c0 Rel0 HG) as (w & outs & H1 & HR & _). 
  assert (VU : vfind u (vars w) = Some b) by (rewrite (r_own _ _ HR); exact HU).
  assert (VV : vfind v (vars w) = Some a) by (rewrite (r_own _ _ HR); exact HV).
  set (vs := map (fun p : Z * Z => if fst p =? u then (u, a) else p) (vars w)).
  exists w, outs, (set_vars w vs). split; [exact H1|].
  split; [cbn [step]; unfold obj_assign, ptr; rewrite VV, VU; reflexivity|].
  assert (K : (forall x, vfind x vs = if x =? u then Some a else vfind x (vars w)) /\ cntv a vs = cntv a (vars w) + 1 /\ cntv b vs = cntv b (vars w) - 1).
  { unfold vs. pose proof (r_dup _ _ HR) as HD. revert HD VU. clear - Hab. induction (vars w) as [|[x y] r IH]; intros HD VU; [discriminate|].
    cbn [map fst] in *. inversion HD; subst. cbn [vfind] in VU. rewrite !(cntv_cons _ _ y). destruct (u =? x) eqn:F.
    - apply Z.eqb_eq in F. subst x. injection VU as ->. rewrite Z.eqb_refl.
      assert (L : map (fun p : Z * Z => if fst p =? u then (u, a) else p) r = r).
      { rewrite <- (map_id r) at 2. apply map_ext_in. intros [x y] G. cbn [fst].
        destruct (x =? u) eqn:E; [|reflexivity]. apply Z.eqb_eq in E. subst x. exfalso. apply H1. apply (in_map fst) in G. exact G. }
      rewrite L, !cntv_cons. cbn [vfind]. replace (a =? a) with true by lia. replace (b =? b) with true by lia.
      replace (a =? b) with false by lia. replace (b =? a) with false by lia. split; [|lia]. intros x. destruct (x =? u); reflexivity.
    - replace (x =? u) with false by lia. destruct (IH H2 VU) as (K1 & K2 & K3). rewrite !cntv_cons, K2, K3. split; [|lia].
      intros z. cbn [vfind]. rewrite K1. destruct (z =? x) eqn:G; [|reflexivity]. replace (z =? u) with false by lia. reflexivity. }
  destruct K as (K1 & K2 & K3). cbn [vars heap set_vars]. split; [intros x; rewrite K1, (r_own _ _ HR); reflexivity|].
  assert (A : heap w a <> None) by (apply (r_live _ _ HR); eauto). assert (B : heap w b <> None) by (apply (r_live _ _ HR); eauto).
  fold (cntv a vs) (cntv b vs).
  destruct (heap w a) as [sa|] eqn:EA; [|congruence]. destruct (heap w b) as [sb|] eqn:EB; [|congruence].
  split; eexists; (split; [reflexivity|]); [rewrite (r_hand _ _ HR _ _ EA)|rewrite (r_hand _ _ HR _ _ EB)]; lia.
Qed.
Print Assumptions C92_counts_refuted.

Lemma man_discs_gone l : forall w n a, In n l -> tfind n (topics w) = None -> man_discs w l a = UB.
Proof.
  induction l as [|m l IH]; intros w n a I E; [destruct I|]. cbn [man_discs]. unfold man_disc at 1. destruct (tfind m (topics w)) as [t|] eqn:F; [|reflexivity]. cbn [bind].
  destruct I as [->|I]; [congruence|]. apply (IH _ n); [exact I|]. cbn [topics set_topics].
  assert (N : str_eqb n m = false) by (apply str_eqb_neq; intros ->; congruence).
  destruct (zdel a (tpub t)), (zdel a (tsub t)); cbn [tpub tsub]; rewrite ?tdel_find, ?tput_find, N; exact E.
Qed.
(** C94, for every world: a slot that leaves a topic cannot come back to it (connecting again changes nothing), is not among those the topic serves, and
    if it was alone there, leaving everything is undefined. *)
Theorem C94_slot_refuted_for_all : forall w a n w' s t, heap w a = Some s -> In n (subs s) -> tfind n (topics w) = Some t -> 
  disconnect_topic w a n = Ok w' ->
  slot_connect w' a n = Ok w' /\ (forall t', tfind n (topics w') = Some t' -> ~ In a (tsub t')) /\
  ((forall b, In b (tpub t) \/ In b (tsub t) -> b = a) -> tfind n (topics w') = None /\ disconnect w' a = UB).
Proof.
  intros w a n w' s t H I T D. unfold disconnect_topic, deref in D. rewrite H in D. cbn [bind] in D. unfold man_disc in D. cbn [topics set_heap] in D. rewrite T in D. injection D as <-.
  set (w' := set_topics _ _ _). assert (HA : exists p, heap w' a = Some (set_pubs s p)) by (eexists; cbn [heap w' set_topics set_heap]; apply hput_eq). destruct HA as (p & HA).
  split; [|split].
  - unfold slot_connect, deref. rewrite HA. cbn [bind subs set_pubs]. replace (smem n (subs s)) with true by (symmetry; apply smem_iff; exact I). reflexivity.
  - intros t' E F. cbn [topics w' set_topics] in E.
    destruct (zdel a (tpub t)) eqn:Z1, (zdel a (tsub t)) eqn:Z2; cbn [tpub tsub] in E; rewrite ?tdel_find, ?tput_find, str_eqb_refl, ?T in E; try discriminate; injection E as <-; cbn [tsub] in F; try destruct F;
      try (rewrite <- Z2 in F; apply In_zdel in F; tauto); try (subst; assert (X : In a (zdel a (tsub t))) by (rewrite Z2; now left); apply In_zdel in X; tauto); 
      assert (X : In a (zdel a (tsub t))) by (rewrite Z2; right; assumption); apply In_zdel in X; tauto.
  - intros A. assert (Z1 : zdel a (tpub t) = []) by (destruct (zdel a (tpub t)) as [|b l] eqn:E; [reflexivity|]; assert (X : In b (zdel a (tpub t))) by (rewrite E; now left); apply In_zdel in X as [X N]; elim N; auto).
    assert (Z2 : zdel a (tsub t) = []) by (destruct (zdel a (tsub t)) as [|b l] eqn:E; [reflexivity|]; assert (X : In b (zdel a (tsub t))) by (rewrite E; now left); apply In_zdel in X as [X N]; elim N; auto).
    assert (G : tfind n (topics w') = None) by (cbn [topics w' set_topics]; rewrite Z1, Z2; cbn [tpub tsub]; rewrite tdel_find, str_eqb_refl; reflexivity).
    split; [exact G|]. unfold disconnect, deref. rewrite HA. cbn [bind subs set_pubs]. rewrite (man_discs_gone _ _ n) by assumption. reflexivity.
Qed.
Print Assumptions C94_slot_refuted_for_all.

(** Cases meeting the hypotheses of C25, C26, C91 and C92. *)
Definition small : list op := [ONew 1 100 Relay; OSignal 1 [65]; ONew 2 90 (Call 2); OSlot 2 [65]; OCopy 2 3].
Example C25_case : good 3 c0 small /\ own (after c0 small) 2 = Some 90 /\ own (after c0 small) 3 = Some 90 /\ ckind (after c0 small) 90 <> Relay /\
  own (after c0 small) 1 = Some 100 /\ (forall n, ~ lonely (cP (after c0 small)) (cS (after c0 small)) 100 n).
Proof.
  split.
  - cbn [good small legal]. repeat match goal with |- _ /\ _ => split end; cbn; try congruence; try (intros u F; repeat destruct (_ =? _); congruence); eauto.
  - split; [reflexivity|]. split; [reflexivity|]. split; [discriminate|]. split; [reflexivity|]. intros n (_ & B & _). cbn in B. intuition congruence.
Qed.
Definition self : list op := [ONew 1 100 Relay; OSignal 1 [65]; OSlot 1 [65]].
Example C91_case : good 3 c0 self /\ own (after c0 self) 1 = Some 100 /\ lonely (cP (after c0 self)) (cS (after c0 self)) 100 [65].
Proof.
  split; [|split; [reflexivity|]].
  - cbn [good self legal]. repeat match goal with |- _ /\ _ => split end; cbn; try congruence; try (intros u F; repeat destruct (_ =? _); congruence); eauto.
  - split; [cbn; auto|]. split; [cbn; auto|]. intros b. cbn. intuition congruence.
Qed.
Example C92_case : own (after c0 small) 3 <> None /\ own (after c0 small) 2 = own (after c0 small) 3.
Proof. split; [discriminate|reflexivity]. Qed.
Example C94_case : exists w outs s t w', run 3 w0 small = Ok (w, outs) /\ heap w 90 = Some s /\ In [65] (subs s) /\ tfind [65] (topics w) = Some t /\ disconnect_topic w 90 [65] = Ok w'.
Proof. eexists _, _, _, _, _. repeat split; try reflexivity. cbn. auto. Qed.
