(** Proofs about sigslots. *)
From Verif Require Import Base SigModel.
Open Scope Z_scope.

(** * Sets and maps *)
Lemma str_eqb_iff a b : str_eqb a b = true <-> a = b.
Proof. unfold str_eqb. destruct (list_eq_dec Z.eq_dec a b); split; congruence. Qed.
Lemma str_eqb_refl a : str_eqb a a = true.
Proof. apply str_eqb_iff. reflexivity. Qed.
Lemma str_eqb_neq a b : a <> b -> str_eqb a b = false.
Proof. intros H. destruct (str_eqb a b) eqn:E; [|reflexivity]. apply str_eqb_iff in E. congruence. Qed.
Lemma In_ins {A} (lt : A -> A -> bool) x l y : In y (ins lt x l) <-> y = x \/ In y l.
Proof.
  induction l as [|z l IH]; cbn [ins In]; [intuition congruence|].
  destruct (lt x z); cbn [In]; [intuition congruence|]. rewrite IH. tauto.
Qed.
Lemma NoDup_ins {A} (lt : A -> A -> bool) x l : ~ In x l -> NoDup l -> NoDup (ins lt x l).
Proof.
  induction l as [|z l IH]; intros Hx Hn; cbn [ins]; [constructor; auto|].
  destruct (lt x z); [constructor; auto|]. inversion Hn; subst. constructor; [|apply IH; auto; intros F; apply Hx; right; exact F].
  rewrite In_ins. intros [->|F]; [apply Hx; left; reflexivity|contradiction].
Qed.
Lemma NoDup_map_ins {A B} (f : A -> B) (lt : A -> A -> bool) x l : ~ In (f x) (map f l) -> NoDup (map f l) -> NoDup (map f (ins lt x l)).
Proof.
  induction l as [|z l IH]; intros Hx Hn; cbn [ins map] in *; [constructor; auto|].
  destruct (lt x z); cbn [map]; [constructor; auto|]. inversion Hn; subst. constructor; [|apply IH; auto; intros F; apply Hx; right; exact F].
  rewrite in_map_iff. intros (w & Hw & F). apply In_ins in F. destruct F as [->|F]; [apply Hx; left; auto|].
  apply H1. rewrite <- Hw. apply in_map. exact F.
Qed.
Lemma mem_iff x l : mem x l = true <-> In x l.
Proof. unfold mem. rewrite existsb_exists. split; [intros (y & H & E); apply Z.eqb_eq in E; subst; auto|intros H; exists x; split; auto; apply Z.eqb_refl]. Qed.
Lemma smem_iff x l : smem x l = true <-> In x l.
Proof. unfold smem. rewrite existsb_exists. split; [intros (y & H & E); apply str_eqb_iff in E; subst; auto|intros H; exists x; split; auto; apply str_eqb_refl]. Qed.
Lemma In_zadd x l y : In y (zadd x l) <-> y = x \/ In y l.
Proof.
  unfold zadd. destruct (mem x l) eqn:E; [|apply In_ins]. apply mem_iff in E. split; [auto|]. intros [->|H]; auto.
Qed.
Lemma NoDup_zadd x l : NoDup l -> NoDup (zadd x l).
Proof. intros H. unfold zadd. destruct (mem x l) eqn:E; [exact H|]. apply NoDup_ins; auto. intros F. apply mem_iff in F. congruence. Qed.
Lemma In_zdel x l y : In y (zdel x l) <-> In y l /\ y <> x.
Proof. unfold zdel. rewrite filter_In. destruct (y =? x) eqn:E; cbn; split; intros [H1 H2]; try discriminate; try (split; auto; lia). Qed.
Lemma NoDup_zdel x l : NoDup l -> NoDup (zdel x l).
Proof. apply NoDup_filter. Qed.

(** * The topic map *)
Definition inP (T : list (str * topic)) (a : Z) (n : str) : Prop := exists t, tfind n T = Some t /\ In a (tpub t).
Definition inS (T : list (str * topic)) (a : Z) (n : str) : Prop := exists t, tfind n T = Some t /\ In a (tsub t).
Definition okTopic (t : topic) : Prop := NoDup (tpub t) /\ NoDup (tsub t) /\ (tpub t <> [] \/ tsub t <> []).
Record okT (T : list (str * topic)) (nx : Z) : Prop := mkOkT {
  ok_names : NoDup (map fst T);
  ok_ids : NoDup (map (fun p => tid (snd p)) T);
  ok_next : Forall (fun p => tid (snd p) < nx) T;
  ok_each : Forall (fun p => okTopic (snd p)) T }.

Lemma tfind_In n T t : tfind n T = Some t -> In (n, t) T.
Proof.
  induction T as [|[m u] T IH]; cbn [tfind]; [discriminate|]. destruct (str_eqb n m) eqn:E; intros H.
  - injection H as ->. apply str_eqb_iff in E. subst. left. reflexivity.
  - right. auto.
Qed.
Lemma tfind_None n T : tfind n T = None <-> ~ In n (map fst T).
Proof.
  induction T as [|[m u] T IH]; cbn [tfind map In]; [tauto|]. destruct (str_eqb n m) eqn:E.
  - apply str_eqb_iff in E. subst. split; [discriminate|]. intros F. exfalso. apply F. left. reflexivity.
  - cbn [fst]. rewrite IH. split; [|tauto]. intros F [G|G]; [subst; rewrite str_eqb_refl in E; discriminate|tauto].
Qed.
Lemma In_tfind n T t : NoDup (map fst T) -> In (n, t) T -> tfind n T = Some t.
Proof.
  induction T as [|[m u] T IH]; intros Hn H; [destruct H|]. cbn [map tfind] in *. inversion Hn; subst. destruct H as [H|H].
  - injection H as -> ->. rewrite str_eqb_refl. reflexivity.
  - rewrite str_eqb_neq; [apply IH; auto|]. intros ->. apply H2. apply (in_map fst) in H. exact H.
Qed.
Lemma tnode_In T t n : NoDup (map (fun p => tid (snd p)) T) -> In (n, t) T -> tnode (tid t) T = Some t.
Proof.
  induction T as [|[m u] T IH]; intros Hn H; [destruct H|]. cbn [map tnode snd] in *. inversion Hn; subst. destruct H as [H|H].
  - injection H as -> ->. rewrite Z.eqb_refl. reflexivity.
  - destruct (tid u =? tid t) eqn:E; [|apply IH; auto]. exfalso. apply Z.eqb_eq in E. apply H2. rewrite E. apply (in_map (fun p => tid (snd p))) in H. exact H.
Qed.
Lemma tfind_node T nx n t : okT T nx -> tfind n T = Some t -> tnode (tid t) T = Some t.
Proof. intros H E. eapply tnode_In; [apply H|apply tfind_In; exact E]. Qed.
Lemma tfind_ok T nx n t : okT T nx -> tfind n T = Some t -> okTopic t /\ tid t < nx.
Proof.
  intros H E. apply tfind_In in E. split; [pose proof (ok_each _ _ H) as F|pose proof (ok_next _ _ H) as F];
    rewrite Forall_forall in F; apply (F _ E).
Qed.

Lemma tput_fst n t T : map fst (tput n t T) = map fst T.
Proof. induction T as [|[m u] T IH]; [reflexivity|]. cbn [tput]. destruct (str_eqb n m); cbn [map fst]; [reflexivity|]. rewrite IH. reflexivity. Qed.
Lemma tput_ids n t T u : tfind n T = Some u -> tid t = tid u -> map (fun p => tid (snd p)) (tput n t T) = map (fun p => tid (snd p)) T.
Proof.
  induction T as [|[m v] T IH]; [reflexivity|]. cbn [tput tfind]. destruct (str_eqb n m); intros H E; cbn [map snd].
  - injection H as ->. rewrite E. reflexivity.
  - rewrite IH; auto.
Qed.
Lemma tput_find n t T m : tfind m (tput n t T) = if str_eqb m n then (match tfind n T with Some _ => Some t | None => None end) else tfind m T.
Proof.
  induction T as [|[k u] T IH]; cbn [tput tfind]; [destruct (str_eqb m n); reflexivity|].
  destruct (str_eqb n k) eqn:E; cbn [tfind].
  - apply str_eqb_iff in E. subst k. destruct (str_eqb m n); reflexivity.
  - destruct (str_eqb m k) eqn:F.
    + apply str_eqb_iff in F. subst k. rewrite (str_eqb_neq m n); [reflexivity|]. intros ->. rewrite str_eqb_refl in E. discriminate.
    + exact IH.
Qed.
Lemma tput_Forall (P : str * topic -> Prop) n t T : (forall m, P (m, t)) -> Forall P T -> Forall P (tput n t T).
Proof.
  intros H HF. induction T as [|[m u] T IH]; [constructor|]. inversion HF; subst. cbn [tput]. destruct (str_eqb n m); constructor; auto.
Qed.
Lemma tput_ok T nx n t u : okT T nx -> tfind n T = Some u -> tid t = tid u -> okTopic t -> okT (tput n t T) nx.
Proof.
  intros H E Hi Ht. destruct (tfind_ok _ _ _ _ H E) as [_ HL]. constructor.
  - rewrite tput_fst. apply H.
  - erewrite tput_ids; [apply H|exact E|exact Hi].
  - apply tput_Forall; [intros m; cbn; lia|apply H].
  - apply tput_Forall; [intros m; exact Ht|apply H].
Qed.
Lemma tdel_find n T m : tfind m (tdel n T) = if str_eqb m n then None else tfind m T.
Proof.
  induction T as [|[k u] T IH]; cbn [tdel filter tfind fst]; [destruct (str_eqb m n); reflexivity|].
  destruct (str_eqb n k) eqn:E; cbn [negb].
  - apply str_eqb_iff in E. subst k. change (filter (fun p => negb (str_eqb n (fst p))) T) with (tdel n T). rewrite IH. destruct (str_eqb m n); reflexivity.
  - cbn [tfind]. change (filter (fun p => negb (str_eqb n (fst p))) T) with (tdel n T). rewrite IH. destruct (str_eqb m k) eqn:F; [|reflexivity].
    apply str_eqb_iff in F. subst k. rewrite (str_eqb_neq m n); [reflexivity|]. intros ->. rewrite str_eqb_refl in E. discriminate.
Qed.
Lemma NoDup_map_filter {A B} (f : A -> B) p l : NoDup (map f l) -> NoDup (map f (filter p l)).
Proof.
  induction l as [|x l IH]; intros H; [constructor|]. cbn [map filter] in *. inversion H; subst. destruct (p x); [|auto]. cbn [map]. constructor; auto.
  rewrite in_map_iff. intros (y & E & F). apply filter_In in F. destruct F as [F _]. apply H2. rewrite <- E. apply in_map. exact F.
Qed.
Lemma Forall_filter {A} (P : A -> Prop) p l : Forall P l -> Forall P (filter p l).
Proof. intros H. rewrite Forall_forall in *. intros x F. apply filter_In in F. apply H. tauto. Qed.
Lemma tdel_ok T nx n : okT T nx -> okT (tdel n T) nx.
Proof. intros H. constructor; [apply NoDup_map_filter|apply NoDup_map_filter|apply Forall_filter|apply Forall_filter]; apply H. Qed.

(** A topic exists exactly when it has a member. *)
Lemma topic_exists T nx n : okT T nx -> (tfind n T <> None <-> exists b, inP T b n \/ inS T b n).
Proof.
  intros H. split.
  - intros F. destruct (tfind n T) as [t|] eqn:E; [|congruence]. destruct (tfind_ok _ _ _ _ H E) as [(_ & _ & HN) _].
    destruct HN as [HN|HN].
    + destruct (tpub t) as [|b l] eqn:F2; [congruence|]. exists b. left. exists t. rewrite F2. cbn. auto.
    + destruct (tsub t) as [|b l] eqn:F2; [congruence|]. exists b. right. exists t. rewrite F2. cbn. auto.
  - intros (b & [(t & E & _)|(t & E & _)]); congruence.
Qed.

Record topics_rel (w w' : world) : Prop := { tr_heap : heap w' = heap w; tr_vars : vars w' = vars w }.
(** Nodes that stay keep their identity. *)
Definition ids_kept (T T' : list (str * topic)) : Prop := forall n t', tfind n T' = Some t' -> forall t, tfind n T = Some t -> tid t' = tid t.

Lemma man_disc_ok w n a : okT (topics w) (next w) -> (exists b, inP (topics w) b n \/ inS (topics w) b n) ->
  exists w', man_disc w n a = Ok w' /\ topics_rel w w' /\ okT (topics w') (next w') /\ ids_kept (topics w) (topics w') /\
    (forall b m, inP (topics w') b m <-> inP (topics w) b m /\ ~ (b = a /\ m = n)) /\
    (forall b m, inS (topics w') b m <-> inS (topics w) b m /\ ~ (b = a /\ m = n)).
Proof.
  intros HO HE. apply (topic_exists _ _ _ HO) in HE. unfold man_disc. destruct (tfind n (topics w)) as [t|] eqn:E; [|congruence]. clear HE.
  destruct (tfind_ok _ _ _ _ HO E) as [(N1 & N2 & _) _].
  set (t' := mkTopic (tid t) (zdel a (tpub t)) (zdel a (tsub t))).
  eexists. split; [reflexivity|]. split; [split; reflexivity|]. cbn [topics next set_topics].
  set (e := match tpub t' with [] => match tsub t' with [] => true | _ => false end | _ => false end).
  assert (HT : (match tpub t' with [] => match tsub t' with [] => tdel n (topics w) | _ => tput n t' (topics w) end | _ => tput n t' (topics w) end)
    = if e then tdel n (topics w) else tput n t' (topics w)) by (unfold e; destruct (tpub t'), (tsub t'); reflexivity).
  rewrite HT. clear HT.
  assert (HF : forall m, tfind m (if e then tdel n (topics w) else tput n t' (topics w)) = if str_eqb m n then (if e then None else Some t') else tfind m (topics w)).
  { intros m. destruct e; [apply tdel_find|]. rewrite tput_find, E. reflexivity. }
  split; [|split; [|split]].
  - destruct e eqn:Ee; [apply tdel_ok; exact HO|]. eapply tput_ok; [exact HO|exact E|reflexivity|]. split; [apply NoDup_zdel; exact N1|]. split; [apply NoDup_zdel; exact N2|].
    unfold e in Ee. destruct (tpub t'); [right; destruct (tsub t'); congruence|left; discriminate].
  - intros m u H1 v H2. rewrite HF in H1. destruct (str_eqb m n) eqn:F; [|congruence]. apply str_eqb_iff in F. subst m. destruct e; [discriminate|]. injection H1 as <-. cbn. congruence.
  - intros b m. unfold inP. rewrite HF. destruct (str_eqb m n) eqn:F.
    + apply str_eqb_iff in F. subst m. rewrite E. destruct e eqn:Ee.
      * split; [intros (u & F & _); discriminate|]. intros [(u & F & G) H2]. injection F as <-. exfalso.
        assert (In b (tpub t')) by (cbn; rewrite In_zdel; split; auto; intros ->; tauto). unfold e in Ee. destruct (tpub t'); [contradiction|discriminate].
      * split.
        -- intros (u & F & G). injection F as <-. cbn in G. rewrite In_zdel in G. split; [exists t; tauto|tauto].
        -- intros [(u & F & G) H2]. injection F as <-. exists t'. split; [reflexivity|]. cbn. rewrite In_zdel. split; [exact G|intros ->; tauto].
    + split; [intros H; split; [exact H|]|tauto]. intros [_ ->]. rewrite str_eqb_refl in F. discriminate.
  - intros b m. unfold inS. rewrite HF. destruct (str_eqb m n) eqn:F.
    + apply str_eqb_iff in F. subst m. rewrite E. destruct e eqn:Ee.
      * split; [intros (u & F & _); discriminate|]. intros [(u & F & G) H2]. injection F as <-. exfalso.
        assert (In b (tsub t')) by (cbn; rewrite In_zdel; split; auto; intros ->; tauto). unfold e in Ee. destruct (tpub t'); [|discriminate]. destruct (tsub t'); [contradiction|discriminate].
      * split.
        -- intros (u & F & G). injection F as <-. cbn in G. rewrite In_zdel in G. split; [exists t; tauto|tauto].
        -- intros [(u & F & G) H2]. injection F as <-. exists t'. split; [reflexivity|]. cbn. rewrite In_zdel. split; [exact G|intros ->; tauto].
    + split; [intros H; split; [exact H|]|tauto]. intros [_ ->]. rewrite str_eqb_refl in F. discriminate.
Qed.
Lemma ids_trans T1 T2 T3 : ids_kept T1 T2 -> ids_kept T2 T3 -> (forall n, tfind n T2 = None -> tfind n T3 = None) -> ids_kept T1 T3.
Proof.
  intros H1 H2 H3 n t3 E3 t1 E1. destruct (tfind n T2) as [t2|] eqn:E2; [|rewrite H3 in E3 by exact E2; discriminate].
  rewrite (H2 _ _ E3 _ E2). exact (H1 _ _ E2 _ E1).
Qed.

Lemma man_discs_ok a : forall l w, NoDup l -> okT (topics w) (next w) -> (forall n, In n l -> exists b, inP (topics w) b n \/ inS (topics w) b n) ->
  exists w', man_discs w l a = Ok w' /\ topics_rel w w' /\ okT (topics w') (next w') /\ ids_kept (topics w) (topics w') /\
    (forall b m, inP (topics w') b m <-> inP (topics w) b m /\ ~ (b = a /\ In m l)) /\
    (forall b m, inS (topics w') b m <-> inS (topics w) b m /\ ~ (b = a /\ In m l)).
Proof.
  induction l as [|n l IH]; intros w Hl HO HE.
  - exists w. cbn. split; [reflexivity|]. split; [split; reflexivity|]. split; [exact HO|]. split; [intros n t H t' H'; congruence|]. split; intros b m; tauto.
  - inversion Hl; subst. destruct (man_disc_ok w n a HO (HE n (or_introl eq_refl))) as (w1 & E1 & [R1 R2] & O1 & I1 & P1 & S1).
    destruct (IH w1) as (w2 & E2 & [R3 R4] & O2 & I2 & P2 & S2); [assumption|exact O1| |].
    + intros m Hm. destruct (HE m (or_intror Hm)) as (b & Hb). exists b. rewrite P1, S1. assert (m <> n) by congruence. tauto.
    + exists w2. cbn [man_discs]. rewrite E1. cbn [bind]. split; [exact E2|]. split; [split; congruence|]. split; [exact O2|]. split.
      * eapply ids_trans; eauto. intros k Hk. destruct (tfind k (topics w2)) eqn:F; [|reflexivity]. exfalso.
        assert (FE : exists b, inP (topics w2) b k \/ inS (topics w2) b k) by (apply (topic_exists _ _ _ O2); congruence).
        destruct FE as (b & Hb). rewrite P2, S2 in Hb. assert (G : tfind k (topics w1) <> None) by (apply (topic_exists _ _ _ O1); exists b; tauto). congruence.
      * split; intros b m; [rewrite P2, P1|rewrite S2, S1]; cbn [In]; split; intros H; intuition congruence.
Qed.
Lemma man_discs_UB a n : forall l w, okT (topics w) (next w) -> In n l -> (forall b, ~ inP (topics w) b n /\ ~ inS (topics w) b n) -> man_discs w l a = UB.
Proof.
  induction l as [|m l IH]; intros w HO Hn HE; [destruct Hn|]. cbn [man_discs].
  destruct (tfind m (topics w)) as [t|] eqn:E; [|unfold man_disc; rewrite E; reflexivity].
  assert (HM : exists b, inP (topics w) b m \/ inS (topics w) b m) by (apply (topic_exists _ _ _ HO); congruence).
  destruct (man_disc_ok w m a HO HM) as (w1 & E1 & _ & O1 & _ & P1 & S1). rewrite E1. cbn [bind]. destruct Hn as [->|Hn].
  - exfalso. destruct HM as (b & Hb). specialize (HE b). tauto.
  - apply IH; auto. intros b. rewrite P1, S1. specialize (HE b). tauto.
Qed.

(** * Connecting *)
Lemma tfind_ins n t T m lt : tfind n T = None -> tfind m (ins lt (n, t) T) = if str_eqb m n then Some t else tfind m T.
Proof.
  intros H. induction T as [|[k u] T IH]; cbn [ins tfind] in *; [reflexivity|].
  destruct (str_eqb n k) eqn:E; [discriminate|]. destruct (lt (n, t) (k, u)); cbn [tfind]; [reflexivity|].
  destruct (str_eqb m k) eqn:F; [|apply IH; exact H]. apply str_eqb_iff in F. subst k. rewrite str_eqb_neq; [reflexivity|].
  intros ->. rewrite str_eqb_refl in E. discriminate.
Qed.
Lemma In_tput n t T p : NoDup (map fst T) -> In p (tput n t T) -> p = (n, t) \/ (In p T /\ fst p <> n).
Proof.
  induction T as [|[k u] T IH]; intros Hn H; [destruct H|]. cbn [map fst tput] in *. inversion Hn; subst. destruct (str_eqb n k) eqn:E.
  - apply str_eqb_iff in E. subst k. destruct H as [<-|H]; [auto|]. right. split; [right; exact H|]. intros F. apply H2. rewrite <- F. apply in_map. exact H.
  - destruct H as [<-|H].
    + right. split; [left; reflexivity|]. cbn. intros ->. rewrite str_eqb_refl in E. discriminate.
    + destruct (IH H3 H) as [->|[H4 H5]]; [auto|]. right. split; [right; exact H4|exact H5].
Qed.
Lemma upsert_ok w n (f : topic -> topic) : okT (topics w) (next w) -> (forall t, tid (f t) = tid t) ->
  (forall t, NoDup (tpub t) -> NoDup (tsub t) -> okTopic (f t)) ->
  exists w1 t, topic_get w n = (w1, t) /\ heap w1 = heap w /\ vars w1 = vars w /\
    okT (tput n (f t) (topics w1)) (next w1) /\
    (forall m, tfind m (tput n (f t) (topics w1)) = if str_eqb m n then Some (f t) else tfind m (topics w)) /\
    (tfind n (topics w) = Some t \/ (tfind n (topics w) = None /\ tpub t = [] /\ tsub t = [])).
Proof.
  intros HO Hi Hf. unfold topic_get. destruct (tfind n (topics w)) as [t|] eqn:E.
  - exists w, t. split; [reflexivity|]. split; [reflexivity|]. split; [reflexivity|]. destruct (tfind_ok _ _ _ _ HO E) as [(N1 & N2 & _) _].
    split; [eapply tput_ok; eauto|]. split; [|auto]. intros m. rewrite tput_find, E. reflexivity.
  - eexists _, _. split; [reflexivity|]. cbn [heap vars topics next set_topics]. split; [reflexivity|]. split; [reflexivity|].
    set (t := mkTopic (next w) [] []). set (T1 := ins _ (n, t) (topics w)).
    assert (F1 : forall m, tfind m T1 = if str_eqb m n then Some t else tfind m (topics w)) by (intros m; apply tfind_ins; exact E).
    assert (F2 : tfind n T1 = Some t) by (rewrite F1, str_eqb_refl; reflexivity).
    assert (N1 : NoDup (map fst T1)) by (apply NoDup_map_ins; [cbn; apply tfind_None; exact E|apply HO]).
    split; [|split; [|right; auto]].
    + constructor.
      * rewrite tput_fst. exact N1.
      * rewrite (tput_ids n (f t) T1 t F2 (Hi t)). apply NoDup_map_ins; [|apply HO]. cbn. rewrite in_map_iff. intros (p & Hp & F).
        pose proof (ok_next _ _ HO) as G. rewrite Forall_forall in G. specialize (G p F). lia.
      * apply tput_Forall; [intros m; cbn; rewrite Hi; cbn; lia|]. rewrite Forall_forall. intros p F. apply In_ins in F. destruct F as [->|F]; [cbn; lia|].
        pose proof (ok_next _ _ HO) as G. rewrite Forall_forall in G. specialize (G p F). lia.
      * rewrite Forall_forall. intros p F. apply In_tput in F; [|exact N1]. destruct F as [->|[F G]]; [apply Hf; constructor|].
        apply In_ins in F. destruct F as [->|F]; [cbn in G; congruence|]. pose proof (ok_each _ _ HO) as K. rewrite Forall_forall in K. exact (K p F).
    + intros m. rewrite tput_find, F2, F1. destruct (str_eqb m n); reflexivity.
Qed.
Lemma okTopic_pub a t : NoDup (tpub t) -> NoDup (tsub t) -> okTopic (mkTopic (tid t) (zadd a (tpub t)) (tsub t)).
Proof. intros H1 H2. split; [apply NoDup_zadd; exact H1|]. split; [exact H2|]. left. cbn. intros F. assert (G : In a (zadd a (tpub t))) by (rewrite In_zadd; auto). rewrite F in G. destruct G. Qed.
Lemma okTopic_sub a t : NoDup (tpub t) -> NoDup (tsub t) -> okTopic (mkTopic (tid t) (tpub t) (zadd a (tsub t))).
Proof. intros H1 H2. split; [exact H1|]. split; [apply NoDup_zadd; exact H2|]. right. cbn. intros F. assert (G : In a (zadd a (tsub t))) by (rewrite In_zadd; auto). rewrite F in G. destruct G. Qed.

Lemma man_signal_ok w n a : okT (topics w) (next w) ->
  exists w' i, man_signal w n a = (w', i) /\ topics_rel w w' /\ okT (topics w') (next w') /\ ids_kept (topics w) (topics w') /\
    (exists t, tfind n (topics w') = Some t /\ tid t = i) /\
    (forall b m, inP (topics w') b m <-> inP (topics w) b m \/ (b = a /\ m = n)) /\
    (forall b m, inS (topics w') b m <-> inS (topics w) b m).
Proof.
  intros HO. destruct (upsert_ok w n (fun t => mkTopic (tid t) (zadd a (tpub t)) (tsub t)) HO ltac:(reflexivity) (okTopic_pub a))
    as (w1 & t & E & R1 & R2 & O & F & C).
  unfold man_signal. rewrite E. do 2 eexists. split; [reflexivity|]. cbn [topics next set_topics heap vars].
  split; [split; assumption|]. split; [exact O|]. split.
  { intros m u H1 v H2. rewrite F in H1. destruct (str_eqb m n) eqn:G; [|congruence]. apply str_eqb_iff in G. subst m. injection H1 as <-. cbn.
    destruct C as [C|[C _]]; congruence. }
  split. { eexists. split; [rewrite F, str_eqb_refl; reflexivity|reflexivity]. }
  split; intros b m; [unfold inP|unfold inS]; rewrite F; destruct (str_eqb m n) eqn:G.
  - apply str_eqb_iff in G. subst m. split.
    + intros (u & H1 & H2). injection H1 as <-. cbn in H2. rewrite In_zadd in H2. destruct H2 as [->|H2]; [auto|].
      left. destruct C as [C|(_ & C & _)]; [exists t; auto|rewrite C in H2; destruct H2].
    + intros H. eexists. split; [reflexivity|]. cbn. rewrite In_zadd. destruct H as [(u & H1 & H2)|[-> _]]; [|auto].
      destruct C as [C|[C _]]; [|congruence]. right. congruence.
  - split; [auto|]. intros [H|[_ ->]]; [exact H|]. rewrite str_eqb_refl in G. discriminate.
  - apply str_eqb_iff in G. subst m. split.
    + intros (u & H1 & H2). injection H1 as <-. cbn in H2. destruct C as [C|(_ & _ & C)]; [exists t; auto|rewrite C in H2; destruct H2].
    + intros (u & H1 & H2). eexists. split; [reflexivity|]. cbn. destruct C as [C|[C _]]; congruence.
  - tauto.
Qed.
Lemma man_slot_ok w n a : okT (topics w) (next w) ->
  exists w', man_slot w n a = w' /\ topics_rel w w' /\ okT (topics w') (next w') /\ ids_kept (topics w) (topics w') /\
    (forall b m, inS (topics w') b m <-> inS (topics w) b m \/ (b = a /\ m = n)) /\
    (forall b m, inP (topics w') b m <-> inP (topics w) b m).
Proof.
  intros HO. destruct (upsert_ok w n (fun t => mkTopic (tid t) (tpub t) (zadd a (tsub t))) HO ltac:(reflexivity) (okTopic_sub a))
    as (w1 & t & E & R1 & R2 & O & F & C).
  unfold man_slot. rewrite E. eexists. split; [reflexivity|]. cbn [topics next set_topics heap vars].
  split; [split; assumption|]. split; [exact O|]. split.
  { intros m u H1 v H2. rewrite F in H1. destruct (str_eqb m n) eqn:G; [|congruence]. apply str_eqb_iff in G. subst m. injection H1 as <-. cbn.
    destruct C as [C|[C _]]; congruence. }
  split; intros b m; [unfold inS|unfold inP]; rewrite F; destruct (str_eqb m n) eqn:G.
  - apply str_eqb_iff in G. subst m. split.
    + intros (u & H1 & H2). injection H1 as <-. cbn in H2. rewrite In_zadd in H2. destruct H2 as [->|H2]; [auto|].
      left. destruct C as [C|(_ & _ & C)]; [exists t; auto|rewrite C in H2; destruct H2].
    + intros H. eexists. split; [reflexivity|]. cbn. rewrite In_zadd. destruct H as [(u & H1 & H2)|[-> _]]; [|auto].
      destruct C as [C|[C _]]; [|congruence]. right. congruence.
  - split; [auto|]. intros [H|[_ ->]]; [exact H|]. rewrite str_eqb_refl in G. discriminate.
  - apply str_eqb_iff in G. subst m. split.
    + intros (u & H1 & H2). injection H1 as <-. cbn in H2. destruct C as [C|(_ & C & _)]; [exists t; auto|rewrite C in H2; destruct H2].
    + intros (u & H1 & H2). eexists. split; [reflexivity|]. cbn. destruct C as [C|[C _]]; congruence.
  - tauto.
Qed.

(** * Invariant of the manager and the sigslots *)
Definition okS (T : list (str * topic)) (a : Z) (s : ss) : Prop :=
  NoDup (subs s) /\ NoDup (map fst (pubs s)) /\ (forall n, In n (subs s) <-> inS T a n) /\ (forall n, In n (map fst (pubs s)) <-> inP T a n) /\
  (forall n i, In (n, i) (pubs s) -> exists t, tfind n T = Some t /\ tid t = i).
Record Inv (w : world) : Prop := mkInv {
  i_ok : okT (topics w) (next w);
  i_ss : forall a s, heap w a = Some s -> okS (topics w) a s;
  i_live : forall a n, inP (topics w) a n \/ inS (topics w) a n -> heap w a <> None }.
(** Nothing is being processed. *)
Definition idle (w : world) : Prop := forall a s, heap w a = Some s -> cnt s = 0 /\ locked s = false.
(** Same objects: only connections may differ. *)
Definition objs (w w' : world) : Prop := vars w' = vars w /\ forall x,
  match heap w x, heap w' x with
  | Some s, Some s' => skind s' = skind s /\ handles s' = handles s /\ cnt s' = cnt s /\ locked s' = locked s
  | None, None => True | _, _ => False end.
Lemma hput_eq h a s : hput h a s a = s.
Proof. unfold hput. rewrite Z.eqb_refl. reflexivity. Qed.
Lemma hput_ne h a s x : x <> a -> hput h a s x = h x.
Proof. intros H. unfold hput. replace (x =? a) with false by lia. reflexivity. Qed.
Lemma objs_put w w' a s s' : vars w' = vars w -> heap w' = hput (heap w) a (Some s') -> heap w a = Some s ->
  skind s' = skind s -> handles s' = handles s -> cnt s' = cnt s -> locked s' = locked s -> objs w w'.
Proof.
  intros V H E H1 H2 H3 H4. split; [exact V|]. intros x. rewrite H. destruct (Z.eq_dec x a) as [->|N]; [rewrite hput_eq, E; auto|].
  rewrite hput_ne by exact N. destruct (heap w x); auto.
Qed.
Lemma objs_refl w w' : vars w' = vars w -> heap w' = heap w -> objs w w'.
Proof. intros V H. split; [exact V|]. intros x. rewrite H. destruct (heap w x); auto. Qed.

Lemma sig_connect_ok w a n s : Inv w -> heap w a = Some s ->
  exists w', sig_connect w a n = Ok w' /\ Inv w' /\ objs w w' /\
    (forall b m, inP (topics w') b m <-> inP (topics w) b m \/ (b = a /\ m = n)) /\
    (forall b m, inS (topics w') b m <-> inS (topics w) b m).
Proof.
  intros HI HA. destruct (man_signal_ok w n a (i_ok _ HI)) as (w1 & i & E & [R1 R2] & O & K & (t & Ft & Fi) & P & S).
  unfold sig_connect. rewrite E. unfold deref. rewrite R1, HA. cbn [bind].
  destruct (i_ss _ HI _ _ HA) as (N1 & N2 & H1 & H2 & H3).
  assert (HK : forall m j, (exists u, tfind m (topics w) = Some u /\ tid u = j) -> (exists b, inP (topics w) b m) -> exists u, tfind m (topics w1) = Some u /\ tid u = j).
  { intros m j (u & U1 & U2) (b & Hb). assert (HP : inP (topics w1) b m) by (apply P; auto). destruct HP as (u' & U3 & _). exists u'. split; [exact U3|].
    rewrite (K _ _ U3 _ U1). exact U2. }
  assert (HX : forall x s', x <> a -> heap w x = Some s' -> okS (topics w1) x s').
  { intros x s' Hx Es. destruct (i_ss _ HI _ _ Es) as (M1 & M2 & G1 & G2 & G3). split; [exact M1|]. split; [exact M2|].
    split; [intros m; rewrite S; apply G1|]. split; [intros m; rewrite P, G2; intuition congruence|].
    intros m j Hm. apply HK; [apply G3; exact Hm|]. exists x. apply G2. apply (in_map fst) in Hm. exact Hm. }
  destruct (existsb (fun p => str_eqb n (fst p)) (pubs s)) eqn:X.
  - apply existsb_exists in X. destruct X as ([n' j] & X1 & X2). cbn in X2. apply str_eqb_iff in X2. subst n'.
    exists w1. split; [reflexivity|]. split; [constructor|split; [apply objs_refl; congruence|auto]].
    + exact O.
    + rewrite R1. intros x s' Es. destruct (Z.eq_dec x a) as [->|Hx]; [|apply HX; auto]. assert (s' = s) as -> by congruence.
      split; [exact N1|]. split; [exact N2|]. split; [intros m; rewrite S; apply H1|]. split.
      * intros m. rewrite P, H2. split; [auto|]. intros [F|[_ ->]]; [exact F|]. apply H2. apply (in_map fst) in X1. exact X1.
      * intros m k Hm. apply HK; [apply H3; exact Hm|]. exists a. apply H2. apply (in_map fst) in Hm. exact Hm.
    + intros x m Hx. rewrite R1. rewrite P, S in Hx. destruct Hx as [[Hx|[-> _]]|Hx]; [apply (i_live _ HI x m); auto|congruence|apply (i_live _ HI x m); auto].
  - assert (Hn : ~ In n (map fst (pubs s))).
    { rewrite in_map_iff. intros ([n' j] & X1 & X2). cbn in X1. subst n'. assert (existsb (fun p => str_eqb n (fst p)) (pubs s) = true); [|congruence].
      apply existsb_exists. exists (n, j). split; [exact X2|apply str_eqb_refl]. }
    eexists. split; [reflexivity|]. split; [constructor|split; [|auto]].
    + exact O.
    + cbn [heap set_heap topics]. intros x s' Es. destruct (Z.eq_dec x a) as [->|Hx].
      * rewrite hput_eq in Es. injection Es as <-. cbn [subs pubs set_pubs]. split; [exact N1|]. split; [apply NoDup_map_ins; [exact Hn|exact N2]|].
        split; [intros m; rewrite S; apply H1|]. split.
        -- intros m. rewrite P, <- H2. rewrite !in_map_iff. split.
           ++ intros ([m' j] & <- & F). apply In_ins in F. destruct F as [F|F]; [injection F as -> ->; auto|]. left. exists (m', j). auto.
           ++ intros [([m' j] & <- & F)|[_ ->]]; [exists (m', j)|exists (n, i)]; (split; [reflexivity|apply In_ins; auto]).
        -- intros m k Hm. apply In_ins in Hm. destruct Hm as [Hm|Hm]; [injection Hm as -> ->; eauto|].
           apply HK; [apply H3; exact Hm|]. exists a. apply H2. apply (in_map fst) in Hm. exact Hm.
      * rewrite hput_ne in Es by exact Hx. rewrite R1 in Es. apply HX; auto.
    + cbn [heap set_heap topics]. intros x m Hx. destruct (Z.eq_dec x a) as [->|Ha]; [rewrite hput_eq; discriminate|]. rewrite hput_ne, R1 by exact Ha.
      rewrite P, S in Hx. destruct Hx as [[Hx|[-> _]]|Hx]; [apply (i_live _ HI x m); auto|congruence|apply (i_live _ HI x m); auto].
    + eapply objs_put; [exact R2|cbn [heap set_heap]; rewrite R1; reflexivity|exact HA|reflexivity..].
Qed.

Lemma slot_connect_ok w a n s : Inv w -> heap w a = Some s ->
  exists w', slot_connect w a n = Ok w' /\ Inv w' /\ objs w w' /\
    (forall b m, inS (topics w') b m <-> inS (topics w) b m \/ (b = a /\ m = n)) /\
    (forall b m, inP (topics w') b m <-> inP (topics w) b m).
Proof.
  intros HI HA. unfold slot_connect, deref. rewrite HA. cbn [bind]. destruct (i_ss _ HI _ _ HA) as (N1 & N2 & H1 & H2 & H3).
  destruct (smem n (subs s)) eqn:X.
  - apply smem_iff in X. exists w. split; [reflexivity|]. split; [exact HI|]. split; [apply objs_refl; reflexivity|]. split; [|tauto].
    intros b m. split; [auto|]. intros [F|[-> ->]]; [exact F|apply H1; exact X].
  - assert (Hn : ~ In n (subs s)) by (intros F; apply smem_iff in F; congruence).
    set (w1 := set_heap w a _). destruct (man_slot_ok w1 n a (i_ok _ HI)) as (w2 & E & [R1 R2] & O & K & S & P).
    rewrite E. exists w2. split; [reflexivity|]. cbn [topics set_heap w1] in K, S, P. cbn [heap vars set_heap w1] in R1, R2.
    assert (HK : forall m j, (exists u, tfind m (topics w) = Some u /\ tid u = j) -> (exists b, inP (topics w) b m) -> exists u, tfind m (topics w2) = Some u /\ tid u = j).
    { intros m j (u & U1 & U2) (b & Hb). assert (HP : inP (topics w2) b m) by (apply P; auto). destruct HP as (u' & U3 & _). exists u'. split; [exact U3|].
      rewrite (K _ _ U3 _ U1). exact U2. }
    split; [constructor|split; [|auto]].
    + exact O.
    + rewrite R1. intros x s' Es. destruct (Z.eq_dec x a) as [->|Hx].
      * rewrite hput_eq in Es. injection Es as <-. cbn [subs pubs set_subs]. split; [apply NoDup_ins; [exact Hn|exact N1]|]. split; [exact N2|].
        split; [intros m; etransitivity; [apply In_ins|]; rewrite S, H1; intuition congruence|]. split; [intros m; rewrite P; apply H2|].
        intros m k Hm. apply HK; [apply H3; exact Hm|]. exists a. apply H2. apply (in_map fst) in Hm. exact Hm.
      * rewrite hput_ne in Es by exact Hx. destruct (i_ss _ HI _ _ Es) as (M1 & M2 & G1 & G2 & G3). split; [exact M1|]. split; [exact M2|].
        split; [intros m; rewrite S, G1; intuition congruence|]. split; [intros m; rewrite P; apply G2|].
        intros m j Hm. apply HK; [apply G3; exact Hm|]. exists x. apply G2. apply (in_map fst) in Hm. exact Hm.
    + intros x m Hx. rewrite R1. destruct (Z.eq_dec x a) as [->|Ha]; [rewrite hput_eq; discriminate|]. rewrite hput_ne by exact Ha.
      rewrite P, S in Hx. destruct Hx as [Hx|[Hx|[-> _]]]; [apply (i_live _ HI x m); auto|apply (i_live _ HI x m); auto|congruence].
    + eapply objs_put; [exact R2|exact R1|exact HA|reflexivity..].
Qed.

(** * Disconnecting *)
(** The only member of a topic, in both roles. *)
Definition lonely (P S : Z -> str -> Prop) (a : Z) (n : str) : Prop := P a n /\ S a n /\ forall b, P b n \/ S b n -> b = a.
Lemma disconnect_ok w a s : Inv w -> heap w a = Some s -> ~ (exists n, lonely (inP (topics w)) (inS (topics w)) a n) ->
  exists w', disconnect w a = Ok w' /\ Inv w' /\ objs w w' /\
    (forall b m, inP (topics w') b m <-> inP (topics w) b m /\ b <> a) /\
    (forall b m, inS (topics w') b m <-> inS (topics w) b m /\ b <> a).
Proof.
  intros HI HA HL. unfold disconnect, deref. rewrite HA. cbn [bind]. destruct (i_ss _ HI _ _ HA) as (N1 & N2 & H1 & H2 & H3).
  destruct (man_discs_ok a (subs s) w N1 (i_ok _ HI)) as (w1 & E1 & [R1 R2] & O1 & K1 & P1 & S1).
  { intros n Hn. exists a. right. apply H1. exact Hn. }
  rewrite E1. cbn [bind].
  destruct (man_discs_ok a (map fst (pubs s)) w1 N2 O1) as (w2 & E2 & [R3 R4] & O2 & K2 & P2 & S2).
  { intros n Hn. destruct (in_dec (list_eq_dec Z.eq_dec) n (subs s)) as [D|D].
    - assert (HB : exists b, b <> a /\ (inP (topics w) b n \/ inS (topics w) b n)).
      { apply H2 in Hn. apply H1 in D. destruct Hn as (t & Et & Hp). destruct D as (t' & Et' & Hs). assert (t' = t) as -> by congruence.
        destruct (zdel a (tpub t)) as [|b l] eqn:Z1.
        - destruct (zdel a (tsub t)) as [|b l] eqn:Z2.
          + exfalso. apply HL. exists n. split; [exists t; auto|]. split; [exists t; auto|]. intros b [(u & U1 & U2)|(u & U1 & U2)]; assert (u = t) as -> by congruence.
            * destruct (Z.eq_dec b a) as [|Nb]; [assumption|]. assert (F : In b (zdel a (tpub t))) by (rewrite In_zdel; auto). rewrite Z1 in F. destruct F.
            * destruct (Z.eq_dec b a) as [|Nb]; [assumption|]. assert (F : In b (zdel a (tsub t))) by (rewrite In_zdel; auto). rewrite Z2 in F. destruct F.
          + assert (F : In b (zdel a (tsub t))) by (rewrite Z2; left; reflexivity). apply In_zdel in F. exists b. split; [tauto|]. right. exists t. tauto.
        - assert (F : In b (zdel a (tpub t))) by (rewrite Z1; left; reflexivity). apply In_zdel in F. exists b. split; [tauto|]. left. exists t. tauto. }
      destruct HB as (b & B1 & B2). exists b. rewrite P1, S1. tauto.
    - exists a. left. rewrite P1. split; [apply H2; exact Hn|]. intros [_ F]. contradiction. }
  rewrite E2. cbn [bind]. eexists. split; [reflexivity|]. cbn [topics set_heap].
  assert (FP : forall b m, inP (topics w2) b m <-> inP (topics w) b m /\ b <> a).
  { intros b m. rewrite P2, P1. split; [intros [[F1 F2] F3]; split; [exact F1|]|intros [F1 F2]; tauto]. intros ->. apply F3. split; [reflexivity|]. apply H2. exact F1. }
  assert (FS : forall b m, inS (topics w2) b m <-> inS (topics w) b m /\ b <> a).
  { intros b m. rewrite S2, S1. split; [intros [[F1 F2] F3]; split; [exact F1|]|intros [F1 F2]; tauto]. intros ->. apply F2. split; [reflexivity|]. apply H1. exact F1. }
  split; [constructor|split; [|auto]].
  - exact O2.
  - cbn [heap set_heap topics]. rewrite R3, R1. intros x s' Es. destruct (Z.eq_dec x a) as [->|Hx].
    + rewrite hput_eq in Es. injection Es as <-. cbn [subs pubs set_subs set_pubs map]. split; [constructor|]. split; [constructor|].
      split; [intros n; rewrite FS; split; [intros []|tauto]|]. split; [intros n; rewrite FP; split; [intros []|tauto]|]. intros n i [].
    + rewrite hput_ne in Es by exact Hx. destruct (i_ss _ HI _ _ Es) as (M1 & M2 & G1 & G2 & G3). split; [exact M1|]. split; [exact M2|].
      split; [intros m; rewrite FS, G1; intuition congruence|]. split; [intros m; rewrite FP, G2; intuition congruence|].
      intros m j Hm. destruct (G3 _ _ Hm) as (u & U1 & U2). assert (HP : inP (topics w2) x m).
      { apply FP. split; [apply G2; apply (in_map fst) in Hm; exact Hm|exact Hx]. }
      destruct HP as (u2 & U3 & U4). exists u2. split; [exact U3|]. assert (HP1 : inP (topics w1) x m) by (apply P2; exists u2; auto).
      destruct HP1 as (u1 & U5 & _). rewrite (K2 _ _ U3 _ U5), (K1 _ _ U5 _ U1). exact U2.
  - cbn [heap set_heap topics]. intros x m Hx. rewrite R3, R1. destruct (Z.eq_dec x a) as [->|Ha]; [rewrite hput_eq; discriminate|]. rewrite hput_ne by exact Ha.
    rewrite FP, FS in Hx. apply (i_live _ HI x m). tauto.
  - eapply objs_put; [cbn; congruence|cbn [heap set_heap]; rewrite R3, R1; reflexivity|exact HA|reflexivity..].
Qed.
Lemma disconnect_UB w a s n : Inv w -> heap w a = Some s -> lonely (inP (topics w)) (inS (topics w)) a n -> disconnect w a = UB.
Proof.
  intros HI HA (L1 & L2 & L3). unfold disconnect, deref. rewrite HA. cbn [bind]. destruct (i_ss _ HI _ _ HA) as (N1 & N2 & H1 & H2 & H3).
  destruct (man_discs_ok a (subs s) w N1 (i_ok _ HI)) as (w1 & E1 & _ & O1 & _ & P1 & S1).
  { intros m Hm. exists a. right. apply H1. exact Hm. }
  rewrite E1. cbn [bind]. rewrite (man_discs_UB a n); [reflexivity|exact O1|apply H2; exact L1|].
  intros b. rewrite P1, S1. apply H1 in L2. split; intros [F1 F2]; apply F2; (split; [apply L3; auto|exact L2]).
Qed.
