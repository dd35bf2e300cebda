(** Specifications, invariants and lemmas for IpcModel. *)
From Verif Require Import Base ThreadModel ThreadProofs IpcModel.

(** ** Semaphore specification, on traces alone. *)
Inductive pinside : list pev -> nat -> Prop :=
| pinside_acq : forall tr p, pinside (tr ++ [PAcquired p]) p
| pinside_keep : forall tr e p, pinside tr p -> e <> PUnlockCalled p -> pinside (tr ++ [e]) p.

(** unlock is called only by a process that is inside. *)
Definition pdisciplined (tr : list pev) : Prop :=
  forall tr1 p tr2, tr = tr1 ++ PUnlockCalled p :: tr2 -> pinside tr1 p.
(** lock is not called by a process that is inside (it would wait for itself), no signal
    handler runs during lock(). *)
Definition calm_sched (sch : list (nat * pact)) : Prop := forall p, ~ In (p, PSignal) sch.

Definition pev_in (b : bool) (e : pev) (p : nat) : bool :=
  match e with
  | PAcquired q => if Nat.eqb q p then true else b
  | PUnlockCalled q => if Nat.eqb q p then false else b
  | _ => b
  end.
Definition pinsideb (tr : list pev) (p : nat) : bool := fold_left (fun b e => pev_in b e p) tr false.

Lemma pinsideb_snoc tr e p : pinsideb (tr ++ [e]) p = pev_in (pinsideb tr p) e p.
Proof. unfold pinsideb. now rewrite fold_left_app. Qed.

Lemma pinsideb_spec tr p : pinside tr p <-> pinsideb tr p = true.
Proof.
  split.
  - induction 1 as [tr p|tr e p H IH N]; rewrite pinsideb_snoc; cbn [pev_in].
    + now rewrite Nat.eqb_refl.
    + rewrite IH. destruct e; cbn [pev_in]; auto; destruct (Nat.eqb p0 p) eqn:E; auto.
      apply Nat.eqb_eq in E; congruence.
  - induction tr as [|e tr IH] using rev_ind; [discriminate|].
    rewrite pinsideb_snoc. intros H.
    destruct e; cbn [pev_in] in H;
      try (apply pinside_keep; [now apply IH|congruence]).
    + destruct (Nat.eqb p0 p) eqn:E.
      * apply Nat.eqb_eq in E; subst. constructor.
      * apply pinside_keep; [now apply IH|congruence].
    + destruct (Nat.eqb p0 p) eqn:E; [discriminate|].
      apply pinside_keep; [now apply IH|]. intros Q; injection Q as Q; subst.
      now rewrite Nat.eqb_refl in E.
Qed.

Lemma pdisciplined_prefix tr e : pdisciplined (tr ++ e) -> pdisciplined tr.
Proof. intros H tr1 t tr2 ->. eapply H. rewrite <- app_assoc. reflexivity. Qed.
Lemma pdisciplined_last tr t : pdisciplined (tr ++ [PUnlockCalled t]) -> pinsideb tr t = true.
Proof. intros H. apply pinsideb_spec. eapply H. reflexivity. Qed.

Lemma p_run_app s a b :
  p_run s (a ++ b) =
  match p_run s a with
  | None => None
  | Some (s1, e1) => match p_run s1 b with None => None | Some (s2, e2) => Some (s2, e1 ++ e2) end
  end.
Proof.
  revert s; induction a as [|[t x] a IH]; intros s; cbn [p_run app].
  - destruct (p_run s b) as [[s2 e2]|]; auto.
  - destruct (p_step s t x) as [[s1 e1]|]; auto. rewrite IH.
    destruct (p_run s1 a) as [[s2 e2]|]; auto.
    destruct (p_run s2 b) as [[s3 e3]|]; auto. now rewrite app_assoc.
Qed.

Definition pun (c : ppc) : bool := match c with PCount | PPost => true | _ => false end.

(** The count is 1 and nobody holds, or it is 0 and exactly one process does. *)
Definition pinv (s : pst) (tr : list pev) : Prop :=
  exists h, p_count s = (match h with None => 1 | Some _ => 0 end) /\
  forall p, (pinsideb tr p = true /\ pun (p_pc s p) = false /\ h = Some p) \/
            (pinsideb tr p = false /\ pun (p_pc s p) = true /\ h = Some p) \/
            (pinsideb tr p = false /\ pun (p_pc s p) = false /\ h <> Some p).

Lemma pinv_step s tr p a s1 e :
  pinv s tr -> a <> PSignal -> pdisciplined (tr ++ e) -> p_step s p a = Some (s1, e) -> pinv s1 (tr ++ e).
Proof.
  intros [h [C I]] NS DI ST. unfold p_step, p_goto in ST.
  assert (NE : forall u, u <> p -> Nat.eqb p u = false) by (intros; apply Nat.eqb_neq; congruence).
  pose proof (I p) as IP.
  destruct (p_pc s p) eqn:PC; destruct a; try discriminate; try congruence;
  repeat match type of ST with context [if ?c then _ else _] => destruct c eqn:? end; try discriminate;
  injection ST as <- <-;
  try (apply pdisciplined_last in DI); rewrite ?app_nil_r in *; unfold pinv; cbn [p_count p_pc];
  cbn [pun] in IP.
  all: let fin :=
    split; [destruct h; try lia; try (exfalso; intuition congruence)|];
    intros u; pose proof (I u) as IU; rewrite ?pinsideb_snoc; cbn [pev_in];
    destruct (Nat.eq_dec u p) as [->|N];
    rewrite ?fupd_same, ?fupd_other, ?Nat.eqb_refl, ?NE by assumption; try rewrite PC in *; cbn [pun] in *;
    try (destruct h; try (exfalso; lia); intuition congruence) in
    first [solve [exists h; fin] | solve [exists (Some p); fin] | solve [exists None; fin] | idtac].
Qed.

Lemma pinv_run sch s tr : p_run p_init sch = Some (s, tr) -> calm_sched sch -> pdisciplined tr -> pinv s tr.
Proof.
  revert s tr. induction sch as [|[t a] sch IH] using rev_ind; intros s tr R CA DI.
  - injection R as <- <-. exists None. split; [reflexivity|]. intros p; right; right. repeat split; discriminate.
  - rewrite p_run_app in R. destruct (p_run p_init sch) as [[s1 e1]|] eqn:E; [|discriminate].
    cbn [p_run] in R. destruct (p_step s1 t a) as [[s2 e2]|] eqn:E2; [|discriminate].
    injection R as <- <-. rewrite app_nil_r in *.
    eapply pinv_step; eauto.
    + apply IH; auto; [|eapply pdisciplined_prefix; eauto].
      intros p H. apply (CA p). apply in_or_app; now left.
    + intros ->. apply (CA t). apply in_or_app; right; now left.
Qed.

Fixpoint pdisc_from (pre tr : list pev) : bool :=
  match tr with
  | [] => true
  | e :: r => (match e with PUnlockCalled t => pinsideb pre t | _ => true end) && pdisc_from (pre ++ [e]) r
  end.
Lemma pdisc_check tr : pdisc_from [] tr = true -> pdisciplined tr.
Proof.
  intros H tr1 t tr2 E. apply pinsideb_spec.
  enough (G : forall tr pre tr1 t tr2, pdisc_from pre tr = true -> tr = tr1 ++ PUnlockCalled t :: tr2 ->
                pinsideb (pre ++ tr1) t = true) by exact (G tr [] tr1 t tr2 H E).
  clear. induction tr as [|e tr IH]; intros pre tr1 t tr2 H E; [destruct tr1; discriminate|].
  cbn [pdisc_from] in H. apply andb_true_iff in H as [H1 H2].
  destruct tr1 as [|x tr1]; cbn in E; injection E as -> E.
  - now rewrite app_nil_r.
  - specialize (IH _ _ _ _ H2 E). now rewrite <- app_assoc in IH.
Qed.

(** ** Names *)
Definition no_destroy (sch : list nact) : Prop := forall p, ~ In (NDestroy p) sch.

Lemma n_run_shared sch : forall s s1,
  no_destroy sch -> (forall p k, n_handle s p = Some k -> n_reg s = Some k) -> n_run s sch = Some s1 ->
  (forall p k, n_handle s1 p = Some k -> n_reg s1 = Some k).
Proof.
  induction sch as [|a sch IH]; intros s s1 ND H R; cbn [n_run] in R.
  - injection R as <-. auto.
  - destruct (n_step s a) as [s2|] eqn:E; [|discriminate]. apply (IH s2 s1); [| |exact R].
    + intros p HI. apply (ND p). now right.
    + destruct a as [p|p]; [|exfalso; apply (ND p); now left]. cbn [n_step] in E.
      destruct (n_handle s p) eqn:HP; [discriminate|].
      destruct (n_reg s) as [k|] eqn:RG; injection E as <-; cbn [n_handle n_reg]; intros q k0 QQ; revert QQ;
      (destruct (Nat.eq_dec q p) as [->|N]; rewrite ?fupd_same, ?fupd_other by assumption).
      * congruence.
      * intros Q. apply H in Q. congruence.
      * congruence.
      * intros Q. apply H in Q. discriminate.
Qed.

(** ** Shared memory: histories in which constructors do not overlap other operations. *)
Inductive shop : Type := Attach (p : nat) | Write (p : nat) (v : Z) | ReadV (p : nat) (v : Z) | Detach (p : nat).

Definition expand1 (o : shop) : list sact :=
  match o with
  | Attach p => [SBegin p; SNext p; SNext p; SNext p]
  | Write p v => [SWrite p v]
  | ReadV p v => [SRead p v]
  | Detach p => [SDestroy p]
  end.
Definition expand (h : list shop) : list sact := flat_map expand1 h.

(** The value every reader should see: the last one written, Storage() before any write. *)
Fixpoint last_written (acc : Z) (h : list shop) : Z :=
  match h with [] => acc | Write _ v :: r => last_written v r | _ :: r => last_written acc r end.

Lemma s_run_app need s a b :
  s_run need s (a ++ b) =
  match s_run need s a with Some (Ok s1) => s_run need s1 b | r => r end.
Proof.
  revert s; induction a as [|x a IH]; intros s; cbn [s_run app]; auto.
  destruct (s_step need s x) as [[s1| |]|]; auto.
Qed.

(** Attached processes share segment 0, which holds [v]; process [f] created it. *)
Definition sinv (size : Z) (f : nat) (v : Z) (s : shst) : Prop :=
  s_reg s = Some O /\ s_segs s = [v] /\ s_len s = [size] /\
  (exists m, s_pos s f = MAttached 0 m) /\
  (forall p, s_pos s p = MNone \/ s_pos s p = MAttached 0 (Nat.eqb p f)).

Lemma sinv_op need size f v s o : (forall p, need p = size) ->
  sinv size f v s -> o <> Detach f ->
  match s_run need s (expand1 o) with
  | None => True
  | Some (Ok s1) => sinv size f (last_written v [o]) s1 /\ (forall p w, o = ReadV p w -> w = v)
  | Some _ => False
  end.
Proof.
  intros HN (RG & SG & LN & [m0 PF] & PS) ND. destruct o as [p|p w|p w|p]; cbn [expand1 s_run s_step last_written].
  - destruct (PS p) as [P|P]; rewrite P; auto. rewrite RG. cbn [s_pos s_reg s_segs s_len s_step s_run].
    rewrite fupd_same. cbn [s_pos s_reg s_segs s_len]. rewrite fupd_same. cbn [s_pos s_reg s_segs s_len].
    rewrite fupd_same. cbn [s_pos s_reg s_segs s_len].
    split; [|discriminate]. unfold sinv; cbn [s_pos s_reg s_segs s_len].
    rewrite LN, HN. cbn [upd]. split; [reflexivity|]. split; [exact SG|]. split; [reflexivity|].
    assert (NP : p <> f) by (intros ->; congruence).
    split.
    + exists m0. rewrite !fupd_other by congruence. exact PF.
    + intros q. destruct (Nat.eq_dec q p) as [->|N].
      * right. rewrite fupd_same. f_equal. symmetry. now apply Nat.eqb_neq.
      * rewrite !fupd_other by assumption. apply PS.
  - destruct (PS p) as [P|P]; rewrite P; auto. rewrite LN, HN. cbn [nth]. rewrite Z.ltb_irrefl.
    split; [|discriminate]. unfold sinv; cbn [s_pos s_reg s_segs s_len].
    rewrite SG. cbn [upd]. repeat split; eauto.
  - destruct (PS p) as [P|P]; rewrite P; auto. rewrite LN, HN. cbn [nth]. rewrite Z.ltb_irrefl.
    rewrite SG. cbn [nth]. destruct (v =? w) eqn:E; auto. split.
    + repeat split; eauto.
    + intros q u Q. injection Q as -> ->. lia.
  - destruct (PS p) as [P|P]; rewrite P; auto. split; [|discriminate].
    assert (NP : p <> f) by congruence.
    assert (Nat.eqb p f = false) as EF by now apply Nat.eqb_neq.
    unfold sinv; cbn [s_pos s_reg s_segs s_len]. rewrite EF. repeat split; auto.
    + exists m0. rewrite fupd_other by congruence. exact PF.
    + intros q. destruct (Nat.eq_dec q p) as [->|N]; [left; now rewrite fupd_same|].
      rewrite fupd_other by assumption. apply PS.
Qed.

Lemma sinv_run need size f h : (forall p, need p = size) -> forall v s, sinv size f v s -> ~ In (Detach f) h ->
  match s_run need s (expand h) with
  | None => True
  | Some (Ok s1) => sinv size f (last_written v h) s1 /\
                    (forall h1 p w h2, h = h1 ++ ReadV p w :: h2 -> w = last_written v h1)
  | Some _ => False
  end.
Proof.
  intros HN. induction h as [|o h IH]; intros v s I ND; cbn [expand flat_map].
  - cbn. split; auto. intros h1 p w h2 E. destruct h1; discriminate.
  - rewrite s_run_app. pose proof (sinv_op need size f v s o HN I) as H.
    assert (ND1 : o <> Detach f) by (intros ->; apply ND; now left).
    specialize (H ND1). destruct (s_run need s (expand1 o)) as [[s1| |]|]; auto.
    destruct H as [I1 RD]. specialize (IH _ _ I1 ltac:(intros Q; apply ND; now right)).
    fold (expand h). destruct (s_run need s1 (expand h)) as [[s2| |]|]; auto.
    destruct IH as [I2 R2]. split.
    + destruct o; exact I2.
    + intros h1 p w h2 E. destruct h1 as [|x h1]; cbn [app] in E; injection E as -> E.
      * cbn. eapply RD; reflexivity.
      * rewrite (R2 _ _ _ _ E). destruct x; reflexivity.
Qed.

Lemma sinv_first need size f : (forall p, need p = size) ->
  exists s, s_run need s_init (expand1 (Attach f)) = Some (Ok s) /\ sinv size f 0 s.
Proof.
  intros HN. cbn [expand1 s_run s_step s_init s_pos s_reg].
  cbn [s_pos s_reg s_segs s_len app length]. rewrite fupd_same. cbn [s_pos s_reg s_segs s_len]. rewrite fupd_same.
  cbn [s_pos s_reg s_segs s_len upd nth]. rewrite fupd_same. cbn [upd nth].
  rewrite Z.ltb_irrefl. eexists; split; [reflexivity|].
  unfold sinv; cbn [s_pos s_reg s_segs s_len upd]. rewrite HN. repeat split; auto.
  - exists true. now rewrite fupd_same.
  - intros p. destruct (Nat.eq_dec p f) as [->|N].
    + right. rewrite fupd_same, Nat.eqb_refl. reflexivity.
    + left. now rewrite !fupd_other by assumption.
Qed.
