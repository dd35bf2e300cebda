(** Specifications, invariants and lemmas for ThreadModel. *)
From Verif Require Import Base ThreadModel.

Lemma fupd_same {A} (f : nat -> A) t v : fupd f t v t = v.
Proof. unfold fupd; now rewrite Nat.eqb_refl. Qed.
Lemma fupd_other {A} (f : nat -> A) t v u : u <> t -> fupd f t v u = f u.
Proof. intros H; unfold fupd; destruct (Nat.eqb u t) eqn:E; auto. apply Nat.eqb_eq in E; congruence. Qed.

(** ** Mutex specification: who is inside the critical section, read off the trace alone. *)

(** [inside tr t]: thread [t] was granted the mutex and has not called unlock since. *)
Inductive inside : list mev -> nat -> Prop :=
| inside_acq : forall tr t, inside (tr ++ [Acquired t]) t
| inside_keep : forall tr e t, inside tr t -> e <> UnlockCalled t -> inside (tr ++ [e]) t.

(** [waiting tr t]: thread [t] called lock, which has neither returned nor thrown yet. *)
Inductive waiting : list mev -> nat -> Prop :=
| waiting_call : forall tr t, waiting (tr ++ [LockCalled t]) t
| waiting_keep : forall tr e t, waiting tr t -> e <> Acquired t -> e <> Threw t -> waiting (tr ++ [e]) t.

(** [disciplined tr]: unlock is called only by a thread that is inside. *)
Definition disciplined (tr : list mev) : Prop :=
  forall tr1 t tr2, tr = tr1 ++ UnlockCalled t :: tr2 -> inside tr1 t.

(** [no_relock tr]: lock is not called by a thread that is inside. *)
Definition no_relock (tr : list mev) : Prop :=
  forall tr1 t tr2, tr = tr1 ++ LockCalled t :: tr2 -> ~ inside tr1 t.

(** Executable versions used in proofs. *)
Definition ev_in (b : bool) (e : mev) (t : nat) : bool :=
  match e with
  | Acquired u => if Nat.eqb u t then true else b
  | UnlockCalled u => if Nat.eqb u t then false else b
  | _ => b
  end.
Definition insideb (tr : list mev) (t : nat) : bool := fold_left (fun b e => ev_in b e t) tr false.

Definition ev_wt (b : bool) (e : mev) (t : nat) : bool :=
  match e with
  | LockCalled u => if Nat.eqb u t then true else b
  | Acquired u | Threw u => if Nat.eqb u t then false else b
  | _ => b
  end.
Definition waitingb (tr : list mev) (t : nat) : bool := fold_left (fun b e => ev_wt b e t) tr false.

Lemma insideb_snoc tr e t : insideb (tr ++ [e]) t = ev_in (insideb tr t) e t.
Proof. unfold insideb. now rewrite fold_left_app. Qed.
Lemma waitingb_snoc tr e t : waitingb (tr ++ [e]) t = ev_wt (waitingb tr t) e t.
Proof. unfold waitingb. now rewrite fold_left_app. Qed.

Lemma insideb_spec tr t : inside tr t <-> insideb tr t = true.
Proof.
  split.
  - induction 1 as [tr t|tr e t H IH N]; rewrite insideb_snoc; cbn [ev_in].
    + now rewrite Nat.eqb_refl.
    + rewrite IH. destruct e; cbn [ev_in]; auto; destruct (Nat.eqb t0 t) eqn:E; auto.
      apply Nat.eqb_eq in E; congruence.
  - induction tr as [|e tr IH] using rev_ind; [discriminate|].
    rewrite insideb_snoc. intros H.
    destruct e; cbn [ev_in] in H;
      try (apply inside_keep; [now apply IH|congruence]).
    + destruct (Nat.eqb t0 t) eqn:E.
      * apply Nat.eqb_eq in E; subst. constructor.
      * apply inside_keep; [now apply IH|congruence].
    + destruct (Nat.eqb t0 t) eqn:E; [discriminate|].
      apply inside_keep; [now apply IH|]. intros Q; injection Q as Q; subst.
      now rewrite Nat.eqb_refl in E.
Qed.

Lemma waitingb_spec tr t : waiting tr t <-> waitingb tr t = true.
Proof.
  split.
  - induction 1 as [tr t|tr e t H IH N M]; rewrite waitingb_snoc; cbn [ev_wt].
    + now rewrite Nat.eqb_refl.
    + rewrite IH. destruct e; cbn [ev_wt]; auto; destruct (Nat.eqb t0 t) eqn:E; auto;
      apply Nat.eqb_eq in E; congruence.
  - induction tr as [|e tr IH] using rev_ind; [discriminate|].
    rewrite waitingb_snoc. intros H.
    destruct e; cbn [ev_wt] in H;
      try (apply waiting_keep; [now apply IH|congruence|congruence]);
      destruct (Nat.eqb t0 t) eqn:E; try discriminate;
      try (apply Nat.eqb_eq in E; subst; constructor);
      (apply waiting_keep; [now apply IH| |]; intros Q; try discriminate Q; injection Q as Q; subst;
        now rewrite Nat.eqb_refl in E).
Qed.

(** Reachability with the trace so far. *)
Lemma m_run_app d s a b :
  m_run d s (a ++ b) =
  match m_run d s a with
  | None => None
  | Some (s1, e1) => match m_run d s1 b with None => None | Some (s2, e2) => Some (s2, e1 ++ e2) end
  end.
Proof.
  revert s; induction a as [|[t x] a IH]; intros s; cbn [m_run app].
  - destruct (m_run d s b) as [[s2 e2]|]; auto.
  - destruct (m_step d s t x) as [[s1 e1]|]; auto. rewrite IH.
    destruct (m_run d s1 a) as [[s2 e2]|]; auto.
    destruct (m_run d s2 b) as [[s3 e3]|]; auto. now rewrite app_assoc.
Qed.

(** Induction principle: a predicate on (state, trace) closed under steps holds of all runs. *)
Lemma m_run_ind d (P : mst -> list mev -> Prop) :
  P m_init [] ->
  (forall s tr t a s1 e, P s tr -> m_step d s t a = Some (s1, e) -> P s1 (tr ++ e)) ->
  forall sch s tr, m_run d m_init sch = Some (s, tr) -> P s tr.
Proof.
  intros H0 HS sch. induction sch as [|[t a] sch IH] using rev_ind; intros s tr R.
  - injection R as <- <-. auto.
  - rewrite m_run_app in R. destruct (m_run d m_init sch) as [[s1 e1]|] eqn:E; [|discriminate].
    cbn [m_run] in R. destruct (m_step d s1 t a) as [[s2 e2]|] eqn:E2; [|discriminate].
    injection R as <- <-. rewrite app_nil_r. eapply HS; eauto.
Qed.

Definition un_pc (p : mpc) : bool := match p with UnLoad | UnStore _ | UnPost => true | _ => false end.
Definition in_pc (p : mpc) : bool := match p with InLoad | InStore _ => true | _ => false end.

(** Invariant for debug builds (no discipline needed) and for disciplined release runs. *)
Definition minv (s : mst) (tr : list mev) : Prop :=
  (forall t, insideb tr t = true -> m_owner s = Some t /\ un_pc (m_pc s t) = false /\ in_pc (m_pc s t) = false) /\
  (forall t, in_pc (m_pc s t) = true -> m_owner s = Some t) /\
  (forall t, m_owner s = Some t -> insideb tr t = true \/ in_pc (m_pc s t) = true \/ un_pc (m_pc s t) = true).

Ltac tcase t u :=
  let E := fresh "E" in
  destruct (Nat.eqb t u) eqn:E; [apply Nat.eqb_eq in E; subst|apply Nat.eqb_neq in E].

Lemma ev_in_other b e t u :
  match e with Acquired v | UnlockCalled v => v | _ => t end = t -> u <> t -> ev_in b e u = b.
Proof.
  destruct e; cbn; auto; intros -> H; destruct (Nat.eqb t u) eqn:E; auto;
    apply Nat.eqb_eq in E; congruence.
Qed.

Ltac msolve s tr t u :=
  destruct (Nat.eq_dec u t) as [->|?];
  [ rewrite ?fupd_same in *; rewrite ?Nat.eqb_refl in * | rewrite ?fupd_other in * by assumption ];
  repeat match goal with
  | H : context [Nat.eqb t u] |- _ =>
      replace (Nat.eqb t u) with false in H by (symmetry; apply Nat.eqb_neq; congruence)
  | |- context [Nat.eqb t u] =>
      replace (Nat.eqb t u) with false by (symmetry; apply Nat.eqb_neq; congruence)
  end;
  cbn [un_pc in_pc] in *; try discriminate; try congruence; intuition congruence.

Lemma minv_step d s tr t a s1 e :
  minv s tr -> m_step d s t a = Some (s1, e) ->
  (forall u, e <> [Undefined u]) ->
  minv s1 (tr ++ e).
Proof.
  intros (I1 & I2 & I3) ST NU.
  unfold m_step, m_goto, m_owned_by in ST.
  destruct (m_pc s t) eqn:PC; destruct a; try discriminate;
    repeat match type of ST with
    | context [match m_owner s with _ => _ end] => destruct (m_owner s) eqn:OW
    | context [if ?c then _ else _] => destruct c eqn:?
    end; try discriminate; injection ST as <- <-;
    repeat match goal with
    | H : (_ && _) = true |- _ => apply andb_true_iff in H; destruct H
    | H : Nat.eqb _ _ = true |- _ => apply Nat.eqb_eq in H; subst
    | H : Nat.eqb _ _ = false |- _ => apply Nat.eqb_neq in H
    end;
    try (exfalso; eapply NU; reflexivity);
    unfold minv; cbn [m_owner m_pc]; rewrite ?app_nil_r;
    (split; [|split]); intros u; rewrite ?insideb_snoc; cbn [ev_in];
    pose proof (I1 u) as J1; pose proof (I2 u) as J2; pose proof (I3 u) as J3;
    pose proof (I1 t) as K1; pose proof (I2 t) as K2; pose proof (I3 t) as K3;
    try rewrite PC in *; try rewrite OW in *;
    msolve s tr t u.
Qed.

(** ** Trace conditions and snoc *)
Lemma app_eq_split {A} (a b c : list A) x d : a ++ b = c ++ x :: d ->
  (exists d1, a = c ++ x :: d1) \/ (exists c1, c = a ++ c1 /\ b = c1 ++ x :: d).
Proof.
  revert c; induction a as [|y a IH]; intros c E.
  - right. exists c. auto.
  - destruct c as [|z c]; cbn in E.
    + injection E as -> E. left. eexists; reflexivity.
    + injection E as -> E. destruct (IH _ E) as [[d1 ->]|[c1 [-> ->]]].
      * left. eexists; reflexivity.
      * right. eexists; split; reflexivity.
Qed.

Lemma disciplined_prefix tr e : disciplined (tr ++ e) -> disciplined tr.
Proof. intros H tr1 t tr2 ->. eapply H. rewrite <- app_assoc. reflexivity. Qed.
Lemma disciplined_last tr t : disciplined (tr ++ [UnlockCalled t]) -> insideb tr t = true.
Proof. intros H. apply insideb_spec. eapply H. reflexivity. Qed.
Lemma no_relock_prefix tr e : no_relock (tr ++ e) -> no_relock tr.
Proof. intros H tr1 t tr2 ->. eapply H. rewrite <- app_assoc. reflexivity. Qed.
Lemma no_relock_last tr t : no_relock (tr ++ [LockCalled t]) -> insideb tr t = false.
Proof.
  intros H. destruct (insideb tr t) eqn:E; auto. exfalso. eapply (H tr t []); [reflexivity|].
  now apply insideb_spec.
Qed.

(** ** Disciplined runs *)
Definition dinv (s : mst) : Prop := forall t, un_pc (m_pc s t) = true -> m_owner s = Some t.

Ltac msplit s t a ST PC OW :=
  unfold m_step, m_goto, m_owned_by in ST;
  destruct (m_pc s t) eqn:PC; destruct a; try discriminate;
    repeat match type of ST with
    | context [match m_owner s with _ => _ end] => destruct (m_owner s) eqn:OW
    | context [if ?c then _ else _] => destruct c eqn:?
    end; try discriminate; injection ST as <- <-;
    repeat match goal with
    | H : (_ && _) = true |- _ => apply andb_true_iff in H; destruct H
    | H : Nat.eqb _ _ = true |- _ => apply Nat.eqb_eq in H; subst
    | H : Nat.eqb _ _ = false |- _ => apply Nat.eqb_neq in H
    end.

Lemma dinv_step d s tr t a s1 e :
  minv s tr -> dinv s -> disciplined (tr ++ e) -> m_step d s t a = Some (s1, e) ->
  dinv s1 /\ (forall u, e <> [Undefined u]).
Proof.
  intros (I1 & I2 & I3) D DI ST.
  msplit s t a ST PC OW;
  try (apply disciplined_last in DI);
  (split; [intros u; cbn [m_owner m_pc]|intros u; try discriminate]);
  pose proof (I1 t) as K1; pose proof (D t) as DT;
  try pose proof (D u) as DU;
  try rewrite PC in *; try rewrite OW in *; cbn [un_pc in_pc] in *;
  try (destruct (Nat.eq_dec u t) as [->|?];
    [rewrite ?fupd_same in *|rewrite ?fupd_other in * by assumption]);
  cbn [un_pc in_pc] in *; intuition congruence.
Qed.

Lemma run_inv_debug sch s tr : m_run true m_init sch = Some (s, tr) -> minv s tr.
Proof.
  apply (m_run_ind true minv).
  - repeat split; intros; discriminate.
  - intros s0 tr0 t a s1 e I ST. eapply minv_step; eauto.
    intros u ->. unfold m_step, m_owned_by in ST.
    destruct (m_pc s0 t), a, (m_owner s0); try discriminate;
    repeat match type of ST with context [if ?c then _ else _] => destruct c eqn:? end; discriminate.
Qed.

Lemma run_inv_disc d sch s tr : m_run d m_init sch = Some (s, tr) -> disciplined tr ->
  minv s tr /\ dinv s /\ (forall u, ~ In (Undefined u) tr).
Proof.
  revert sch s tr.
  refine (m_run_ind d (fun s tr => disciplined tr -> minv s tr /\ dinv s /\ (forall u, ~ In (Undefined u) tr)) _ _).
  - intros _. repeat split; intros; try discriminate. intros []. 
  - intros s tr t a s1 e IH ST D.
    destruct (IH (disciplined_prefix _ _ D)) as (I & J & K).
    destruct (dinv_step d s tr t a s1 e I J D ST) as [J1 NU].
    split; [eapply minv_step; eauto|split; [exact J1|]].
    intros u HI. apply in_app_or in HI as [HI|HI]; [eapply K; eauto|].
    clear - ST HI NU. 
    msplit s t a ST PC OW; cbn in HI; intuition (try discriminate);
    match goal with H : Undefined _ = Undefined _ |- _ => eapply NU; rewrite H; reflexivity end.
Qed.

(** ** The lock counter *)
Definition zsum (f : nat -> Z) (l : list nat) : Z := fold_right (fun t acc => f t + acc) 0 l.

Lemma zsum_ext f g l : (forall t, In t l -> f t = g t) -> zsum f l = zsum g l.
Proof.
  intros H; induction l as [|x l IH]; cbn [zsum fold_right]; auto.
  rewrite (H x) by now left. f_equal. apply IH. intros t Ht; apply H; now right.
Qed.

Lemma zsum_upd f g l t : NoDup l -> In t l -> (forall u, u <> t -> f u = g u) ->
  zsum f l = zsum g l + (f t - g t).
Proof.
  intros ND; induction ND as [|x l NI ND IH]; intros HI HF; [destruct HI|].
  cbn [zsum fold_right]. destruct HI as [->|HI].
  - assert (zsum f l = zsum g l).
    { apply zsum_ext. intros u Hu. apply HF. intros ->; auto. }
    unfold zsum in *. lia.
  - assert (x <> t) by (intros ->; auto). rewrite (HF x) by auto.
    specialize (IH HI HF). unfold zsum in *. lia.
Qed.

Lemma zsum_filter (p : nat -> bool) l : zsum (fun t => Z.b2z (p t)) l = Zlen (filter p l).
Proof.
  induction l as [|x l IH]; cbn [zsum fold_right filter]; [now znil|].
  unfold zsum in IH. rewrite IH. destruct (p x); cbn [Z.b2z]; [now rewrite Zlen_cons|lia].
Qed.

(** No thread is preempted between reading and writing the counter. *)
Definition storing (p : mpc) : bool := match p with LkStore _ | InStore _ | UnStore _ => true | _ => false end.
Definition uninterrupted (d : bool) (sch : list (nat * mact)) : Prop :=
  forall sch1 u a sch2 s tr t,
    sch = sch1 ++ (u, a) :: sch2 -> m_run d m_init sch1 = Some (s, tr) ->
    storing (m_pc s t) = true -> u = t.

Definition lk_pc (p : mpc) : bool := match p with LkLoad | LkStore _ | LkWait => true | _ => false end.

Definition assoc_val (p : mpc) (ins : bool) : Z :=
  match p with
  | Rest | TdWait => Z.b2z ins
  | LkLoad | LkStore _ | InLoad | InStore _ | UnPost => 0
  | LkWait | UnLoad | UnStore _ => 1
  end.
Definition store_val (p : mpc) : option Z :=
  match p with LkStore v | InStore v | UnStore v => Some v | _ => None end.

Record cinv (n : nat) (s : mst) (tr : list mev) : Prop := MkC {
  c_store : forall t v, store_val (m_pc s t) = Some v -> v = m_count s;
  c_lk : forall t, lk_pc (m_pc s t) = true -> insideb tr t = false;
  c_wait : forall t, waitingb tr t = lk_pc (m_pc s t);
  c_sum : m_count s = u32 (zsum (fun t => assoc_val (m_pc s t) (insideb tr t)) (seq 0 n));
  c_out : forall t, (n <= t)%nat -> m_pc s t = Rest /\ insideb tr t = false
}.

Lemma u32_u32_add a b : u32 (u32 a + b) = u32 (a + b).
Proof. unfold u32. now rewrite Zplus_mod_idemp_l. Qed.

Lemma storing_val p : storing p = true <-> exists v, store_val p = Some v.
Proof. destruct p; cbn; split; intros H; try discriminate; eauto; destruct H; discriminate. Qed.

Lemma cinv_step n d s tr t a s1 e :
  (t < n)%nat ->
  (forall u, storing (m_pc s u) = true -> u = t) ->
  minv s tr -> dinv s -> disciplined (tr ++ e) -> no_relock (tr ++ e) ->
  m_step d s t a = Some (s1, e) -> cinv n s tr -> cinv n s1 (tr ++ e).
Proof.
  intros Hn HS (I1 & I2 & I3) D DI NR ST C.
  assert (SUM : forall f g, (forall u, u <> t -> f u = g u) ->
            zsum f (seq 0 n) = zsum g (seq 0 n) + (f t - g t)).
  { intros f g H. apply zsum_upd; auto using seq_NoDup. apply in_seq. lia. }
  pose proof (I1 t) as K1. pose proof (I2 t) as K2. pose proof (I3 t) as K3.
  pose proof (D t) as DT. pose proof (c_store _ _ _ C t) as CS. pose proof (c_lk _ _ _ C t) as CL.
  pose proof (c_wait _ _ _ C t) as CW.
  pose proof (c_sum _ _ _ C) as CSum.
  msplit s t a ST PC OW;
  try (apply disciplined_last in DI); try (apply no_relock_last in NR);
  cbn [un_pc in_pc lk_pc store_val] in *;
  (split; [intros u w|intros u|intros u| |intros u Hu]); cbn [m_owner m_pc m_count];
  rewrite ?app_nil_r, ?insideb_snoc, ?waitingb_snoc; cbn [ev_in ev_wt].
  all: try (
    destruct (Nat.eq_dec u t) as [->|?];
    [rewrite ?fupd_same; rewrite ?Nat.eqb_refl; try lia; cbn [lk_pc store_val];
     try rewrite PC; cbn [lk_pc store_val]; try (specialize (CS _ eq_refl)); try specialize (K1 eq_refl); intuition congruence
    |rewrite ?fupd_other by assumption;
     replace (Nat.eqb t u) with false by (symmetry; apply Nat.eqb_neq; congruence);
     try apply (c_lk _ _ _ C); try apply (c_wait _ _ _ C); try apply (c_out _ _ _ C); auto;
     try (intros HV; assert (u = t) by (apply HS, storing_val; eauto); congruence)]).
  all: match goal with |- _ = u32 (zsum ?f _) =>
         rewrite (SUM f (fun t0 => assoc_val (m_pc s t0) (insideb tr t0)))
       end;
       [ rewrite ?fupd_same, ?PC, ?Nat.eqb_refl; cbn [assoc_val]
       | intros u Hu; rewrite ?insideb_snoc, ?fupd_other by assumption; cbn [ev_in];
         replace (Nat.eqb t u) with false by (symmetry; apply Nat.eqb_neq; congruence); reflexivity ].
  all: rewrite ?insideb_snoc; cbn [ev_in]; rewrite ?Nat.eqb_refl.
  all: destruct (insideb tr t) eqn:INS; cbn [Z.b2z].
  all: try (exfalso; try (specialize (K1 eq_refl)); try specialize (CL eq_refl);
            try specialize (K3 eq_refl); intuition congruence).
  all: try (rewrite CSum; f_equal; lia).
  all: try (rewrite <- u32_u32_add, <- CSum; rewrite (CS _ eq_refl); f_equal; lia).
  all: rewrite (CS _ eq_refl), CSum, u32_u32_add; f_equal; lia.
Qed.

Lemma cinv_init n : cinv n m_init [].
Proof.
  split; cbn; intros; try discriminate; auto.
  assert (forall l, zsum (fun t : nat => assoc_val Rest (insideb [] t)) l = 0) as ->; [|reflexivity].
  induction l as [|x l IH]; cbn [zsum fold_right]; auto.
Qed.

Lemma uninterrupted_prefix d a b : uninterrupted d (a ++ b) -> uninterrupted d a.
Proof. intros H sch1 u x sch2 s tr t -> R ST. eapply H; eauto. rewrite <- app_assoc. reflexivity. Qed.

Lemma cinv_run n d sch s tr :
  m_run d m_init sch = Some (s, tr) -> (forall t a, In (t, a) sch -> (t < n)%nat) ->
  uninterrupted d sch -> disciplined tr -> no_relock tr -> cinv n s tr.
Proof.
  revert s tr. induction sch as [|[t a] sch IH] using rev_ind; intros s tr R HB U DI NR.
  - injection R as <- <-. apply cinv_init.
  - rewrite m_run_app in R. destruct (m_run d m_init sch) as [[s1 e1]|] eqn:E; [|discriminate].
    cbn [m_run] in R. destruct (m_step d s1 t a) as [[s2 e2]|] eqn:E2; [|discriminate].
    injection R as <- <-. rewrite app_nil_r in *.
    destruct (run_inv_disc d sch s1 e1 E (disciplined_prefix _ _ DI)) as (I & J & _).
    eapply cinv_step; eauto.
    + eapply HB. apply in_or_app; right; now left.
    + intros u Hu. symmetry. eapply (U sch t a [] s1 e1 u); eauto.
    + apply IH; eauto using uninterrupted_prefix, disciplined_prefix, no_relock_prefix.
      intros; eapply HB; apply in_or_app; left; eauto.
Qed.

Lemma sched_bound (sch : list (nat * mact)) : exists n, forall t a, In (t, a) sch -> (t < n)%nat.
Proof.
  induction sch as [|[t a] sch [n IH]].
  - exists O. intros t a [].
  - exists (S (Nat.max t n)). intros u b [E|HI].
    + injection E as -> ->. lia.
    + specialize (IH _ _ HI). lia.
Qed.

(** Quiescent: no thread is in the middle of a member function, except blocked in lock(). *)
Definition quiescent (s : mst) : Prop := forall t, m_pc s t = Rest \/ m_pc s t = LkWait.

Lemma locks_count d sch s tr :
  m_run d m_init sch = Some (s, tr) -> uninterrupted d sch -> disciplined tr -> no_relock tr ->
  quiescent s ->
  exists l, NoDup l /\ (forall t, In t l <-> inside tr t \/ waiting tr t) /\ m_locks s = u32 (Zlen l).
Proof.
  intros R U DI NR Q. destruct (sched_bound sch) as [n HB].
  destruct (cinv_run n d sch s tr R HB U DI NR) as [CS CL CW CSum CO].
  exists (filter (fun t => insideb tr t || waitingb tr t) (seq 0 n)). split; [|split].
  - apply NoDup_filter, seq_NoDup.
  - intros t. rewrite filter_In, in_seq, orb_true_iff, <- insideb_spec, <- waitingb_spec.
    split; [tauto|]. intros H. split; auto. split; [lia|].
    destruct (le_lt_dec n t) as [L|L]; [|lia]. exfalso. destruct (CO t L) as [P I].
    rewrite insideb_spec, waitingb_spec, CW, P, I in H. cbn in H. intuition discriminate.
  - unfold m_locks. rewrite CSum. f_equal. rewrite <- zsum_filter. apply zsum_ext. intros t _.
    rewrite CW. destruct (Q t) as [P|P]; rewrite P; cbn [assoc_val lk_pc].
    + now rewrite orb_false_r.
    + now rewrite orb_true_r.
Qed.


(** ** Threadable *)
Definition is_launched (e : tev) : bool := match e with Launched => true | _ => false end.
Definition is_finished (e : tev) : bool := match e with Finished => true | _ => false end.
(** Workers executing runnable() according to the trace: launched minus finished. *)
Definition launched (tr : list tev) : nat := length (filter is_launched tr).
Definition finished (tr : list tev) : nat := length (filter is_finished tr).

Lemma launched_app a b : launched (a ++ b) = (launched a + launched b)%nat.
Proof. unfold launched. now rewrite filter_app, app_length. Qed.
Lemma finished_app a b : finished (a ++ b) = (finished a + finished b)%nat.
Proof. unfold finished. now rewrite filter_app, app_length. Qed.

Lemma t_run_app d s a b :
  t_run d s (a ++ b) =
  match t_run d s a with
  | None => None
  | Some (s1, e1) => match t_run d s1 b with None => None | Some (s2, e2) => Some (s2, e1 ++ e2) end
  end.
Proof.
  revert s; induction a as [|x a IH]; intros s; cbn [t_run app].
  - destruct (t_run d s b) as [[s2 e2]|]; auto.
  - destruct (t_step d s x) as [[s1 e1]|]; auto. rewrite IH.
    destruct (t_run d s1 a) as [[s2 e2]|]; auto.
    destruct (t_run d s2 b) as [[s3 e3]|]; auto. now rewrite app_assoc.
Qed.

(** All calls of start() come from one thread [c]; [ok] demands that thread creation succeeds. *)
Definition one_caller (c : nat) (ok : bool) (a : tact) : Prop :=
  match a with
  | TStart d => d = c
  | TGo d created => d = c /\ (ok = true -> created = true)
  | TWorkerDone => True
  end.

Record tinv (c : nat) (ok : bool) (s : tst) (tr : list tev) : Prop := MkTI {
  ti_busy : launched tr = (finished tr + t_busy s)%nat;
  ti_flag : t_flag s = false -> t_busy s = O;
  ti_set : t_pc s c = SSet -> t_flag s = false;
  ti_create : t_pc s c = SCreate -> t_flag s = true /\ t_busy s = O;
  ti_one : (t_busy s <= 1)%nat;
  ti_ok : ok = true -> t_flag s = true -> t_busy s = 1%nat \/ t_pc s c = SCreate
}.

Lemma tinv_step d c ok s tr a s1 e :
  tinv c ok s tr -> one_caller c ok a -> t_step d s a = Some (s1, e) -> tinv c ok s1 (tr ++ e).
Proof.
  intros [B F SE C ON K] OC ST.
  destruct a as [c0|c0 cr|]; cbn in OC; cbn [t_step] in ST.
  - subst c0. destruct (t_pc s c) eqn:PC; try discriminate. injection ST as <- <-.
    rewrite app_nil_r. split; cbn [t_flag t_pc t_busy]; rewrite ?fupd_same; auto; try discriminate.
    intros A H; destruct (K A H); [auto|discriminate].
  - destruct OC as [-> OK]. destruct (t_pc s c) eqn:PC; try discriminate.
    + destruct (t_flag s) eqn:FL; injection ST as <- <-;
      (split; cbn [t_flag t_pc t_busy]; rewrite ?fupd_same, ?launched_app, ?finished_app; cbn; auto; try discriminate; try lia).
      intros A H; destruct (K A H); [auto|discriminate].
    + injection ST as <- <-.
      (split; cbn [t_flag t_pc t_busy]; rewrite ?fupd_same, ?launched_app, ?finished_app; cbn; auto; try discriminate; try lia).
    + destruct (C eq_refl) as [C1 C2].
      destruct cr; injection ST as <- <-;
      split; cbn [t_flag t_pc t_busy]; rewrite ?fupd_same, ?launched_app, ?finished_app; cbn; auto;
        try discriminate; try (rewrite C1; discriminate); try (destruct d; cbn; lia); try lia.
  - destruct (t_busy s) as [|n] eqn:BU; [discriminate|]. injection ST as <- <-.
    assert (n = O) by lia. subst n.
    split; cbn [t_flag t_pc t_busy]; rewrite ?launched_app, ?finished_app; cbn; auto; try discriminate; try lia.
Qed.

Lemma tinv_run d c ok sch s tr : Forall (one_caller c ok) sch ->
  t_run d t_init sch = Some (s, tr) -> tinv c ok s tr.
Proof.
  revert s tr. induction sch as [|a sch IH] using rev_ind; intros s tr FA R.
  - injection R as <- <-. split; cbn; auto; try discriminate.
  - rewrite t_run_app in R. destruct (t_run d t_init sch) as [[s1 e1]|] eqn:E; [|discriminate].
    cbn [t_run] in R. destruct (t_step d s1 a) as [[s2 e2]|] eqn:E2; [|discriminate].
    injection R as <- <-. rewrite app_nil_r. apply Forall_app in FA as [FA F1].
    eapply tinv_step; eauto. now inversion F1.
Qed.

(** ** Thread *)
Definition is_created (e : hev) : bool := match e with Created => true | _ => false end.
Definition is_freed (e : hev) : bool := match e with TaskFreed => true | _ => false end.
Definition is_done (e : hev) : bool := match e with FunctionDone => true | _ => false end.
Definition hcount (p : hev -> bool) (tr : list hev) : nat := length (filter p tr).
Definition is_join (a : hact) : bool := match a with HJoin => true | _ => false end.

Lemma hcount_app p a b : hcount p (a ++ b) = (hcount p a + hcount p b)%nat.
Proof. unfold hcount. now rewrite filter_app, app_length. Qed.

(** A calm history: no cancel, thread creation succeeds, join called at most once. *)
Definition calm (sch : list hact) : Prop :=
  ~ In HCancel sch /\ ~ In (HStart false) sch /\ (length (filter is_join sch) <= 1)%nat.

Lemma calm_prefix a b : calm (a ++ b) -> calm a.
Proof.
  intros (A & B & C). rewrite filter_app, app_length in C.
  split; [|split]; try lia; intros H; [apply A|apply B]; apply in_or_app; now left.
Qed.

Lemma h_run_app d s a b :
  h_run d s (a ++ b) =
  match h_run d s a with
  | Some (Ok (s1, e1)) =>
      match h_run d s1 b with
      | Some (Ok (s2, e2)) => Some (Ok (s2, e1 ++ e2))
      | r => r
      end
  | r => r
  end.
Proof.
  revert s; induction a as [|x a IH]; intros s; cbn [h_run app].
  - destruct (h_run d s b) as [[[s2 e2]| |]|]; auto.
  - destruct (h_step d s x) as [[[s1 e1]| |]|]; auto. rewrite IH.
    destruct (h_run d s1 a) as [[[s2 e2]| |]|]; auto.
    destruct (h_run d s2 b) as [[[s3 e3]| |]|]; auto. now rewrite app_assoc.
Qed.

Definition live_pc (w : wpc) : bool := match w with WPrio | WCall | WRun | WDelete => true | _ => false end.
Definition done_pc (w : wpc) : bool := match w with WDelete | WExit => true | _ => false end.
Definition exit_pc (w : wpc) : bool := match w with WExit => true | _ => false end.
Definition none_pc (w : wpc) : bool := match w with WNone => true | _ => false end.

Record hinv (sch : list hact) (s : hst) (tr : list hev) : Prop := MkHI {
  hi_task : h_task s = h_started s;
  hi_none : none_pc (h_worker s) = negb (h_started s);
  hi_live : h_live s = live_pc (h_worker s);
  hi_pend : h_pending s = false;
  hi_join : h_joinreq s = true <-> In HJoin sch;
  hi_reap : h_reaped s = true -> h_obj s = OGone \/ h_joinreq s = true;
  hi_reap2 : h_obj s = OJoin -> h_reaped s = false;
  hi_reap3 : h_reaped s = true -> h_obj s = OGone \/ h_worker s = WExit;
  hi_wait : h_obj s = OJoin -> h_started s = true /\ h_joinreq s = true;
  hi_created : hcount is_created tr = Nat.b2n (h_started s);
  hi_freed : hcount is_freed tr = Nat.b2n (exit_pc (h_worker s));
  hi_done : hcount is_done tr = Nat.b2n (done_pc (h_worker s));
  hi_joinret : forall tr1 tr2, tr = tr1 ++ JoinRet :: tr2 -> hcount is_created tr1 = 1%nat ->
               hcount is_done tr1 = 1%nat /\ hcount is_freed tr1 = 1%nat
}.

Lemma filter_join_in sch : filter is_join sch = [] <-> ~ In HJoin sch.
Proof.
  induction sch as [|a sch IH]; cbn; [tauto|].
  destruct a; cbn; try (rewrite IH; intuition discriminate); intuition discriminate.
Qed.

Lemma split_snoc {A} (a : list A) e c x d : a ++ e = c ++ x :: d ->
  ~ In x e -> exists d1, a = c ++ x :: d1.
Proof.
  intros E N. destruct (app_eq_split _ _ _ _ _ E) as [H|[c1 [-> ->]]]; auto.
  exfalso; apply N. apply in_or_app; right; now left.
Qed.

Ltac hfin JI J JRK d :=
  unfold h_set_worker in *;
  cbn [h_task h_started h_joinreq h_live h_worker h_pending h_reaped h_obj] in *;
  rewrite ?hcount_app;
  repeat match goal with
  | H : h_obj ?s = _ |- context [h_obj ?s] => rewrite H
  | H : h_started ?s = _ |- context [h_started ?s] => rewrite H
  end;
  try (rewrite JI by discriminate; exact J);
  try (apply JRK; destruct d; cbn; intuition discriminate);
  try (destruct d; cbn in *; lia); try discriminate; try (cbn in *; intuition congruence).

Lemma hinv_step d sch s tr a :
  hinv sch s tr -> calm (sch ++ [a]) ->
  match h_step d s a with
  | Some (Ok (s1, e)) => hinv (sch ++ [a]) s1 (tr ++ e)
  | Some _ => False
  | None => True
  end.
Proof.
  intros I (NC & NS & NJ).
  assert (NJ2 : a = HJoin -> ~ In HJoin sch).
  { intros -> H. rewrite filter_app, app_length in NJ. cbn in NJ.
    assert (filter is_join sch = []) by (destruct (filter is_join sch); [auto|cbn in NJ; lia]).
    apply filter_join_in in H0. auto. }
  assert (JI : a <> HJoin -> (In HJoin (sch ++ [a]) <-> In HJoin sch)).
  { intros N. rewrite in_app_iff. cbn. intuition. }
  destruct I as [T N L P J R R2 R3 W C F D JR].
  assert (JRK : forall e, ~ In JoinRet e -> forall tr1 tr2, tr ++ e = tr1 ++ JoinRet :: tr2 ->
            hcount is_created tr1 = 1%nat -> hcount is_done tr1 = 1%nat /\ hcount is_freed tr1 = 1%nat).
  { intros e NI tr1 tr2 E. destruct (split_snoc _ _ _ _ _ E NI) as [d1 Q]. eapply JR; eauto. }
  destruct a; cbn [h_step].
  - (* start *)
    destruct (h_obj s) eqn:OB; auto.
    destruct created; [|exfalso; apply NS; apply in_or_app; right; now left].
    destruct (h_started s) eqn:SR.
    + split; hfin JI J JRK d.
    + destruct (h_worker s) eqn:WK; cbn in N; try discriminate.
      split; hfin JI J JRK d.
  - (* join *)
    destruct (h_obj s) eqn:OB; auto.
    assert (JF : h_joinreq s = false).
    { destruct (h_joinreq s) eqn:Q; auto. exfalso. apply NJ2; auto. now apply J. }
    assert (RF : h_reaped s = false).
    { destruct (h_reaped s) eqn:Q; auto. destruct (R eq_refl); congruence. }
    assert (JT : true = true <-> In HJoin (sch ++ [HJoin])).
    { split; auto. intros _. apply in_or_app; right; now left. }
    destruct (h_task s) eqn:TK; rewrite ?RF.
    + split; hfin JI JT JRK d.
    + split; hfin JI JT JRK d.
      intros tr1 tr2 E HC. destruct (app_eq_split _ _ _ _ _ E) as [[d1 Q]|[c1 [-> Q]]].
      { eapply JR; eauto. }
      exfalso. destruct c1 as [|y c1]; [|destruct c1; discriminate Q].
      rewrite app_nil_r in HC. rewrite <- T in C. cbn in C. lia.
  - (* joined *)
    destruct (h_obj s) eqn:OB; auto. destruct (h_worker s) eqn:WK; auto.
    split; hfin JI J JRK d.
    intros tr1 tr2 E HC. destruct (app_eq_split _ _ _ _ _ E) as [[d1 Q]|[c1 [-> Q]]].
    { eapply JR; eauto. }
    destruct c1 as [|y c1]; [|destruct c1; discriminate Q].
    rewrite app_nil_r. rewrite D, F. auto.
  - exfalso. apply NC. apply in_or_app; right; now left.
  - (* destroy *)
    destruct (h_obj s) eqn:OB; auto.
    destruct (h_started s) eqn:SR; cbn [andb negb].
    + destruct (h_joinreq s) eqn:JQ; cbn [negb].
      * split; hfin JI J JRK d.
      * assert (RF : h_reaped s = false).
        { destruct (h_reaped s) eqn:Q; auto. destruct (R eq_refl); congruence. }
        destruct (h_worker s) eqn:WK; cbn in N; try discriminate; rewrite RF;
        (split; hfin JI J JRK d).
    + split; hfin JI J JRK d.
  - (* isRunning *)
    destruct (h_obj s) eqn:OB; auto.
    split; hfin JI J JRK d.
  - (* worker *)
    unfold h_free.
    destruct (h_worker s) eqn:WK; auto; cbn in L; rewrite ?L; cbn [bind];
    (split; hfin JI J JRK d).
  - rewrite P. destruct (h_worker s); auto.
Qed.

Lemma hinv_init : hinv [] h_init [].
Proof.
  split; cbn; auto; try discriminate; try tauto.
  - intuition discriminate.
  - intros tr1 tr2 E. destruct tr1; discriminate.
Qed.

Lemma hinv_run d sch : calm sch ->
  match h_run d h_init sch with
  | Some (Ok (s, tr)) => hinv sch s tr
  | Some _ => False
  | None => True
  end.
Proof.
  induction sch as [|a sch IH] using rev_ind; intros CA; [apply hinv_init|].
  specialize (IH (calm_prefix _ _ CA)). rewrite h_run_app.
  destruct (h_run d h_init sch) as [[[s1 e1]| |]|]; auto. cbn [h_run].
  pose proof (hinv_step d sch s1 e1 a IH CA) as H.
  destruct (h_step d s1 a) as [[[s2 e2]| |]|]; auto. now rewrite app_nil_r.
Qed.

(** After a cancel that reached the thread inside its function, as long as the thread does not
    return from the function. *)
Record hcinv (s : hst) : Prop := MkHC {
  hc_task : h_task s = false;
  hc_started : h_started s = true;
  hc_obj : h_obj s <> OJoin;
  hc_reap : h_reaped s = true -> h_obj s = OGone;
  hc_live : h_live s = false;
  hc_worker : h_worker s = WRun \/ h_worker s = WExit
}.

Lemma hcinv_step d s a : hcinv s -> a <> HWork ->
  match h_step d s a with
  | Some (Ok (s1, e)) => hcinv s1 /\ hcount is_freed e = O
  | Some _ => False
  | None => True
  end.
Proof.
  intros [T ST OJ R L W] NW. destruct a; cbn [h_step]; try congruence.
  - destruct (h_obj s) eqn:OB; auto. rewrite ST. split; [split; cbn; rewrite ?OB; auto; congruence|destruct d; reflexivity].
  - destruct (h_obj s) eqn:OB; auto. rewrite T. split; [split; cbn; rewrite ?OB; auto; congruence|reflexivity].
  - destruct (h_obj s) eqn:OB; try congruence; auto.
  - destruct (h_obj s) eqn:OB; auto. rewrite T.
    assert (h_reaped s = false) as -> by (destruct (h_reaped s); auto; specialize (R eq_refl); congruence).
    destruct W as [W|W]; rewrite W; (split; [split; cbn; rewrite ?OB; auto; congruence|reflexivity]).
  - destruct (h_obj s) eqn:OB; auto. rewrite ST.
    assert (RF : h_reaped s = false) by (destruct (h_reaped s); auto; specialize (R eq_refl); congruence).
    rewrite RF.
    destruct (h_joinreq s); cbn [andb negb];
    destruct W as [W|W]; rewrite W; (split; [split; cbn; rewrite ?OB; auto; congruence|reflexivity]).
  - destruct (h_obj s) eqn:OB; auto. split; [split; cbn; rewrite ?OB; auto; congruence|reflexivity].
  - destruct W as [W|W]; rewrite W; auto. destruct (h_pending s); auto.
    split; [split; cbn; auto; congruence|reflexivity].
Qed.

Lemma hcinv_run d sch : forall s, hcinv s -> ~ In HWork sch ->
  match h_run d s sch with
  | Some (Ok (s1, tr)) => hcinv s1 /\ hcount is_freed tr = O
  | Some _ => False
  | None => True
  end.
Proof.
  induction sch as [|a sch IH]; intros s I NW; cbn [h_run]; [split; auto|].
  pose proof (hcinv_step d s a I) as H.
  destruct (h_step d s a) as [[[s1 e1]| |]|]; auto;
    try (apply H; intros ->; apply NW; now left).
  destruct H as [I1 E1]; [intros ->; apply NW; now left|].
  specialize (IH s1 I1). destruct (h_run d s1 sch) as [[[s2 e2]| |]|]; auto;
    try (apply IH; intros Q; apply NW; now right).
  destruct IH as [I2 E2]; [intros Q; apply NW; now right|]. rewrite hcount_app. split; auto; lia.
Qed.

(** Executable checks of the client conditions, for concrete examples. *)
Fixpoint disc_from (pre tr : list mev) : bool :=
  match tr with
  | [] => true
  | e :: r => (match e with UnlockCalled t => insideb pre t | _ => true end) && disc_from (pre ++ [e]) r
  end.
Fixpoint relock_from (pre tr : list mev) : bool :=
  match tr with
  | [] => true
  | e :: r => (match e with LockCalled t => negb (insideb pre t) | _ => true end) && relock_from (pre ++ [e]) r
  end.

Lemma disc_check tr : disc_from [] tr = true -> disciplined tr.
Proof.
  intros H tr1 t tr2 E. apply insideb_spec.
  enough (G : forall tr pre tr1 t tr2, disc_from pre tr = true -> tr = tr1 ++ UnlockCalled t :: tr2 ->
                insideb (pre ++ tr1) t = true) by exact (G tr [] tr1 t tr2 H E).
  clear. induction tr as [|e tr IH]; intros pre tr1 t tr2 H E; [destruct tr1; discriminate|].
  cbn [disc_from] in H. apply andb_true_iff in H as [H1 H2].
  destruct tr1 as [|x tr1]; cbn in E; injection E as -> E.
  - now rewrite app_nil_r.
  - specialize (IH _ _ _ _ H2 E). now rewrite <- app_assoc in IH.
Qed.

Lemma relock_check tr : relock_from [] tr = true -> no_relock tr.
Proof.
  intros H tr1 t tr2 E HI. apply insideb_spec in HI.
  enough (G : forall tr pre tr1 t tr2, relock_from pre tr = true -> tr = tr1 ++ LockCalled t :: tr2 ->
                insideb (pre ++ tr1) t = false) by (pose proof (G tr [] tr1 t tr2 H E) as Q; cbn [app] in Q; congruence).
  clear. induction tr as [|e tr IH]; intros pre tr1 t tr2 H E; [destruct tr1; discriminate|].
  cbn [relock_from] in H. apply andb_true_iff in H as [H1 H2].
  destruct tr1 as [|x tr1]; cbn in E; injection E as -> E.
  - rewrite app_nil_r. now apply negb_true_iff in H1.
  - specialize (IH _ _ _ _ H2 E). now rewrite <- app_assoc in IH.
Qed.
