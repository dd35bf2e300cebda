(** Emission and refinement of sigslots to the set of connections. *)
From Coq Require FinFun.
From Verif Require Import Base SigModel SigProofs.
Open Scope Z_scope.

(** * Specification: who is reached, how *)
Inductive Route (P S : Z -> str -> Prop) (K : Z -> kind) : Z -> route -> Prop :=
| R_call s t x k : P s t -> S x t -> K x = Call k -> Route P S K s [(t, x)]
| R_relay s t x r : P s t -> S x t -> K x = Relay -> Route P S K x r -> Route P S K s ((t, x) :: r).

(** * Emission *)
Definition weq (w w' : world) : Prop := topics w' = topics w /\ next w' = next w /\ vars w' = vars w /\ forall x, heap w' x = heap w x.
Lemma weq_refl w : weq w w. Proof. unfold weq. auto. Qed.
Lemma weq_trans w1 w2 w3 : weq w1 w2 -> weq w2 w3 -> weq w1 w3.
Proof. intros (A1 & A2 & A3 & A4) (B1 & B2 & B3 & B4). unfold weq. repeat split; try congruence. Qed.
(** Locked exactly while processing. *)
Definition lockOK (w : world) : Prop := forall a s, heap w a = Some s -> 0 <= cnt s /\ locked s = (0 <? cnt s).
Lemma weq_lockOK w w' : weq w w' -> lockOK w -> lockOK w'.
Proof. intros (_ & _ & _ & H) L a s E. rewrite H in E. exact (L a s E). Qed.
Lemma weq_Inv w w' : weq w w' -> Inv w -> Inv w'.
Proof.
  intros (T & N & _ & H) [I1 I2 I3]. constructor.
  - rewrite T, N. exact I1.
  - intros a s E. rewrite H in E. rewrite T. auto.
  - intros a n E. rewrite T in E. rewrite H. eauto.
Qed.
Lemma lock_Inv w a s c l : Inv w -> heap w a = Some s -> Inv (set_heap w a (Some (set_lock s c l))).
Proof.
  intros [I1 I2 I3] E. constructor; cbn [topics next heap set_heap].
  - exact I1.
  - intros x s' E'. destruct (Z.eq_dec x a) as [->|N]; [|rewrite hput_ne in E' by exact N; auto]. rewrite hput_eq in E'. injection E' as <-. exact (I2 _ _ E).
  - intros x n Hx. destruct (Z.eq_dec x a) as [->|N]; [rewrite hput_eq; discriminate|rewrite hput_ne by exact N; eauto].
Qed.

Definition tagged (path : route) (d : Z) (r : route) : call := (path ++ r, d).
Lemma each_ok {A B} (tag : route -> option B) (key : A -> B) (M : A -> route -> Prop) (f : world -> A -> res (world * list call)) w path d :
  forall l, NoDup (map key l) -> (forall x r, In x l -> M x r -> tag r = Some (key x)) ->
  (forall x w', In x l -> weq w w' -> exists w'' evs, f w' x = Ok (w'', map (tagged path d) evs) /\ weq w w'' /\ NoDup evs /\ forall r, In r evs <-> M x r) ->
  forall w', weq w w' -> exists w'' evs, each f w' l = Ok (w'', map (tagged path d) evs) /\ weq w w'' /\ NoDup evs /\
    forall r, In r evs <-> exists x, In x l /\ M x r.
Proof.
  induction l as [|x l IH]; intros HN HT HF w' HW.
  - exists w', []. split; [reflexivity|]. split; [exact HW|]. split; [constructor|]. intros r. split; [intros []|intros (x & [] & _)].
  - cbn [map] in HN. inversion HN; subst. destruct (HF x w' (or_introl eq_refl) HW) as (w1 & e1 & F1 & W1 & N1 & I1).
    destruct (IH H2) with (w' := w1) as (w2 & e2 & F2 & W2 & N2 & I2); [intros; apply HT; [right|]; assumption|intros; apply HF; [right|]; assumption|exact W1|].
    exists w2, (e1 ++ e2). cbn [each]. rewrite F1. cbn [bind fst snd]. rewrite F2. cbn [bind fst snd]. rewrite map_app. split; [reflexivity|]. split; [exact W2|]. split.
    + clear F1 F2. assert (HD : forall r, In r e1 -> ~ In r e2).
      { intros r G1 G2. apply I1 in G1. apply I2 in G2. destruct G2 as (y & Y1 & Y2).
        pose proof (HT x r (or_introl eq_refl) G1) as T1. pose proof (HT y r (or_intror Y1) Y2) as T2. rewrite T1 in T2. injection T2 as T2.
        apply H1. rewrite T2. apply in_map. exact Y1. }
      clear I1. induction e1 as [|r e1 IHe]; [exact N2|]. inversion N1; subst. cbn [app]. constructor.
      * rewrite in_app_iff. intros [G|G]; [contradiction|]. apply (HD r); [left; reflexivity|exact G].
      * apply IHe; [assumption|]. intros q G. apply HD. right. exact G.
    + intros r. rewrite in_app_iff, I1, I2. split.
      * intros [G|(y & Y1 & Y2)]; [exists x; split; [left; reflexivity|exact G]|exists y; split; [right; exact Y1|exact Y2]].
      * intros (y & [<-|Y1] & Y2); [left; exact Y2|right; exists y; auto].
Qed.

Definition kinds (w : world) (K : Z -> kind) : Prop := forall x s, heap w x = Some s -> skind s = K x.
(** The routes that continue at a receiver. *)
Definition Cont (P S : Z -> str -> Prop) (K : Z -> kind) (x : Z) (r : route) : Prop :=
  match K x with Call _ => r = [] | Relay => Route P S K x r end.
Lemma Route_inv P S K s r : Route P S K s r <-> exists t x r', r = (t, x) :: r' /\ P s t /\ S x t /\ Cont P S K x r'.
Proof.
  unfold Cont. split.
  - intros H. destruct H as [s t x k H1 H2 H3|s t x r H1 H2 H3 H4]; [exists t, x, []|exists t, x, r]; rewrite H3; auto.
  - intros (t & x & r' & -> & H1 & H2 & H3). destruct (K x) eqn:E; [eapply R_relay; eauto|]. subst r'. eapply R_call; eauto.
Qed.

Lemma emit_ok (P S : Z -> str -> Prop) (K : Z -> kind) (rk : Z -> nat) (d : Z) : (forall s t x, P s t -> S x t -> K x = Relay -> (rk x < rk s)%nat) ->
  forall depth w a path s, (rk a < depth)%nat -> Inv w -> lockOK w -> kinds w K -> heap w a = Some s ->
  (forall b m, inP (topics w) b m <-> P b m) -> (forall b m, inS (topics w) b m <-> S b m) ->
  exists w' evs, emit depth w a d path = Ok (w', map (tagged path d) evs) /\ weq w w' /\ NoDup evs /\ forall r, In r evs <-> Route P S K a r.
Proof.
  intros HR. induction depth as [|depth IH]; intros w a path s Hd HI HL HK HA HP HS; [lia|].
  cbn [emit]. unfold deref at 1. rewrite HA. cbn [bind]. destruct (i_ss _ HI _ _ HA) as (N1 & N2 & H1 & H2 & H3).
  destruct (each_ok (fun r => match r with (t, _) :: _ => Some t | [] => None end) (@fst str Z)
    (fun p r => exists x r', r = (fst p, x) :: r' /\ S x (fst p) /\ Cont P S K x r')
    (fun w p => match tnode (snd p) (topics w) with None => UB
       | Some t => each (fun w x => process (emit depth) w x d (path ++ [(fst p, x)])) w (tsub t) end) w path d (pubs s) N2) with (w' := w) as (w' & evs & E & W & N & I).
  - intros p r _ (x & r' & -> & _). reflexivity.
  - intros [n i] w1 Hp W1. cbn [fst snd]. destruct (H3 _ _ Hp) as (t & Ft & Fi). pose proof W1 as (T1 & _ & _ & G1). rewrite T1.
    rewrite <- Fi, (tfind_node _ _ _ _ (i_ok _ HI) Ft).
    destruct (tfind_ok _ _ _ _ (i_ok _ HI) Ft) as [(_ & NS & _) _].
    destruct (each_ok (fun r => match r with (_, x) :: _ => Some x | [] => None end) (fun x : Z => x)
      (fun x r => exists r', r = (n, x) :: r' /\ Cont P S K x r')
      (fun w x => process (emit depth) w x d (path ++ [(n, x)])) w path d (tsub t)) with (w' := w1) as (w2 & evs & E & W & N & I).
    + rewrite map_id. exact NS.
    + intros x r _ (r' & -> & _). reflexivity.
    + intros x w2 Hx W2. assert (SX : inS (topics w) x n) by (exists t; auto).
      destruct (heap w x) as [sx|] eqn:EX; [|exfalso; apply (i_live _ HI x n); auto].
      pose proof (weq_Inv _ _ W2 HI) as I2. pose proof (weq_lockOK _ _ W2 HL) as L2. destruct W2 as (T2 & X2 & V2 & G2).
      unfold process, deref. rewrite G2, EX. cbn [bind]. destruct (L2 x sx ltac:(rewrite G2; exact EX)) as [C1 C2].
      assert (BK : set_lock (set_lock sx (cnt sx + 1) true) (cnt sx + 1 - 1) (if cnt sx + 1 - 1 =? 0 then false else true) = sx).
      { destruct sx as [k su pu ha c lo]. unfold set_lock. cbn [skind subs pubs handles cnt locked] in *. replace (c + 1 - 1) with c by lia. rewrite C2.
        f_equal. destruct (c =? 0) eqn:E0; destruct (0 <? c) eqn:E1; auto; lia. }
      set (w3 := set_heap w2 x (Some (set_lock sx (cnt sx + 1) true))).
      destruct (skind sx) as [|k] eqn:EK.
      * assert (KX : K x = Relay) by (rewrite <- EK; symmetry; apply HK; exact EX).
        destruct (IH w3 x (path ++ [(n, x)]) (set_lock sx (cnt sx + 1) true)) as (w4 & evs & E & W & N & I).
        -- assert (rk x < rk a)%nat; [|lia]. eapply HR; [apply HP; apply H2; apply (in_map fst) in Hp; exact Hp|apply HS; exact SX|exact KX].
        -- apply lock_Inv; [exact I2|rewrite G2; exact EX].
        -- intros y sy Ey. unfold w3 in Ey. cbn [heap set_heap] in Ey. destruct (Z.eq_dec y x) as [->|Ny].
           ++ rewrite hput_eq in Ey. injection Ey as <-. cbn [cnt locked set_lock]. split; [lia|]. symmetry. apply Z.ltb_lt. lia.
           ++ rewrite hput_ne in Ey by exact Ny. exact (L2 y sy Ey).
        -- intros y sy Ey. unfold w3 in Ey. cbn [heap set_heap] in Ey. destruct (Z.eq_dec y x) as [->|Ny].
           ++ rewrite hput_eq in Ey. injection Ey as <-. cbn. congruence.
           ++ rewrite hput_ne, G2 in Ey by exact Ny. exact (HK y sy Ey).
        -- unfold w3. cbn [heap set_heap]. apply hput_eq.
        -- intros b m. unfold w3. cbn [topics set_heap]. rewrite T2. apply HP.
        -- intros b m. unfold w3. cbn [topics set_heap]. rewrite T2. apply HS.
        -- rewrite E. cbn [bind fst snd]. destruct W as (T4 & X4 & V4 & G4). rewrite G4. unfold w3 at 1. cbn [heap set_heap]. rewrite hput_eq. cbn [bind cnt locked].
           eexists _, (map (cons (n, x)) evs). split; [f_equal; f_equal; rewrite map_map; apply map_ext; intros r; unfold tagged; rewrite <- app_assoc; reflexivity|].
           split; [|split].
           ++ unfold weq. cbn [topics next vars set_heap heap]. cbn [topics next vars set_heap w3] in T4, X4, V4. repeat split; try congruence.
              intros y. destruct (Z.eq_dec y x) as [->|Ny]; [rewrite hput_eq, EX; f_equal; exact BK|]. rewrite hput_ne, G4 by exact Ny. unfold w3. cbn [heap set_heap].
              rewrite hput_ne by exact Ny. apply G2.
           ++ apply FinFun.Injective_map_NoDup; [intros p q F; injection F; auto|exact N].
           ++ intros r. rewrite in_map_iff. unfold Cont. rewrite KX. split.
              ** intros (r' & <- & G). exists r'. split; [reflexivity|]. apply I. exact G.
              ** intros (r' & -> & G). exists r'. split; [reflexivity|]. apply I. exact G.
      * assert (KX : K x = Call k) by (rewrite <- EK; symmetry; apply HK; exact EX). cbn [bind fst snd]. unfold w3 at 1. cbn [heap set_heap]. rewrite hput_eq. cbn [bind cnt locked].
        eexists _, [[(n, x)]]. split; [reflexivity|]. split; [|split].
        -- unfold weq, w3. cbn [topics next vars set_heap heap]. repeat split; auto.
           intros y. destruct (Z.eq_dec y x) as [->|Ny]; [rewrite hput_eq, EX; f_equal; exact BK|]. rewrite !hput_ne by exact Ny. apply G2.
        -- constructor; [intros []|constructor].
        -- intros r. unfold Cont. rewrite KX. cbn [In]. split; [intros [<-|[]]; exists []; auto|intros (r' & -> & ->); auto].
    + exact W1.
    + exists w2, evs. split; [exact E|]. split; [exact W|]. split; [exact N|]. intros r. rewrite I. split.
      * intros (x & X1 & r' & -> & X2). exists x, r'. split; [reflexivity|]. split; [apply HS; exists t; auto|exact X2].
      * intros (x & r' & -> & X1 & X2). apply HS in X1. destruct X1 as (t' & Ft' & X1). assert (t' = t) as -> by congruence. exists x. split; [exact X1|]. exists r'. auto.
  - apply weq_refl.
  - exists w', evs. split; [exact E|]. split; [exact W|]. split; [exact N|]. intros r. rewrite I, Route_inv. split.
    + intros ([n i] & X1 & x & r' & -> & X2 & X3). exists n, x, r'. split; [reflexivity|]. split; [apply HP; apply H2; apply (in_map fst) in X1; exact X1|auto].
    + intros (n & x & r' & -> & X1 & X2 & X3). apply HP, H2, in_map_iff in X1. destruct X1 as ([n' i] & X0 & X1). cbn in X0. subst n'. exists (n, i). split; [exact X1|]. exists x, r'. auto.
Qed.

(** * The connections a program has made: specification *)
Record conns := mkC { own : Z -> option Z; ckind : Z -> kind; cP : Z -> str -> Prop; cS : Z -> str -> Prop }.
Definition c0 : conns := mkC (fun _ => None) (fun _ => Relay) (fun _ _ => False) (fun _ _ => False).
(** Signal/slot objects own connections; a connection lasts as long as somebody owns it. *)
Definition cstep (c : conns) (o : op) : conns :=
  match o with
  | ONew v a k => mkC (fun u => if u =? v then Some a else own c u) (fun b => if b =? a then k else ckind c b) (cP c) (cS c)
  | OSignal v n => mkC (own c) (ckind c) (fun b m => cP c b m \/ (own c v = Some b /\ m = n)) (cS c)
  | OSlot v n => mkC (own c) (ckind c) (cP c) (fun b m => cS c b m \/ (own c v = Some b /\ m = n))
  | ODisc v => mkC (own c) (ckind c) (fun b m => cP c b m /\ own c v <> Some b) (fun b m => cS c b m /\ own c v <> Some b)
  | OCopy v u => mkC (fun x => if x =? u then own c v else own c x) (ckind c) (cP c) (cS c)
  | OAssign v u => c
  | ODestroy v => let own' := fun u => if u =? v then None else own c u in
                  mkC own' (ckind c) (fun b m => cP c b m /\ exists u, own' u = Some b) (fun b m => cS c b m /\ exists u, own' u = Some b)
  | OEmit v d => c
  end.
(** Signals passing signals on in a circle never stop: there must be an order. *)
Definition ranked (c : conns) (rk : Z -> nat) : Prop := forall s t x, cP c s t -> cS c x t -> ckind c x = Relay -> (rk x < rk s)%nat.
(** What a program may do: use objects that exist; fresh memory for new ones; assignment only between copies of the
    same signal or slot; not disconnect while the only member of a topic in both roles; emit without circles. *)
Definition legal (depth : nat) (c : conns) (o : op) : Prop :=
  match o with
  | ONew v a k => own c v = None /\ forall u, own c u <> Some a
  | OSignal v n => exists a, own c v = Some a /\ ckind c a = Relay
  | OSlot v n => exists a, own c v = Some a
  | ODisc v => exists a, own c v = Some a /\ ~ exists n, lonely (cP c) (cS c) a n
  | OCopy v u => own c v <> None /\ own c u = None
  | OAssign v u => own c v <> None /\ own c u = own c v
  | ODestroy v => exists a, own c v = Some a /\ ((exists u, u <> v /\ own c u = Some a) \/ ~ exists n, lonely (cP c) (cS c) a n)
  | OEmit v d => exists a rk, own c v = Some a /\ ckind c a = Relay /\ ranked c rk /\ (rk a < depth)%nat
  end.
Fixpoint good (depth : nat) (c : conns) (l : list op) : Prop :=
  match l with [] => True | o :: r => legal depth c o /\ good depth (cstep c o) r end.
Fixpoint after (c : conns) (l : list op) : conns := match l with [] => c | o :: r => after (cstep c o) r end.
(** What one emission must do: one invocation per route, with the data. *)
Definition reaches (c : conns) (a d : Z) (evs : list call) : Prop :=
  NoDup evs /\ forall r x, In (r, x) evs <-> Route (cP c) (cS c) (ckind c) a r /\ x = d.
Fixpoint outputs (c : conns) (l : list op) (outs : list (list call)) : Prop :=
  match l with
  | [] => outs = []
  | OEmit v d :: r => exists a evs outs', own c v = Some a /\ outs = evs :: outs' /\ reaches c a d evs /\ outputs c r outs'
  | o :: r => outputs (cstep c o) r outs
  end.

(** * Refinement *)
Definition cntv (a : Z) (l : list (Z * Z)) : Z := Zlen (filter (fun p => snd p =? a) l).
Lemma cntv_cons a u b l : cntv a ((u, b) :: l) = (if b =? a then 1 else 0) + cntv a l.
Proof. unfold cntv. cbn [filter snd]. destruct (b =? a); [rewrite Zlen_cons; lia|lia]. Qed.
Lemma cntv_nonneg a l : 0 <= cntv a l. Proof. apply Zlen_nonneg. Qed.
Lemma vfind_None v l : vfind v l = None <-> ~ In v (map fst l).
Proof.
  induction l as [|[u b] l IH]; cbn [vfind map In fst]; [tauto|]. destruct (v =? u) eqn:E; [apply Z.eqb_eq in E; subst; split; [discriminate|intros F; exfalso; auto]|].
  rewrite IH. apply Z.eqb_neq in E. intuition congruence.
Qed.
Lemma cntv_zero a l : NoDup (map fst l) -> (cntv a l = 0 <-> forall u, vfind u l <> Some a).
Proof.
  induction l as [|[u b] l IH]; intros HN; [split; [intros _ v; discriminate|reflexivity]|]. cbn [map fst] in HN. inversion HN; subst. rewrite cntv_cons. pose proof (cntv_nonneg a l).
  destruct (b =? a) eqn:E.
  - split; [lia|]. intros F. exfalso. apply (F u). cbn [vfind]. rewrite Z.eqb_refl. f_equal. lia.
  - rewrite Z.add_0_l, IH by assumption. cbn [vfind]. split; intros F v; specialize (F v).
    + destruct (v =? u); [intros G; injection G; lia|exact F].
    + destruct (v =? u) eqn:G; [|exact F]. apply Z.eqb_eq in G. subst v. apply vfind_None in H1. rewrite H1. discriminate.
Qed.
Lemma vfind_vdel v l u : vfind u (vdel v l) = if u =? v then None else vfind u l.
Proof.
  induction l as [|[x b] l IH]; cbn [vdel filter vfind fst]; [destruct (u =? v); reflexivity|].
  fold (vdel v l). destruct (x =? v) eqn:E; cbn [negb].
  - rewrite IH. destruct (u =? v) eqn:F; [reflexivity|]. replace (u =? x) with false by lia. reflexivity.
  - cbn [vfind]. rewrite IH. destruct (u =? x) eqn:G; [|reflexivity]. replace (u =? v) with false by lia. reflexivity.
Qed.
Lemma cntv_vdel v l a b : NoDup (map fst l) -> vfind v l = Some a -> cntv b (vdel v l) = cntv b l - (if b =? a then 1 else 0).
Proof.
  induction l as [|[x y] l IH]; intros HN HV; [discriminate|]. cbn [map fst] in HN. inversion HN; subst. cbn [vfind] in HV. cbn [vdel filter fst]. fold (vdel v l).
  rewrite cntv_cons. destruct (v =? x) eqn:E.
  - apply Z.eqb_eq in E. subst x. injection HV as ->. rewrite Z.eqb_refl. cbn [negb].
    assert (HD : vdel v l = l). { clear - H1. induction l as [|[x y] l IH]; [reflexivity|]. cbn [vdel filter fst map] in *. fold (vdel v l). destruct (x =? v) eqn:F; [exfalso; apply H1; left; lia|]. cbn [negb]. f_equal. apply IH. intros G. apply H1. right. exact G. }
    rewrite HD, (Z.eqb_sym b a). destruct (a =? b); lia.
  - replace (x =? v) with false by lia. cbn [negb]. rewrite cntv_cons, IH by assumption. lia.
Qed.

Record Rel (w : world) (c : conns) : Prop := mkRel {
  r_inv : Inv w;
  r_idle : idle w;
  r_dup : NoDup (map fst (vars w));
  r_own : forall v, vfind v (vars w) = own c v;
  r_hand : forall a s, heap w a = Some s -> handles s = cntv a (vars w);
  r_live : forall a, heap w a <> None <-> exists v, own c v = Some a;
  r_kind : kinds w (ckind c);
  r_P : forall b m, inP (topics w) b m <-> cP c b m;
  r_S : forall b m, inS (topics w) b m <-> cS c b m }.

Lemma Rel0 : Rel w0 c0.
Proof.
  constructor; cbn.
  - constructor; cbn; [constructor; constructor|discriminate|]. intros a n [(t & F & _)|(t & F & _)]; discriminate.
  - intros a s; discriminate.
  - constructor.
  - reflexivity.
  - discriminate.
  - intros a. split; [congruence|intros (v & F); discriminate].
  - intros x s; discriminate.
  - intros b m. split; [intros (t & F & _); discriminate|intros []].
  - intros b m. split; [intros (t & F & _); discriminate|intros []].
Qed.
Lemma objs_transfer w w' c c' : Rel w c -> Inv w' -> objs w w' -> own c' = own c -> ckind c' = ckind c ->
  (forall b m, inP (topics w') b m <-> cP c' b m) -> (forall b m, inS (topics w') b m <-> cS c' b m) -> Rel w' c'.
Proof.
  intros HR HI [HV HO] E1 E2 HP HS. constructor.
  - exact HI.
  - intros a s E. specialize (HO a). rewrite E in HO. destruct (heap w a) as [s0|] eqn:E0; [|contradiction]. destruct HO as (_ & _ & -> & ->). exact (r_idle _ _ HR a s0 E0).
  - rewrite HV. apply HR.
  - intros v. rewrite HV, E1. apply HR.
  - intros a s E. specialize (HO a). rewrite E in HO. destruct (heap w a) as [s0|] eqn:E0; [|contradiction]. destruct HO as (_ & -> & _). rewrite HV. apply HR. exact E0.
  - intros a. rewrite E1, <- (r_live _ _ HR). specialize (HO a). destruct (heap w a), (heap w' a); try contradiction; split; congruence.
  - intros a s E. rewrite E2. specialize (HO a). rewrite E in HO. destruct (heap w a) as [s0|] eqn:E0; [|contradiction]. destruct HO as (-> & _). apply HR. exact E0.
  - exact HP.
  - exact HS.
Qed.
Lemma Rel_ptr w c v a : Rel w c -> own c v = Some a -> ptr w v = Ok a /\ exists s, heap w a = Some s.
Proof.
  intros HR H. split; [unfold ptr; rewrite (r_own _ _ HR), H; reflexivity|]. destruct (heap w a) as [s|] eqn:E; [eauto|].
  exfalso. assert (F : heap w a <> None) by (apply (r_live _ _ HR); eauto). congruence.
Qed.
Lemma handle_Inv w a s h : Inv w -> heap w a = Some s -> Inv (set_heap w a (Some (set_handles s h))).
Proof.
  intros [I1 I2 I3] E. constructor; cbn [topics next heap set_heap].
  - exact I1.
  - intros x s' E'. destruct (Z.eq_dec x a) as [->|N]; [|rewrite hput_ne in E' by exact N; auto]. rewrite hput_eq in E'. injection E' as <-. exact (I2 _ _ E).
  - intros x n Hx. destruct (Z.eq_dec x a) as [->|N]; [rewrite hput_eq; discriminate|rewrite hput_ne by exact N; eauto].
Qed.
Lemma vars_Inv w v : Inv w -> Inv (set_vars w v).
Proof. intros [I1 I2 I3]. constructor; assumption. Qed.

Lemma step_ok depth w c o : Rel w c -> legal depth c o ->
  exists w' out, step depth w o = Ok (w', out) /\ Rel w' (cstep c o) /\
    match o with OEmit v d => exists a evs, own c v = Some a /\ out = [evs] /\ reaches c a d evs | _ => out = [] end.
Proof.
  intros HR HL. destruct o as [v a k|v n|v n|v|v u|v u|v|v d]; cbn [step legal] in *.
  - destruct HL as [L1 L2]. eexists _, _. split; [reflexivity|]. split; [|reflexivity].
    assert (HN : heap w a = None). { destruct (heap w a) eqn:E; [|reflexivity]. exfalso. assert (F : heap w a <> None) by congruence. apply (r_live _ _ HR) in F. destruct F as (u & F). exact (L2 u F). }
    assert (HNP : forall m, ~ inP (topics w) a m /\ ~ inS (topics w) a m) by (intros m; split; intros F; apply (i_live _ (r_inv _ _ HR) a m); auto).
    unfold obj_new. constructor; cbn [vars set_vars heap set_heap topics own ckind cP cS cstep].
    + constructor; cbn [topics next heap set_heap set_vars]; [apply HR| |].
      * intros x s E. destruct (Z.eq_dec x a) as [->|N]; [|rewrite hput_ne in E by exact N; apply (i_ss _ (r_inv _ _ HR)); exact E].
        rewrite hput_eq in E. injection E as <-. cbn [subs pubs map]. split; [constructor|]. split; [constructor|]. split; [intros m; split; [intros []|apply HNP]|].
        split; [intros m; split; [intros []|apply HNP]|intros m i []].
      * intros x m F. destruct (Z.eq_dec x a) as [->|N]; [rewrite hput_eq; discriminate|]. rewrite hput_ne by exact N. apply (i_live _ (r_inv _ _ HR) x m). exact F.
    + intros x s E. cbn [heap set_heap set_vars] in E. destruct (Z.eq_dec x a) as [->|N]; [rewrite hput_eq in E; injection E as <-; auto|]. rewrite hput_ne in E by exact N. exact (r_idle _ _ HR x s E).
    + cbn [map fst]. constructor; [|apply HR]. apply vfind_None. rewrite (r_own _ _ HR). exact L1.
    + intros x. cbn [vfind]. destruct (x =? v); [reflexivity|apply HR].
    + intros x s E. rewrite cntv_cons. destruct (Z.eq_dec x a) as [->|N].
      * rewrite hput_eq in E. injection E as <-. cbn [handles]. rewrite Z.eqb_refl. assert (F : cntv a (vars w) = 0); [|lia]. apply cntv_zero; [apply HR|]. intros u. rewrite (r_own _ _ HR). apply L2.
      * rewrite hput_ne in E by exact N. replace (a =? x) with false by lia. rewrite Z.add_0_l. apply HR. exact E.
    + intros x. destruct (Z.eq_dec x a) as [->|N].
      * rewrite hput_eq. split; [intros _; exists v; rewrite Z.eqb_refl; reflexivity|discriminate].
      * rewrite hput_ne by exact N. rewrite (r_live _ _ HR). split; intros (u & F).
        -- exists u. destruct (u =? v) eqn:G; [|exact F]. apply Z.eqb_eq in G. subst u. congruence.
        -- destruct (u =? v); [injection F; congruence|]. exists u. exact F.
    + intros x s E. cbn [heap set_heap set_vars] in E. destruct (Z.eq_dec x a) as [->|N]; [rewrite hput_eq in E; injection E as <-; rewrite Z.eqb_refl; reflexivity|].
      rewrite hput_ne in E by exact N. replace (x =? a) with false by lia. apply HR. exact E.
    + apply HR.
    + apply HR.
  - destruct HL as (a & L1 & L2). destruct (Rel_ptr _ _ _ _ HR L1) as (E & s & HA). rewrite E. cbn [bind].
    destruct (sig_connect_ok w a n s (r_inv _ _ HR) HA) as (w' & E' & I' & O' & P' & S'). rewrite E'. cbn [bind]. eexists _, _. split; [reflexivity|]. split; [|reflexivity].
    eapply objs_transfer; eauto; cbn [cstep cP cS]; intros b m; [rewrite P', (r_P _ _ HR), L1; intuition congruence|rewrite S'; apply HR].
  - destruct HL as (a & L1). destruct (Rel_ptr _ _ _ _ HR L1) as (E & s & HA). rewrite E. cbn [bind].
    destruct (slot_connect_ok w a n s (r_inv _ _ HR) HA) as (w' & E' & I' & O' & S' & P'). rewrite E'. cbn [bind]. eexists _, _. split; [reflexivity|]. split; [|reflexivity].
    eapply objs_transfer; eauto; cbn [cstep cP cS]; intros b m; [rewrite P'; apply HR|rewrite S', (r_S _ _ HR), L1; intuition congruence].
  - destruct HL as (a & L1 & L2). destruct (Rel_ptr _ _ _ _ HR L1) as (E & s & HA). rewrite E. cbn [bind].
    destruct (disconnect_ok w a s (r_inv _ _ HR) HA) as (w' & E' & I' & O' & P' & S').
    { intros (n & A1 & A2 & A3). apply L2. exists n. split; [apply HR; exact A1|]. split; [apply HR; exact A2|]. intros b F. apply A3. rewrite (r_P _ _ HR), (r_S _ _ HR). exact F. }
    rewrite E'. cbn [bind]. eexists _, _. split; [reflexivity|]. split; [|reflexivity].
    eapply objs_transfer; eauto; cbn [cstep cP cS]; intros b m; [rewrite P', (r_P _ _ HR), L1|rewrite S', (r_S _ _ HR), L1]; intuition congruence.
  - destruct HL as (L1 & L2). destruct (own c v) as [a|] eqn:L3; [|congruence]. destruct (Rel_ptr _ _ _ _ HR L3) as (E & s & HA).
    unfold obj_copy. rewrite E. cbn [bind]. unfold deref. rewrite HA. cbn [bind]. eexists _, _. split; [reflexivity|]. split; [|reflexivity].
    constructor; cbn [vars set_vars heap set_heap topics own ckind cP cS cstep].
    + apply vars_Inv, handle_Inv; [apply HR|exact HA].
    + intros x s' E'. cbn [heap set_heap set_vars] in E'. destruct (Z.eq_dec x a) as [->|N]; [rewrite hput_eq in E'; injection E' as <-; exact (r_idle _ _ HR a s HA)|]. rewrite hput_ne in E' by exact N. exact (r_idle _ _ HR x s' E').
    + cbn [map fst]. constructor; [|apply HR]. apply vfind_None. rewrite (r_own _ _ HR). exact L2.
    + intros x. cbn [vfind]. destruct (x =? u); [congruence|apply HR].
    + intros x s' E'. rewrite cntv_cons. destruct (Z.eq_dec x a) as [->|N].
      * rewrite hput_eq in E'. injection E' as <-. cbn [handles set_handles]. rewrite Z.eqb_refl, (r_hand _ _ HR _ _ HA). lia.
      * rewrite hput_ne in E' by exact N. replace (a =? x) with false by lia. rewrite Z.add_0_l. apply HR. exact E'.
    + intros x. destruct (Z.eq_dec x a) as [->|N].
      * rewrite hput_eq. split; [intros _; exists u; rewrite Z.eqb_refl; exact L3|discriminate].
      * rewrite hput_ne by exact N. rewrite (r_live _ _ HR). split; intros (y & F).
        -- exists y. destruct (y =? u) eqn:G; [|exact F]. apply Z.eqb_eq in G. subst y. congruence.
        -- destruct (y =? u); [congruence|]. exists y. exact F.
    + intros x s' E'. cbn [heap set_heap set_vars] in E'. destruct (Z.eq_dec x a) as [->|N]; [rewrite hput_eq in E'; injection E' as <-; exact (r_kind _ _ HR a s HA)|].
      rewrite hput_ne in E' by exact N. apply HR. exact E'.
    + apply HR.
    + apply HR.
  - destruct HL as (L1 & L2). destruct (own c v) as [a|] eqn:L3; [|congruence]. destruct (Rel_ptr _ _ _ _ HR L3) as (E & s & HA). destruct (Rel_ptr _ _ _ _ HR L2) as (Eu & _).
    unfold obj_assign. rewrite E, Eu. cbn [bind]. eexists _, _. split; [reflexivity|]. split; [|reflexivity].
    assert (HV : map (fun p => if fst p =? u then (u, a) else p) (vars w) = vars w).
    { assert (HF : forall x b, In (x, b) (vars w) -> x = u -> b = a).
      { intros x b F ->. pose proof (r_own _ _ HR u) as G. rewrite L2 in G. pose proof (r_dup _ _ HR) as D. clear - F G D. induction (vars w) as [|[y z] l IH]; [destruct F|].
        cbn [map fst vfind] in *. inversion D; subst. destruct F as [F|F]; [injection F as -> ->; rewrite Z.eqb_refl in G; congruence|].
        destruct (u =? y) eqn:X; [|apply IH; assumption]. apply Z.eqb_eq in X. subst y. exfalso. apply H1. apply (in_map fst) in F. exact F. }
      clear - HF. induction (vars w) as [|[y z] l IH]; [reflexivity|]. cbn [map fst]. f_equal; [|apply IH; intros; eapply HF; [right|]; eassumption].
      destruct (y =? u) eqn:X; [|reflexivity]. apply Z.eqb_eq in X. subst y. rewrite (HF u z); [reflexivity|left; reflexivity|reflexivity]. }
    cbn [cstep]. eapply objs_transfer; [exact HR|apply vars_Inv; apply HR|split; [cbn; exact HV|intros x; cbn; destruct (heap w x); auto]|reflexivity|reflexivity|apply HR|apply HR].
  - destruct HL as (a & L1 & L2). destruct (Rel_ptr _ _ _ _ HR L1) as (E & s & HA). unfold obj_destroy. rewrite E. cbn [bind]. unfold deref at 1. rewrite HA. cbn [bind].
    set (w1 := set_vars _ _). rewrite (r_hand _ _ HR _ _ HA).
    assert (HVF : vfind v (vars w) = Some a) by (rewrite (r_own _ _ HR); exact L1).
    assert (HC : forall b, cntv b (vdel v (vars w)) = cntv b (vars w) - (if b =? a then 1 else 0)) by (intros b; apply cntv_vdel; [apply HR|exact HVF]).
    assert (HD1 : NoDup (map fst (vdel v (vars w)))) by (apply NoDup_map_filter; apply HR).
    assert (I1 : Inv w1) by (apply vars_Inv, handle_Inv; [apply HR|exact HA]).
    assert (H1A : heap w1 a = Some (set_handles s (handles s - 1))) by (unfold w1; cbn [heap set_heap set_vars]; rewrite hput_eq; reflexivity).
    assert (HLAST : (cntv a (vars w) - 1 = 0) <-> ~ exists u, u <> v /\ own c u = Some a).
    { transitivity (cntv a (vdel v (vars w)) = 0); [rewrite HC, Z.eqb_refl; lia|]. rewrite (cntv_zero a _ HD1). split.
      - intros F (u & U1 & U2). apply (F u). rewrite vfind_vdel. replace (u =? v) with false by lia. rewrite (r_own _ _ HR). exact U2.
      - intros F u. rewrite vfind_vdel. destruct (u =? v) eqn:G; [discriminate|]. rewrite (r_own _ _ HR). intros U. apply F. exists u. split; [lia|exact U]. }
    assert (HOWN : forall b, b <> a -> (exists u, (if u =? v then None else own c u) = Some b) <-> exists u, own c u = Some b).
    { intros b N. split; intros (u & U); exists u; [destruct (u =? v); [discriminate|exact U]|]. destruct (u =? v) eqn:G; [|exact U]. apply Z.eqb_eq in G. subst u. congruence. }
    assert (HPL : forall b m, inP (topics w) b m \/ inS (topics w) b m -> exists u, own c u = Some b) by (intros b m F; apply (r_live _ _ HR); apply (i_live _ (r_inv _ _ HR) b m); exact F).
    destruct (cntv a (vars w) - 1 =? 0) eqn:EZ.
    + apply Z.eqb_eq in EZ. apply HLAST in EZ.
      assert (HNL : ~ exists n, lonely (inP (topics w1)) (inS (topics w1)) a n).
      { destruct L2 as [L2|L2]; [contradiction|]. intros (n & A1 & A2 & A3). apply L2. exists n. split; [apply HR; exact A1|]. split; [apply HR; exact A2|].
        intros b F. apply A3. unfold w1. cbn [topics set_vars set_heap]. rewrite (r_P _ _ HR), (r_S _ _ HR). exact F. }
      destruct (disconnect_ok w1 a _ I1 H1A HNL) as (w2 & E2 & I2 & [V2 O2] & P2 & S2).
      assert (O2A := O2 a). rewrite H1A in O2A. destruct (heap w2 a) as [s2|] eqn:EA2; [|contradiction]. destruct O2A as (K1 & K2 & K3 & K4).
      unfold ss_delete. rewrite E2. cbn [bind]. unfold deref. rewrite EA2. cbn [bind]. rewrite K4. cbn [locked set_handles].
      destruct (r_idle _ _ HR _ _ HA) as [_ ->]. eexists _, _. split; [reflexivity|]. split; [|reflexivity].
      assert (HNA : forall u, (if u =? v then None else own c u) <> Some a).
      { intros u. destruct (u =? v) eqn:G; [discriminate|]. intros U. apply EZ. exists u. split; [lia|exact U]. }
      constructor; cbn [vars set_vars heap set_heap topics own ckind cP cS cstep].
      * constructor; cbn [topics next heap set_heap].
        -- apply I2.
        -- intros x s' E'. destruct (Z.eq_dec x a) as [->|N]; [rewrite hput_eq in E'; discriminate|]. rewrite hput_ne in E' by exact N. apply I2. exact E'.
        -- intros x m F. destruct (Z.eq_dec x a) as [->|N]; [exfalso; rewrite P2, S2 in F; tauto|]. rewrite hput_ne by exact N. apply (i_live _ I2 x m). exact F.
      * intros x s' E'. cbn [heap set_heap] in E'. destruct (Z.eq_dec x a) as [->|N]; [rewrite hput_eq in E'; discriminate|]. rewrite hput_ne in E' by exact N.
        specialize (O2 x). rewrite E' in O2. unfold w1 in O2. cbn [heap set_heap set_vars] in O2. rewrite hput_ne in O2 by exact N. destruct (heap w x) as [sx|] eqn:EX; [|contradiction].
        destruct O2 as (_ & _ & -> & ->). exact (r_idle _ _ HR x sx EX).
      * rewrite V2. exact HD1.
      * intros x. rewrite V2. unfold w1. cbn [vars set_vars]. rewrite vfind_vdel. destruct (x =? v); [reflexivity|apply HR].
      * intros x s' E'. destruct (Z.eq_dec x a) as [->|N]; [rewrite hput_eq in E'; discriminate|]. rewrite hput_ne in E' by exact N.
        specialize (O2 x). rewrite E' in O2. unfold w1 in O2. cbn [heap set_heap set_vars] in O2. rewrite hput_ne in O2 by exact N. destruct (heap w x) as [sx|] eqn:EX; [|contradiction].
        destruct O2 as (_ & -> & _). rewrite V2. unfold w1. cbn [vars set_vars]. rewrite HC. replace (x =? a) with false by lia. rewrite (r_hand _ _ HR _ _ EX). lia.
      * intros x. destruct (Z.eq_dec x a) as [->|N].
        -- rewrite hput_eq. split; [congruence|]. intros (u & U). exfalso. exact (HNA u U).
        -- rewrite hput_ne by exact N. rewrite (HOWN x N), <- (r_live _ _ HR). specialize (O2 x). unfold w1 in O2. cbn [heap set_heap set_vars] in O2. rewrite hput_ne in O2 by exact N.
           destruct (heap w x), (heap w2 x); try contradiction; split; congruence.
      * intros x s' E'. cbn [heap set_heap] in E'. destruct (Z.eq_dec x a) as [->|N]; [rewrite hput_eq in E'; discriminate|]. rewrite hput_ne in E' by exact N.
        specialize (O2 x). rewrite E' in O2. unfold w1 in O2. cbn [heap set_heap set_vars] in O2. rewrite hput_ne in O2 by exact N. destruct (heap w x) as [sx|] eqn:EX; [|contradiction].
        destruct O2 as (-> & _). apply HR. exact EX.
      * intros b m. rewrite P2. unfold w1. cbn [topics set_vars set_heap]. split.
        -- intros [F1 F2]. split; [apply HR; exact F1|]. apply HOWN; [exact F2|]. eapply HPL. left. exact F1.
        -- intros [F1 (u & F2)]. split; [apply HR; exact F1|]. intros ->. exact (HNA u F2).
      * intros b m. rewrite S2. unfold w1. cbn [topics set_vars set_heap]. split.
        -- intros [F1 F2]. split; [apply HR; exact F1|]. apply HOWN; [exact F2|]. eapply HPL. right. exact F1.
        -- intros [F1 (u & F2)]. split; [apply HR; exact F1|]. intros ->. exact (HNA u F2).
    + apply Z.eqb_neq in EZ. assert (HX : exists u, u <> v /\ own c u = Some a).
      { assert (F : ~ (forall u, vfind u (vdel v (vars w)) <> Some a)) by (rewrite <- (cntv_zero a _ HD1), HC, Z.eqb_refl; lia).
        destruct (filter (fun p => snd p =? a) (vdel v (vars w))) as [|[u b] l] eqn:FL.
        - exfalso. apply F. apply cntv_zero; [exact HD1|]. unfold cntv. rewrite FL. reflexivity.
        - assert (G : In (u, b) (filter (fun p => snd p =? a) (vdel v (vars w)))) by (rewrite FL; left; reflexivity).
          apply filter_In in G. destruct G as [G1 G2]. cbn in G2. apply Z.eqb_eq in G2. subst b. unfold vdel in G1. apply filter_In in G1. destruct G1 as [G1 G3]. cbn in G3.
          exists u. split; [lia|]. rewrite <- (r_own _ _ HR). pose proof (r_dup _ _ HR) as D. clear - G1 D.
          induction (vars w) as [|[y z] l IH]; [destruct G1|]. cbn [map fst vfind] in *. inversion D; subst. destruct G1 as [G1|G1]; [injection G1 as -> ->; rewrite Z.eqb_refl; reflexivity|].
          destruct (u =? y) eqn:X; [|apply IH; assumption]. apply Z.eqb_eq in X. subst y. exfalso. apply H1. apply (in_map fst) in G1. exact G1. }
      destruct HX as (u0 & U1 & U2).
      assert (HOWN' : forall b, (exists u, (if u =? v then None else own c u) = Some b) <-> exists u, own c u = Some b).
      { intros b. destruct (Z.eq_dec b a) as [->|N]; [|apply HOWN; exact N]. split; intros _; [exists v; exact L1|]. exists u0. replace (u0 =? v) with false by lia. exact U2. }
      eexists _, _. split; [reflexivity|]. split; [|reflexivity]. constructor; cbn [own ckind cP cS cstep].
      * exact I1.
      * intros x s' E'. unfold w1 in E'. cbn [heap set_heap set_vars] in E'. destruct (Z.eq_dec x a) as [->|N]; [rewrite hput_eq in E'; injection E' as <-; exact (r_idle _ _ HR a s HA)|]. rewrite hput_ne in E' by exact N. exact (r_idle _ _ HR x s' E').
      * exact HD1.
      * intros x. unfold w1. cbn [vars set_vars]. rewrite vfind_vdel. destruct (x =? v); [reflexivity|apply HR].
      * intros x s' E'. unfold w1 in *. cbn [vars heap set_heap set_vars] in *. rewrite HC. destruct (Z.eq_dec x a) as [->|N].
        -- rewrite hput_eq in E'. injection E' as <-. cbn [handles set_handles]. rewrite Z.eqb_refl, (r_hand _ _ HR _ _ HA). reflexivity.
        -- rewrite hput_ne in E' by exact N. replace (x =? a) with false by lia. rewrite (r_hand _ _ HR _ _ E'). lia.
      * intros x. unfold w1. cbn [heap set_heap set_vars]. rewrite HOWN'. destruct (Z.eq_dec x a) as [->|N].
        -- rewrite hput_eq. split; [intros _; exists v; exact L1|discriminate].
        -- rewrite hput_ne by exact N. apply HR.
      * intros x s' E'. unfold w1 in E'. cbn [heap set_heap set_vars] in E'. destruct (Z.eq_dec x a) as [->|N]; [rewrite hput_eq in E'; injection E' as <-; exact (r_kind _ _ HR a s HA)|]. rewrite hput_ne in E' by exact N. apply HR. exact E'.
      * intros b m. unfold w1. cbn [topics set_vars set_heap]. rewrite HOWN', (r_P _ _ HR). split; [|tauto]. intros F. split; [exact F|]. apply (HPL b m). left. apply HR. exact F.
      * intros b m. unfold w1. cbn [topics set_vars set_heap]. rewrite HOWN', (r_S _ _ HR). split; [|tauto]. intros F. split; [exact F|]. apply (HPL b m). right. apply HR. exact F.
  - destruct HL as (a & rk & L1 & L2 & L3 & L4). destruct (Rel_ptr _ _ _ _ HR L1) as (E & s & HA). rewrite E. cbn [bind].
    destruct (emit_ok (cP c) (cS c) (ckind c) rk d L3 depth w a [] s L4 (r_inv _ _ HR)) as (w' & evs & E' & W & N & I).
    + intros x s' E'. destruct (r_idle _ _ HR x s' E') as [-> ->]. split; [lia|reflexivity].
    + apply HR.
    + exact HA.
    + apply HR.
    + apply HR.
    + rewrite E'. cbn [bind fst snd]. eexists _, _. split; [reflexivity|]. split.
      * cbn [cstep]. pose proof W as (T' & X' & V' & G'). eapply objs_transfer; [exact HR|exact (weq_Inv _ _ W (r_inv _ _ HR))| |reflexivity|reflexivity|rewrite T'; apply HR|rewrite T'; apply HR].
        split; [exact V'|]. intros x. rewrite G'. destruct (heap w x); auto.
      * exists a. eexists. split; [exact L1|]. split; [reflexivity|]. split.
        -- apply FinFun.Injective_map_NoDup; [intros p q F; unfold tagged in F; cbn in F; congruence|exact N].
        -- intros r x. rewrite in_map_iff. unfold tagged. cbn [app]. split.
           ++ intros (r' & F & G). injection F as <- <-. split; [apply I; exact G|reflexivity].
           ++ intros [F ->]. exists r. split; [reflexivity|apply I; exact F].
Qed.
Lemma run_ok depth : forall l w c, Rel w c -> good depth c l -> exists w' outs, run depth w l = Ok (w', outs) /\ Rel w' (after c l) /\ outputs c l outs.
Proof.
  induction l as [|o l IH]; intros w c HR HG; [exists w, []; cbn; auto|]. destruct HG as [G1 G2]. destruct (step_ok depth w c o HR G1) as (w1 & o1 & E1 & R1 & O1).
  destruct (IH w1 (cstep c o) R1 G2) as (w2 & o2 & E2 & R2 & O2). exists w2, (o1 ++ o2). cbn [run after]. rewrite E1. cbn [bind fst snd]. rewrite E2. cbn [bind fst snd].
  split; [reflexivity|]. split; [exact R2|]. destruct o; cbn [outputs]; try (subst o1; exact O2).
  destruct O1 as (a & evs & A1 & -> & A3). exists a, evs, o2. auto.
Qed.
