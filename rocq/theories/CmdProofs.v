(** Facts about the command line model. *)
From Verif Require Import Base Numerals CmdModel.

(** * Basics *)

Lemma seqb_true a b : seqb a b = true <-> a = b.
Proof. unfold seqb. destruct (list_eq_dec Z.eq_dec a b); split; intros; congruence. Qed.
Lemma seqb_false a b : seqb a b = false <-> a <> b.
Proof. unfold seqb. destruct (list_eq_dec Z.eq_dec a b); split; intros; congruence. Qed.
Lemma seqb_refl a : seqb a a = true.
Proof. now apply seqb_true. Qed.

Lemma has_true c s : has c s = true <-> In c s.
Proof.
  unfold has. rewrite existsb_exists. split; [intros (x & I & E); apply Z.eqb_eq in E; now subst|].
  intros I. exists c. now rewrite Z.eqb_refl.
Qed.
Lemma has_false c s : has c s = false <-> ~ In c s.
Proof. rewrite <- has_true. destruct (has c s); split; congruence. Qed.

Lemma mem_true (i : Z) l : existsb (Z.eqb i) l = true <-> In i l.
Proof. apply has_true. Qed.
Lemma mem_false (i : Z) l : existsb (Z.eqb i) l = false <-> ~ In i l.
Proof. apply has_false. Qed.

Lemma hset_same h i a : hset h i a i = a.
Proof. unfold hset. now rewrite Z.eqb_refl. Qed.
Lemma hset_other h i a j : j <> i -> hset h i a j = h j.
Proof. unfold hset. intros. destruct (Z.eqb_spec j i); [lia|reflexivity]. Qed.

Ltac bsplit :=
  repeat match goal with
  | H : _ && _ = true |- _ => apply andb_true_iff in H; destruct H
  | H : _ || _ = false |- _ => apply orb_false_iff in H; destruct H
  | H : negb _ = true |- _ => apply negb_true_iff in H
  | H : negb _ = false |- _ => apply negb_false_iff in H
  end.

(** What Arg's constructor guarantees about a flag and a name. *)
Lemma ctor_flag f n : ctor_ok f n = true ->
  (f = [] \/ exists c, f = [c] /\ (n <> n_ignore -> c <> c_dash /\ c <> c_space))
  /\ ~ In c_dash n /\ ~ In c_space n.
Proof.
  unfold ctor_ok. intros H. bsplit. rewrite has_false in *. split; auto.
  destruct f as [|c [|c' f]]; [now left| |rewrite !Zlen_cons in *; pose proof (Zlen_nonneg f); lia].
  right. exists c. split; [easy|]. intros N.
  destruct (seqb n n_ignore) eqn:E; [apply seqb_true in E; congruence|].
  cbn [orb] in *. bsplit. rewrite seqb_false in *. split; intros ->; congruence.
Qed.

(** * Parsers that were built by declarations *)

Definition grouped (p : parser) (i : Z) : bool := existsb (existsb (Z.eqb i)) (p_xor p).

Record wf (p : parser) (h : heap) : Prop := mkWf {
  wf_ids : NoDup (map fst (p_args p));
  wf_lt : forall i d, In (i, d) (p_args p) -> 0 <= i < p_next p;
  wf_grp : forall i, grouped p i = true -> 0 <= i < p_next p;
  wf_names : forall i d j d', In (i, d) (p_args p) -> In (j, d') (p_args p) ->
             d_name d = d_name d' -> i = j;
  wf_flags : forall i d j d', In (i, d) (p_args p) -> In (j, d') (p_args p) ->
             d_flag d <> [] -> d_flag d = d_flag d' -> i = j;
  wf_ctor : forall i d, In (i, d) (p_args p) ->
            ctor_ok (d_flag d) (d_name d) = true /\ (unlabelled (d_kind d) = true -> d_flag d = []);
  wf_order : exists lab unl, p_args p = lab ++ unl
             /\ (forall i d, In (i, d) lab -> unlabelled (d_kind d) = false)
             /\ (forall i d, In (i, d) unl -> unlabelled (d_kind d) = true);
  wf_state : forall i d, In (i, d) (p_args p) ->
             h i = if grouped p i then force_required (fresh d) else fresh d;
  wf_num : p_num p = Zlen (filter (fun x => is_required (snd x) (h (fst x))) (p_args p))
}.

Lemma in_split_uniq {A} (l : list (Z * A)) i a b : NoDup (map fst l) ->
  In (i, a) l -> In (i, b) l -> a = b.
Proof.
  induction l as [|[j x] l IH]; cbn [map fst In]; [easy|]. intros N [E|I] [F|J]; inversion N; subst.
  - congruence.
  - injection E as -> ->. elim H1. change i with (fst (i, b)). now apply in_map.
  - injection F as -> ->. elim H1. change i with (fst (i, a)). now apply in_map.
  - auto.
Qed.

Lemma Zlen_filter_ext {A} (f g : A -> bool) l : (forall x, In x l -> f x = g x) ->
  Zlen (filter f l) = Zlen (filter g l).
Proof.
  induction l as [|x l IH]; intros E; [easy|]. cbn [filter]. rewrite (E x) by now left.
  destruct (g x); rewrite ?Zlen_cons; rewrite IH; auto; intros; apply E; now right.
Qed.

Lemma Zlen_filter_app {A} (f : A -> bool) l m : Zlen (filter f (l ++ m)) = Zlen (filter f l) + Zlen (filter f m).
Proof. now rewrite filter_app, Zlen_app. Qed.

Lemma clashes_none p h d : existsb (fun '(j, d') => clashes (label_of (p_xor p) j) d d' (h j)) (p_args p) = false ->
  forall j d', In (j, d') (p_args p) ->
  d_name d <> d_name d' /\ (unlabelled (d_kind d) = false -> d_flag d <> [] -> d_flag d <> d_flag d').
Proof.
  intros E j d' I. split.
  - intros N. assert (existsb (fun '(j, d') => clashes (label_of (p_xor p) j) d d' (h j)) (p_args p) = true); [|congruence].
    apply existsb_exists. exists (j, d'). split; auto. unfold clashes.
    rewrite N, seqb_refl. destruct (unlabelled (d_kind d)); cbn; auto. apply orb_true_r.
  - intros U F N. assert (existsb (fun '(j, d') => clashes (label_of (p_xor p) j) d d' (h j)) (p_args p) = true); [|congruence].
    apply existsb_exists. exists (j, d'). split; auto. unfold clashes. rewrite U.
    rewrite <- N, seqb_refl. assert (seqb (d_flag d) [] = false) as -> by now apply seqb_false. reflexivity.
Qed.

(** Adding one argument whose object is freshly made. *)
Lemma add_wf p h i d p' : wf p h -> add p h i d = Ok p' ->
  0 <= i < p_next p -> ~ In i (map fst (p_args p)) ->
  ctor_ok (d_flag d) (d_name d) = true -> (unlabelled (d_kind d) = true -> d_flag d = []) ->
  h i = (if grouped p i then force_required (fresh d) else fresh d) ->
  wf p' h /\ p_next p' = p_next p /\ p_xor p' = p_xor p
  /\ (forall x, In x (p_args p') <-> x = (i, d) \/ In x (p_args p)).
Proof.
  intros W E L NI C U Hi. unfold add in E.
  destruct (existsb _ (p_args p)) eqn:CL; [discriminate|]. injection E as <-.
  pose proof (clashes_none p h d CL) as K.
  set (args' := if unlabelled (d_kind d) then p_args p ++ [(i, d)] else (i, d) :: p_args p).
  assert (IN : forall x, In x args' <-> x = (i, d) \/ In x (p_args p)).
  { intros x. unfold args'. destruct (unlabelled (d_kind d)).
    - rewrite in_app_iff. cbn [In]. intuition congruence.
    - cbn [In]. intuition congruence. }
  split; [|cbn [p_next p_xor p_args]; auto].
  assert (IN' : forall j d', In (j, d') args' -> (j, d') = (i, d) \/ In (j, d') (p_args p)) by (intros; now apply IN).
  constructor; cbn [p_args p_next p_num p_xor].
  - fold args'. unfold args'. destruct (unlabelled (d_kind d)).
    + rewrite map_app. cbn [map fst]. pose proof (NoDup_rev (wf_ids _ _ W)) as ND.
      rewrite <- (rev_involutive (map fst (p_args p) ++ [i])). apply NoDup_rev.
      rewrite rev_app_distr. cbn [rev app]. constructor; auto. now rewrite <- in_rev.
    + cbn [map fst]. constructor; auto. apply (wf_ids _ _ W).
  - fold args'. intros j d' I. destruct (IN' _ _ I) as [Q|Q]; [injection Q as -> ->; lia|].
    now apply (wf_lt _ _ W) in Q.
  - apply (wf_grp _ _ W).
  - fold args'. intros j1 d1 j2 d2 I1 I2 N.
    destruct (IN' _ _ I1) as [Q1|Q1], (IN' _ _ I2) as [Q2|Q2].
    + congruence.
    + injection Q1 as -> ->. destruct (K _ _ Q2). congruence.
    + injection Q2 as -> ->. destruct (K _ _ Q1). congruence.
    + eapply (wf_names _ _ W); eauto.
  - fold args'. intros j1 d1 j2 d2 I1 I2 NE N.
    destruct (IN' _ _ I1) as [Q1|Q1], (IN' _ _ I2) as [Q2|Q2].
    + congruence.
    + injection Q1 as -> ->. destruct (K _ _ Q2) as [_ Q].
      destruct (unlabelled (d_kind d)); [elim NE; auto|elim Q; auto].
    + injection Q2 as -> ->. destruct (K _ _ Q1) as [_ Q].
      destruct (unlabelled (d_kind d)); [elim NE; rewrite N; auto|elim Q; auto; congruence].
    + eapply (wf_flags _ _ W); eauto.
  - fold args'. intros j d' I. destruct (IN' _ _ I) as [Q|Q]; [injection Q as -> ->; auto|].
    eapply (wf_ctor _ _ W); eauto.
  - destruct (wf_order _ _ W) as (lab & unl & E1 & L1 & U1). unfold args'.
    clear args' IN IN'. destruct (unlabelled (d_kind d)) eqn:UD.
    + exists lab, (unl ++ [(i, d)]). rewrite E1, app_assoc. split; auto. split; auto.
      intros j d' I. apply in_app_iff in I as [I|[I|[]]]; eauto. now injection I as <- <-.
    + exists ((i, d) :: lab), unl. rewrite E1. split; auto. split; auto.
      intros j d' [I|I]; eauto. now injection I as <- <-.
  - fold args'. intros j d' I.
    change (grouped {| p_args := args'; p_xor := p_xor p; p_num := _; p_next := _ |} j) with (grouped p j).
    destruct (IN' _ _ I) as [Q|Q]; [injection Q as -> ->; auto|]. eapply (wf_state _ _ W); eauto.
  - rewrite (wf_num _ _ W). unfold args'. destruct (unlabelled (d_kind d)).
    + rewrite Zlen_filter_app. cbn [filter fst snd].
      destruct (is_required d (h i)); rewrite ?Zlen_cons; znil; lia.
    + cbn [filter fst snd]. destruct (is_required d (h i)); rewrite ?Zlen_cons; lia.
Qed.

(** Changing objects the parser does not know yet, and raising the object counter. *)
Lemma wf_frame p h h' p' : wf p h -> p_args p' = p_args p -> p_num p' = p_num p ->
  p_next p <= p_next p' ->
  (forall i, In i (map fst (p_args p)) -> h' i = h i) ->
  (forall i, grouped p' i = true -> 0 <= i < p_next p') ->
  (forall i, In i (map fst (p_args p)) -> grouped p' i = grouped p i) ->
  wf p' h'.
Proof.
  intros W EA EN EX H G G'.
  assert (F : forall i d, In (i, d) (p_args p) -> In i (map fst (p_args p))) by (intros i d I; change i with (fst (i, d)); now apply in_map).
  constructor; rewrite ?EA, ?EN; try apply W; auto.
  - intros i d I. apply (wf_lt _ _ W) in I. lia.
  - intros i d I. rewrite H, G' by eauto. eapply (wf_state _ _ W); eauto.
  - rewrite (wf_num _ _ W). apply Zlen_filter_ext. intros [i d] I. cbn [fst snd]. rewrite H; eauto.
Qed.

Lemma construct_ok g d g' : construct g d = Ok g' ->
  ctor_ok (d_flag d) (d_name d) = true /\ (unlabelled (d_kind d) = true -> d_flag d = [])
  /\ g_delim g' = g_delim g /\ g_ignore g' = g_ignore g.
Proof.
  unfold construct. destruct (ctor_ok (d_flag d) (d_name d)); cbn [negb]; [|discriminate].
  destruct (unlabelled (d_kind d)) eqn:U; cbn [andb].
  - destruct (seqb (d_flag d) []) eqn:F; cbn [negb]; [|discriminate]. apply seqb_true in F.
    destruct (g_opt g); [discriminate|]. intros E.
    destruct (match d_kind d with KUMulti _ => true | _ => d_req d end); injection E as <-; auto.
  - intros E. injection E as <-. split; [easy|]. split; [discriminate|auto].
Qed.

Lemma ids_from_in i n j : In j (ids_from i n) <-> i <= j < i + Z.of_nat n.
Proof.
  revert i. induction n as [|n IH]; intros i; cbn [ids_from In]; [lia|]. rewrite IH. lia.
Qed.

Lemma construct_all_ok ds : forall g h i g' h', construct_all g h i ds = Ok (g', h') ->
  (forall d, In d ds -> ctor_ok (d_flag d) (d_name d) = true /\ (unlabelled (d_kind d) = true -> d_flag d = []))
  /\ (forall j, j < i -> h' j = h j)
  /\ (forall k d, nth_error ds k = Some d -> h' (i + Z.of_nat k) = fresh d)
  /\ g_delim g' = g_delim g /\ g_ignore g' = g_ignore g.
Proof.
  induction ds as [|d ds IH]; intros g h i g' h' E; cbn [construct_all] in E.
  - injection E as <- <-. split; [easy|]. split; [auto|]. split; [|auto]. intros [|k] d'; discriminate.
  - destruct (construct g d) as [g1| |] eqn:C; try discriminate. cbn [bind] in E.
    apply construct_ok in C as (C1 & C2 & C3 & C4). apply IH in E as (E1 & E2 & E3 & E4 & E5).
    split; [|split; [|split; [|split; congruence]]].
    + intros d' [<-|I]; auto.
    + intros j L. rewrite E2 by lia. apply hset_other. lia.
    + intros [|k] d' N; cbn [nth_error] in N.
      * injection N as <-. rewrite E2 by lia. replace (i + Z.of_nat 0) with i by lia. apply hset_same.
      * replace (i + Z.of_nat (S k)) with (i + 1 + Z.of_nat k) by lia. auto.
Qed.

Lemma add_all_wf ds : forall p h i p' h', wf p h -> add_all p h i ds = Ok (p', h') ->
  i + Zlen ds <= p_next p -> 0 <= i ->
  (forall j, i <= j < i + Zlen ds -> grouped p j = true /\ ~ In j (map fst (p_args p))) ->
  (forall d, In d ds -> ctor_ok (d_flag d) (d_name d) = true /\ (unlabelled (d_kind d) = true -> d_flag d = [])) ->
  (forall k d, nth_error ds k = Some d -> h (i + Z.of_nat k) = fresh d) ->
  wf p' h' /\ p_next p' = p_next p /\ p_xor p' = p_xor p
  /\ (forall x, In x (p_args p') <-> In x (combine (ids_from i (length ds)) ds) \/ In x (p_args p)).
Proof.
  induction ds as [|d ds IH]; intros p h i p' h' W E L L0 G C F; cbn [add_all] in E.
  - injection E as <- <-. split; [auto|]. split; [auto|]. split; [auto|]. intros x. cbn. intuition.
  - rewrite Zlen_cons in *. pose proof (Zlen_nonneg ds).
    destruct (add p (hset h i (force_required (h i))) i d) as [p1| |] eqn:A; try discriminate. cbn [bind] in E.
    destruct (G i ltac:(lia)) as [G1 G2].
    assert (Fi : h i = fresh d). { specialize (F O d eq_refl). now replace (i + Z.of_nat 0) with i in F by lia. }
    assert (W1 : wf p (hset h i (force_required (h i)))).
    { eapply wf_frame; eauto; try lia; try reflexivity.
      - intros j I. apply hset_other. intros ->. auto.
      - apply (wf_grp _ _ W). }
    destruct (C d ltac:(now left)) as [C1 C2].
    apply add_wf in A as (A1 & A2 & A3 & A4); auto; try lia.
    2:{ rewrite G1, hset_same. now rewrite Fi. }
    apply IH in E as (E1 & E2 & E3 & E4); auto; try lia.
    + split; [auto|]. split; [congruence|]. split; [congruence|]. intros x. rewrite E4, A4. cbn [ids_from combine length In].
      intuition congruence.
    + intros j J. split.
      * unfold grouped. rewrite A3. apply G. lia.
      * intros I. apply in_map_iff in I as ([j' d'] & Q & I). cbn [fst] in Q. subst j'. apply A4 in I as [I|I].
        -- injection I as -> ->. lia.
        -- destruct (G j ltac:(lia)) as [_ G3]. apply G3. change j with (fst (j, d')). now apply in_map.
    + intros d' I. apply C. now right.
    + intros k d' N. replace (i + 1 + Z.of_nat k) with (i + Z.of_nat (S k)) by lia.
      rewrite hset_other by lia. apply F. exact N.
Qed.

Definition dcl_decls (c : dcl) : list decl := match c with DOne d => [d] | DXor ds => ds end.
Definition dcl_group (i : Z) (c : dcl) : list (list Z) :=
  match c with DOne _ => [] | DXor ds => [ids_from i (length ds)] end.

Lemma declare_wf g p h c g' p' h' : wf p h -> 0 <= p_next p -> declare g p h c = Ok (g', p', h') ->
  wf p' h' /\ p_next p' = p_next p + Zlen (dcl_decls c)
  /\ p_xor p' = p_xor p ++ dcl_group (p_next p) c
  /\ (forall x, In x (p_args p') <->
        In x (combine (ids_from (p_next p) (length (dcl_decls c))) (dcl_decls c)) \/ In x (p_args p))
  /\ g_delim g' = g_delim g /\ g_ignore g' = g_ignore g.
Proof.
  intros W L0 E.
  assert (NI : forall j, p_next p <= j -> ~ In j (map fst (p_args p))).
  { intros j J I. apply in_map_iff in I as ([j' d'] & Q & I). cbn [fst] in Q. subst j'. apply (wf_lt _ _ W) in I. lia. }
  assert (NG : forall j, p_next p <= j -> grouped p j = false).
  { intros j J. destruct (grouped p j) eqn:Q; auto. apply (wf_grp _ _ W) in Q. lia. }
  destruct c as [d|ds]; cbn [declare dcl_decls dcl_group] in *.
  - destruct (construct g d) as [g1| |] eqn:C; try discriminate. cbn [bind] in E.
    apply construct_ok in C as (C1 & C2 & C3 & C4).
    set (h1 := hset h (p_next p) (fresh d)) in *.
    destruct (add p h1 (p_next p) d) as [p1| |] eqn:A; try discriminate. cbn [bind] in E.
    injection E as <- <- <-.
    set (q := with_next p (p_next p + 1)).
    assert (W1 : wf q h1).
    { eapply wf_frame; eauto; unfold q; cbn [with_next p_args p_num p_next]; try lia; auto.
      - intros i I. apply hset_other. intros ->. apply (NI (p_next p)); [lia|auto].
      - intros i I. apply (wf_grp _ _ W) in I. lia. }
    assert (A' : add q h1 (p_next p) d = Ok (with_next p1 (p_next p + 1))).
    { unfold add in *. cbn [q with_next p_args p_xor p_num p_next].
      destruct (existsb _ (p_args p)); [discriminate|]. injection A as <-. reflexivity. }
    apply add_wf in A' as (A1 & A2 & A3 & A4); auto; try (cbn; lia).
    + split; [auto|]. split; [cbn [with_next p_next]; rewrite Zlen_cons; znil; lia|].
      split; [cbn in A3 |- *; rewrite app_nil_r; auto|]. split; [|split; auto].
      intros x. rewrite A4. cbn [length ids_from combine In q with_next p_args]. intuition congruence.
    + cbn [q with_next p_args]. apply NI. lia.
    + assert (grouped q (p_next p) = false) as -> by (apply NG; lia). apply hset_same.
  - destruct (construct_all g h (p_next p) ds) as [[g1 h1]| |] eqn:C; try discriminate. cbn [bind] in E.
    apply construct_all_ok in C as (C1 & C2 & C3 & C4 & C5).
    set (q0 := mkP (p_args p) (p_xor p ++ [ids_from (p_next p) (length ds)]) (p_num p) (p_next p)) in *.
    destruct (add_all q0 h1 (p_next p) ds) as [[p1 h2]| |] eqn:A; try discriminate. cbn [bind] in E.
    injection E as <- <- <-.
    pose proof (Zlen_nonneg ds).
    set (q := with_next q0 (p_next p + Zlen ds)).
    assert (GQ : forall j, grouped q j = grouped p j || existsb (Z.eqb j) (ids_from (p_next p) (length ds))).
    { intros j. unfold grouped, q, q0, with_next. cbn [p_xor]. rewrite existsb_app. cbn [existsb]. now rewrite orb_false_r. }
    assert (W1 : wf q h1).
    { eapply wf_frame; eauto; unfold q, q0; cbn [with_next p_args p_num p_next]; try lia; auto.
      - intros i I. apply C2. destruct (Z.ltb_spec i (p_next p)); [lia|]. now apply NI in I.
      - fold q0 q. intros i I. rewrite GQ in I. apply orb_true_iff in I as [I|I].
        + apply (wf_grp _ _ W) in I. lia.
        + apply mem_true, ids_from_in in I. unfold Zlen. lia.
      - fold q0 q. intros i I. rewrite GQ. assert (existsb (Z.eqb i) (ids_from (p_next p) (length ds)) = false) as ->.
        { apply mem_false. rewrite ids_from_in. intros Q. apply (NI i); [lia|auto]. }
        apply orb_false_r. }
    assert (Nx : forall ds p h i n, add_all (with_next p n) h i ds =
               match add_all p h i ds with Ok (p1, h1) => Ok (with_next p1 n, h1) | Throw e => Throw e | UB => UB end).
    { clear. induction ds as [|d ds IH]; intros p h i n; [reflexivity|]. cbn [add_all]. unfold add.
      cbn [with_next p_args p_xor p_num p_next]. destruct (existsb _ (p_args p)); [reflexivity|]. cbn [bind].
      rewrite <- IH. reflexivity. }
    assert (A' : add_all q h1 (p_next p) ds = Ok (with_next p1 (p_next p + Zlen ds), h2)).
    { unfold q. rewrite Nx, A. reflexivity. }
    apply add_all_wf in A' as (A1 & A2 & A3 & A4); auto; try (cbn; lia).
    { split; [auto|]. split; [cbn [with_next p_next]; lia|]. split; [exact A3|]. split; [|split; congruence].
      intros x. rewrite A4. unfold q, q0. cbn [with_next p_args]. tauto. }
    intros j J. split.
    + rewrite GQ. apply orb_true_iff. right. apply mem_true, ids_from_in. unfold Zlen in J. lia.
    + unfold q, q0. cbn [with_next p_args]. apply NI. lia.
Qed.

Fixpoint numbered (i : Z) (cs : list dcl) : list (Z * decl) :=
  match cs with
  | [] => []
  | c :: cs => combine (ids_from i (length (dcl_decls c))) (dcl_decls c)
               ++ numbered (i + Zlen (dcl_decls c)) cs
  end.
Fixpoint groups (i : Z) (cs : list dcl) : list (list Z) :=
  match cs with [] => [] | c :: cs => dcl_group i c ++ groups (i + Zlen (dcl_decls c)) cs end.

Lemma declare_all_wf cs : forall g p h g' p' h', wf p h -> 0 <= p_next p ->
  declare_all g p h cs = Ok (g', p', h') ->
  wf p' h' /\ p_xor p' = p_xor p ++ groups (p_next p) cs
  /\ (forall x, In x (p_args p') <-> In x (numbered (p_next p) cs) \/ In x (p_args p))
  /\ g_delim g' = g_delim g /\ g_ignore g' = g_ignore g.
Proof.
  induction cs as [|c cs IH]; intros g p h g' p' h' W L E; cbn [declare_all] in E.
  - injection E as <- <- <-. cbn [groups numbered]. rewrite app_nil_r. cbn [In]. intuition.
  - destruct (declare g p h c) as [[[g1 p1] h1]| |] eqn:D; try discriminate. cbn [bind] in E.
    apply declare_wf in D as (D1 & D2 & D3 & D4 & D5 & D6); auto.
    pose proof (Zlen_nonneg (dcl_decls c)).
    apply IH in E as (E1 & E2 & E3 & E4 & E5); auto; try lia.
    split; [auto|]. split; [|split; [|split; congruence]].
    + rewrite E2, D3, D2. cbn [groups]. now rewrite app_assoc.
    + intros x. rewrite E3, D4, D2. cbn [numbered]. rewrite in_app_iff. tauto.
Qed.

(** The declarations a program makes, with the built-in ones in front. *)
Definition all_dcls (help : bool) (cs : list dcl) : list dcl :=
  (if help then [DOne d_help; DOne d_version] else []) ++ [DOne d_ignore] ++ cs.

Lemma build_wf g delim help cs g' p h : build g delim help cs = Ok (g', p, h) ->
  wf p h /\ p_xor p = groups 0 (all_dcls help cs)
  /\ (forall x, In x (p_args p) <-> In x (numbered 0 (all_dcls help cs)))
  /\ g_delim g' = delim /\ g_ignore g' = g_ignore g.
Proof.
  unfold build. fold (all_dcls help cs). intros E.
  apply declare_all_wf in E as (E1 & E2 & E3 & E4 & E5); cbn [p_next]; try lia.
  - split; [auto|]. split; [auto|]. split; [|split; auto]. intros x. rewrite E3. cbn. tauto.
  - constructor; cbn [p_args p_xor p_num p_next map filter In]; try easy.
    + constructor.
    + exists [], []. easy.
Qed.

(** * Reading values *)

(** Space, tab, newline, vertical tab, form feed, carriage return. *)
Definition white (c : Z) : bool := (c =? 32) || ((9 <=? c) && (c <=? 13)).
(** What texts denote an integer: white space, an optional sign, digits, and the number fits an int. *)
Definition reads_int (w : str) (z : Z) : Prop :=
  exists ws sg ds, w = ws ++ sg ++ ds
    /\ forallb white ws = true
    /\ ((sg = [] \/ sg = [43]) /\ z = dval ds \/ sg = [45] /\ z = - dval ds)
    /\ ds <> [] /\ forallb is_digit ds = true
    /\ - 2 ^ 31 <= z < 2 ^ 31.
Definition reads (t : ty) (w : str) (v : val) : Prop :=
  match t with
  | TStr => v = VStr w
  | TInt => exists z, v = VInt z /\ reads_int w z
  end.

Lemma take_digits_spec s : forall d r, take_digits s = (d, r) ->
  s = d ++ r /\ forallb is_digit d = true /\ (forall c t, r = c :: t -> is_digit c = false).
Proof.
  induction s as [|c s IH]; intros d r E; cbn [take_digits] in E.
  - injection E as <- <-. split; [easy|]. split; [easy|]. discriminate.
  - destruct (is_digit c) eqn:D.
    + destruct (take_digits s) as [d' r'] eqn:T. injection E as <- <-.
      destruct (IH _ _ eq_refl) as (-> & A & B). split; [easy|]. split; auto. cbn [forallb]. now rewrite D.
    + injection E as <- <-. split; [easy|]. split; [easy|]. intros ? ? Q. now injection Q as <- <-.
Qed.

Lemma take_digits_all s : forallb is_digit s = true -> take_digits s = (s, []).
Proof.
  induction s as [|c s IH]; [easy|]. cbn [forallb take_digits]. intros E. bsplit. rewrite H, IH; auto.
Qed.

Lemma skip_ws_spec s : exists ws, s = ws ++ skip_ws s /\ forallb is_ws ws = true.
Proof.
  induction s as [|c s (ws & E & A)]; [now exists []|]. cbn [skip_ws]. destruct (is_ws c) eqn:W.
  - exists (c :: ws). cbn [app forallb]. rewrite W. split; [congruence|auto].
  - now exists [].
Qed.

Lemma skip_ws_app ws t : forallb is_ws ws = true -> (forall c r, t = c :: r -> is_ws c = false) ->
  skip_ws (ws ++ t) = t.
Proof.
  induction ws as [|c ws IH]; cbn [app forallb skip_ws]; intros A B.
  - destruct t as [|c r]; [easy|]. cbn [skip_ws]. now rewrite (B _ _ eq_refl).
  - bsplit. rewrite H. auto.
Qed.

Lemma read_int_whole s v : read_int s = Some (v, []) <-> reads_int s v.
Proof.
  split.
  - unfold read_int. destruct (skip_ws_spec s) as (ws & E & A). set (s1 := skip_ws s) in *.
    set (p := match s1 with c :: t => if c =? 45 then (-1, t) else if c =? 43 then (1, t) else (1, s1) | [] => (1, []) end).
    assert (P : exists sg, s1 = sg ++ snd p /\ ((sg = [] \/ sg = [43]) /\ fst p = 1 \/ sg = [45] /\ fst p = -1)).
    { unfold p. destruct s1 as [|c t]; [exists []; auto|]. destruct (Z.eqb_spec c 45); [subst; exists [45]; auto|].
      destruct (Z.eqb_spec c 43); [subst; exists [43]; auto|]. exists []. auto. }
    destruct p as [sg1 s2]. cbn [fst snd] in P. destruct P as (sg & E1 & SG).
    destruct (take_digits s2) as [d r] eqn:T. apply take_digits_spec in T as (E2 & D & _).
    destruct d as [|c d]; [discriminate|]. destruct (in_int (sg1 * dval (c :: d))) eqn:I; [|discriminate].
    intros Q. injection Q as <- ->. rewrite app_nil_r in E2.
    exists ws, sg, (c :: d). split; [congruence|]. split; auto. split.
    { destruct SG as [[SG ->]|[SG ->]]; [left|right]; split; auto; lia. }
    split; [discriminate|]. split; auto. unfold in_int, int_min, int_max in I. lia.
  - intros (ws & sg & ds & -> & W & SG & N & D & R).
    assert (ND : forall c r, ds = c :: r -> is_ws c = false /\ c <> 45 /\ c <> 43).
    { intros c r ->. cbn [forallb] in D. bsplit. unfold is_digit in *. unfold is_ws. lia. }
    unfold read_int. rewrite skip_ws_app; auto.
    2:{ intros c r Q. destruct SG as [[[->| ->] _]|[-> _]]; cbn [app] in Q.
        - now apply ND in Q. - now injection Q as <- _. - now injection Q as <- _. }
    assert (I : in_int v = true) by (unfold in_int, int_min, int_max; lia).
    destruct ds as [|c ds]; [congruence|]. destruct (ND _ _ eq_refl) as (_ & N1 & N2).
    destruct SG as [[[->| ->] ->]|[-> ->]]; cbn [app].
    + destruct (Z.eqb_spec c 45); [lia|]. destruct (Z.eqb_spec c 43); [lia|].
      rewrite take_digits_all by auto. now rewrite Z.mul_1_l, I.
    + cbn [Z.eqb Pos.eqb]. rewrite take_digits_all by auto. now rewrite Z.mul_1_l, I.
    + cbn [Z.eqb Pos.eqb]. rewrite take_digits_all by auto.
      replace (-1 * dval (c :: ds)) with (- dval (c :: ds)) by lia. now rewrite I.
Qed.

Lemma extract_loop_two fuel : forall s n last, 1 <= n -> s <> [] ->
  forall v, extract_loop fuel s n last <> XVal v.
Proof.
  induction fuel as [|f IH]; intros s n last L N v; cbn [extract_loop]; [discriminate|].
  destruct s as [|c s]; [congruence|]. destruct (read_int (c :: s)) as [[z [|c' r]]|]; [|apply IH; [lia|discriminate]|discriminate].
  destruct (Z.ltb_spec 1 (n + 1)); [discriminate|lia].
Qed.

Lemma extract_int s v : extract TInt s = XVal v <->
  (s = [] /\ v = None) \/ (exists z, v = Some (VInt z) /\ reads_int s z).
Proof.
  cbn [extract extract_loop]. destruct s as [|c s].
  - cbn. split.
    + intros E. injection E as <-. auto.
    + intros [[_ ->]|(z & -> & (ws & sg & ds & E & _ & _ & N & _))]; [easy|].
      symmetry in E. apply app_eq_nil in E as [_ E]. apply app_eq_nil in E as [_ E]. congruence.
  - destruct (read_int (c :: s)) as [[z [|c' r]]|] eqn:R.
    + cbn. apply read_int_whole in R. split.
      * intros E. injection E as <-. right. eauto.
      * intros [[E _]|(z' & -> & Q)]; [discriminate|]. do 2 f_equal. f_equal.
        apply read_int_whole in R, Q. congruence.
    + split.
      * intros E. apply extract_loop_two in E; [easy|lia|discriminate].
      * intros [[E _]|(z' & -> & Q)]; [discriminate|]. apply read_int_whole in Q. congruence.
    + split; [discriminate|]. intros [[E _]|(z' & -> & Q)]; [discriminate|]. apply read_int_whole in Q. congruence.
Qed.

Lemma extract_some t s v : extract t s = XVal (Some v) <-> reads t s v.
Proof.
  destruct t.
  - cbn [extract reads]. split; [intros E; now injection E as <-|intros ->; easy].
  - rewrite extract_int. cbn [reads]. split.
    + intros [[_ Q]|(z & Q & R)]; [discriminate|]. injection Q as ->. eauto.
    + intros (z & -> & R). right. eauto.
Qed.

Lemma extract_none t s : extract t s = XVal None <-> t = TInt /\ s = [].
Proof.
  destruct t.
  - cbn [extract]. split; [discriminate|intros [Q _]; discriminate].
  - rewrite extract_int. split.
    + intros [[-> _]|(z & Q & _)]; [auto|discriminate].
    + intros [_ ->]. auto.
Qed.

(** * What a command line says *)

Inductive item :=
| ISwitch (i : Z) (d : decl) (long : bool)
| ICombined (l : list (Z * decl))
| IValue (i : Z) (d : decl) (long : bool) (w : str)
| IPlain (i : Z) (d : decl) (w : str).

Definition flag_word (d : decl) (long : bool) : str :=
  if long then [45; 45] ++ d_name d else [45] ++ d_flag d.

(** How often switch [i] is given, and the value texts given for argument [i], in order. *)
Definition item_times (i : Z) (it : item) : Z :=
  match it with
  | ISwitch j _ _ => if i =? j then 1 else 0
  | ICombined l => Zlen (filter (fun x => i =? fst x) l)
  | _ => 0
  end.
Definition item_given (i : Z) (it : item) : list str :=
  match it with
  | IValue j _ _ w | IPlain j _ w => if i =? j then [w] else []
  | _ => []
  end.
Fixpoint times (i : Z) (its : list item) : Z :=
  match its with [] => 0 | it :: r => item_times i it + times i r end.
Fixpoint given (i : Z) (its : list item) : list str :=
  match its with [] => [] | it :: r => item_given i it ++ given i r end.

Lemma times_app i a b : times i (a ++ b) = times i a + times i b.
Proof. induction a as [|x a IH]; cbn [app times]; lia. Qed.
Lemma given_app i a b : given i (a ++ b) = given i a ++ given i b.
Proof. induction a as [|x a IH]; cbn [app given]; [easy|]. now rewrite IH, app_assoc. Qed.
Lemma item_times_nonneg i it : 0 <= item_times i it.
Proof. destruct it; cbn [item_times]; ifs; try lia; apply Zlen_nonneg. Qed.
Lemma times_nonneg i its : 0 <= times i its.
Proof. induction its as [|x a IH]; cbn [times]; [lia|]. pose proof (item_times_nonneg i x). lia. Qed.

Definition permitted (d : decl) (v : val) : Prop :=
  match d_allowed d with None => True | Some l => In v l end.

Lemma veqb_true a b : veqb a b = true <-> a = b.
Proof.
  destruct a, b; cbn [veqb]; rewrite ?seqb_true, ?Z.eqb_eq; split; intros; try discriminate; congruence.
Qed.

Lemma allowed_permitted d v : allowed d v = true <-> permitted d v.
Proof.
  unfold allowed, permitted. destruct (d_allowed d) as [l|]; [|easy]. rewrite existsb_exists. split.
  - intros (x & I & E). apply veqb_true in E. now subst.
  - intros I. exists v. split; auto. now apply veqb_true.
Qed.

(** The values argument [d] must hold when the texts [ws] were given for it. *)
Definition vals_ok (d : decl) (ws : list str) (vs : list val) : Prop :=
  match d_kind d with
  | KValue t | KUValue t =>
      match ws with
      | [] => vs = [d_default d]
      | [w] => (exists v, reads t w v /\ permitted d v /\ vs = [v])
               \/ (t = TInt /\ w = [] /\ vs = [d_default d])
      | _ => False
      end
  | KMulti t | KUMulti t => Forall2 (fun w v => reads t w v /\ permitted d v) ws vs
  | _ => vs = [] /\ ws = []
  end.

(** The state of argument [i] after the items [its]. *)
Record st_ok (i : Z) (d : decl) (its : list item) (a : dyn) : Prop := mkSt {
  st_req : a_req a = a_req (fresh d);
  st_xor : a_xor a = false;
  st_set : a_set a = (0 <? times i its) || (0 <? Zlen (given i its));
  st_on : a_on a = match d_kind d with
                   | KSwitch => if 0 <? times i its then negb (d_on d) else d_on d
                   | _ => d_on d end;
  st_once : d_kind d = KSwitch -> times i its <= 1;
  st_count : a_count a = match d_kind d with KMultiSwitch => d_count d + times i its | _ => d_count d end;
  st_vals : vals_ok d (given i its) (a_vals a)
}.

Lemma st_ok_fresh i d : st_ok i d [] (fresh d).
Proof.
  constructor; cbn [fresh a_req a_xor a_set a_on a_count a_vals times given]; auto.
  - destruct (d_kind d); easy.
  - lia.
  - destruct (d_kind d); lia.
  - unfold vals_ok. destruct (d_kind d); auto; constructor.
Qed.

Lemma st_ok_other i d its it a : st_ok i d its a -> item_times i it = 0 -> item_given i it = [] ->
  st_ok i d (its ++ [it]) a.
Proof.
  intros [A B C D E F G] T V.
  assert (T' : times i (its ++ [it]) = times i its) by (rewrite times_app; cbn [times]; lia).
  assert (V' : given i (its ++ [it]) = given i its) by (rewrite given_app; cbn [given]; rewrite V; apply app_nil_r).
  constructor; rewrite ?T', ?V'; auto.
Qed.

(** * Scanning *)

(** No argument of [d]'s kind reacts to [w]. *)
Definition quiet (delim : Z) (d : decl) (a : dyn) (w : str) : Prop :=
  match d_kind d with
  | KSwitch | KMultiSwitch => arg_matches d w = false /\ combined_match d w = None
  | KValue _ | KMulti _ => has_blanks w = true \/ arg_matches d (fst (trim_flag delim w)) = false
  | KUValue _ => a_set a = true \/ has_blanks w = true
  | KUMulti _ => has_blanks w = true
  end.

Lemma process_quiet g d a w rest : quiet (g_delim g) d a w -> process g d a w rest = PNo w a g.
Proof.
  unfold quiet, process. destruct (d_kind d).
  - intros [A B]. unfold switch_process. rewrite A, B. now destruct (g_ignore g).
  - intros [A B]. unfold multi_switch_process. rewrite A, B. now destruct (g_ignore g).
  - intros Q. unfold labelled_process. destruct (g_ignore g); [easy|]. destruct (has_blanks w); [easy|].
    destruct Q as [Q|Q]; [discriminate|]. destruct (trim_flag (g_delim g) w) as [f v]. cbn [fst] in Q. now rewrite Q.
  - intros Q. unfold labelled_process. destruct (g_ignore g); [easy|]. destruct (has_blanks w); [easy|].
    destruct Q as [Q|Q]; [discriminate|]. destruct (trim_flag (g_delim g) w) as [f v]. cbn [fst] in Q. now rewrite Q.
  - intros Q. unfold uvalue_process. destruct (a_set a); [easy|]. destruct Q as [Q|Q]; [discriminate|]. now rewrite Q.
  - intros Q. unfold umulti_process. now rewrite Q.
Qed.

Lemma scan_quiet xs l l2 g w rest : forall h,
  (forall i d, In (i, d) l -> quiet (g_delim g) d (h i) w) ->
  exists h', (forall j, h' j = h j) /\ scan xs (l ++ l2) g h w rest = scan xs l2 g h' w rest.
Proof.
  induction l as [|[i d] l IH]; intros h Q; cbn [app]; [now exists h|]. cbn [scan].
  rewrite process_quiet by (apply Q; now left).
  assert (HE : forall j, hset h i (h i) j = h j).
  { intros j. destruct (Z.eq_dec j i) as [->|]; [apply hset_same|now apply hset_other]. }
  destruct (IH (hset h i (h i))) as (h' & A & B).
  { intros j d' I. rewrite HE. apply Q. now right. }
  exists h'. split; auto. intros j. now rewrite A, HE.
Qed.

(** Scanning a word that is not a combination of switches: the first argument that reacts decides. *)
Lemma scan_simple xs l g w rest : forall h,
  (forall i d, In (i, d) l -> is_switch (d_kind d) = true -> arg_matches d w = false -> combined_match d w = None) ->
  g_ignore g = false ->
  match scan xs l g h w rest with
  | SNone w' h' g' => w' = w /\ g' = g /\ (forall j, h' j = h j)
  | SMatch took h' g' n =>
      exists i d a h0, In (i, d) l /\ (forall j, h0 j = h j)
        /\ process g d (h i) w rest = PYes took a g'
        /\ (h', n) = xor_check xs (hset h0 i a) i d
  | _ => True
  end.
Proof.
  induction l as [|[i d] l IH]; intros h Q IG; cbn [scan]; [auto|].
  assert (HE : forall j, hset h i (h i) j = h j).
  { intros j. destruct (Z.eq_dec j i) as [->|]; [apply hset_same|now apply hset_other]. }
  destruct (process g d (h i) w rest) as [w' a g'|took a g'|e| |] eqn:P; auto.
  - assert (E : w' = w /\ a = h i /\ g' = g).
    { clear IH. specialize (Q i d ltac:(now left)). unfold process in P. destruct (d_kind d) eqn:K; cbn [is_switch] in Q.
      - unfold switch_process in P. rewrite IG in P. destruct (arg_matches d w) eqn:M.
        + destruct (a_set (h i)); [discriminate|]. destruct (visit d g); discriminate.
        + rewrite Q in P by auto. injection P as <- <- <-. auto.
      - unfold multi_switch_process in P. rewrite IG in P. destruct (arg_matches d w) eqn:M.
        + destruct (in_int _); [|discriminate]. destruct (visit d g); discriminate.
        + rewrite Q in P by auto. injection P as <- <- <-. auto.
      - unfold labelled_process in P. rewrite IG in P. destruct (has_blanks w); [injection P as <- <- <-; auto|].
        destruct (trim_flag (g_delim g) w) as [f v]. destruct (arg_matches d f); [|injection P as <- <- <-; auto].
        cbn [negb andb] in P. destruct (a_set (h i)); [discriminate|].
        destruct (negb (g_delim g =? c_space) && seqb v []); [discriminate|]. destruct (seqb v []).
        + destruct rest as [|s rest]; [discriminate|]. destruct (value_extract t d (h i) s) as [e|x]; [discriminate|]. destruct (visit d g); discriminate.
        + destruct (value_extract t d (h i) v) as [e|x]; [discriminate|]. destruct (visit d g); discriminate.
      - unfold labelled_process in P. rewrite IG in P. destruct (has_blanks w); [injection P as <- <- <-; auto|].
        destruct (trim_flag (g_delim g) w) as [f v]. destruct (arg_matches d f); [|injection P as <- <- <-; auto].
        cbn [negb andb] in P.
        destruct (negb (g_delim g =? c_space) && seqb v []); [discriminate|]. destruct (seqb v []).
        + destruct rest as [|s rest]; [discriminate|]. destruct (multi_extract t d (h i) s) as [[e|x]|]; try discriminate. destruct (visit d g); discriminate.
        + destruct (multi_extract t d (h i) v) as [[e|x]|]; try discriminate. destruct (visit d g); discriminate.
      - unfold uvalue_process in P. destruct (a_set (h i)); [injection P as <- <- <-; auto|].
        destruct (has_blanks w); [injection P as <- <- <-; auto|].
        destruct (value_extract t d (h i) w) as [e|x]; discriminate.
      - unfold umulti_process in P. destruct (has_blanks w); [injection P as <- <- <-; auto|].
        destruct (multi_extract t d (h i) w) as [[e|x]|]; discriminate. }
    destruct E as (-> & -> & ->).
    specialize (IH (hset h i (h i))). cbn beta in IH.
    assert (Q' : forall i d, In (i, d) l -> is_switch (d_kind d) = true -> arg_matches d w = false -> combined_match d w = None).
    { intros j d' I. apply (Q j d'). now right. }
    specialize (IH Q' IG).
    destruct (scan xs l g (hset h i (h i)) w rest) as [took h' g' n|w' h' g'| | |]; auto.
    + destruct IH as (j & d' & a & h0 & I & E & P' & X). exists j, d', a, h0. split; [now right|].
      split; [intros; now rewrite E, HE|]. split; auto. now rewrite HE in P'.
    + destruct IH as (-> & -> & E). split; [auto|]. split; auto. intros. now rewrite E, HE.
  - destruct (xor_check xs (hset h i a) i d) as [h' n] eqn:X. exists i, d, a, h. split; [now left|]. auto.
Qed.

(** * Words and flags *)

(** Names and flags that contain neither NUL, nor the blank character, nor the delimiter. *)
Definition names_ok (p : parser) (delim : Z) : Prop :=
  delim <> 45 /\ delim <> 42 /\ delim <> 0
  /\ forall i d, In (i, d) (p_args p) ->
     forall c, In c (d_name d ++ d_flag d) -> c <> 0 /\ c <> 42 /\ c <> delim.

(** Only the built-in switches have visitors. *)
Definition vis_ok (p : parser) : Prop :=
  forall i d, In (i, d) (p_args p) ->
    d_vis d = NoVis \/ (d_kind d = KSwitch /\
      (d_vis d = VHelp \/ d_vis d = VVersion
       \/ (d_vis d = VIgnore /\ d_flag d = [45] /\ d_name d = n_ignore))).

Lemma arg_matches_iff d w : arg_matches d w = true <->
  (w = flag_word d false /\ d_flag d <> []) \/ w = flag_word d true.
Proof.
  unfold arg_matches, flag_word, c_dash. cbn [app]. rewrite orb_true_iff, andb_true_iff, negb_true_iff, !seqb_true, seqb_false. tauto.
Qed.

Lemma arg_matches_false d w : arg_matches d w = false <->
  ~ ((w = flag_word d false /\ d_flag d <> []) \/ w = flag_word d true).
Proof. rewrite <- arg_matches_iff. destruct (arg_matches d w); split; congruence. Qed.

Lemma flag_one f n : ctor_ok f n = true -> f <> [] -> exists c, f = [c].
Proof. intros C N. apply ctor_flag in C as ([->|(c & -> & _)] & _); [congruence|eauto]. Qed.

Lemma match_unique p h i d j d' w : wf p h -> In (i, d) (p_args p) -> In (j, d') (p_args p) ->
  w <> [45; 45] -> arg_matches d w = true -> arg_matches d' w = true -> i = j.
Proof.
  intros W I J NW M M'. apply arg_matches_iff in M, M'. unfold flag_word in *. cbn [app] in *.
  destruct (wf_ctor _ _ W _ _ I) as [C _], (wf_ctor _ _ W _ _ J) as [C' _].
  destruct M as [[M N]|M], M' as [[M' N']|M']; subst w.
  - injection M' as M'. eapply (wf_flags _ _ W); eauto.
  - destruct (flag_one _ _ C N) as (c & F). rewrite F in *. injection M' as E1 E2. elim NW. congruence.
  - destruct (flag_one _ _ C' N') as (c & F). rewrite F in *. injection M' as E1 E2. elim NW. congruence.
  - injection M' as M'. eapply (wf_names _ _ W); eauto.
Qed.

Lemma cut_none delim w : ~ In delim w -> cut delim w = None.
Proof.
  induction w as [|c w IH]; [easy|]. cbn [cut In]. intros N. destruct (Z.eqb_spec c delim); [tauto|].
  rewrite IH by tauto. reflexivity.
Qed.

Lemma cut_app delim a b : ~ In delim a -> cut delim (a ++ delim :: b) = Some (a, b).
Proof.
  induction a as [|c a IH]; cbn [app cut In]; intros N.
  - now rewrite Z.eqb_refl.
  - destruct (Z.eqb_spec c delim); [tauto|]. rewrite IH by tauto. reflexivity.
Qed.

Lemma cut_some delim w : forall a b, cut delim w = Some (a, b) -> w = a ++ delim :: b /\ ~ In delim a.
Proof.
  induction w as [|c w IH]; intros a b E; cbn [cut] in E; [discriminate|].
  destruct (Z.eqb_spec c delim).
  - injection E as <- <-. subst. auto.
  - destruct (cut delim w) as [[a' b']|]; [|discriminate]. injection E as <- <-.
    destruct (IH _ _ eq_refl) as [-> N]. split; [easy|]. cbn [In]. tauto.
Qed.

Lemma trim_none delim w : ~ In delim w -> trim_flag delim w = (w, []).
Proof. intros N. unfold trim_flag. now rewrite cut_none. Qed.

Lemma trim_app delim a b : ~ In delim a -> 1 < Zlen a -> trim_flag delim (a ++ delim :: b) = (a, b).
Proof. intros N L. unfold trim_flag. rewrite cut_app by auto. destruct (Z.ltb_spec 1 (Zlen a)); [easy|lia]. Qed.

Lemma trim_inv delim w f v : trim_flag delim w = (f, v) -> (f = w /\ v = []) \/ w = f ++ delim :: v.
Proof.
  unfold trim_flag. destruct (cut delim w) as [[a b]|] eqn:C.
  - apply cut_some in C as [-> N]. destruct (1 <? Zlen a); intros E; injection E as <- <-; auto.
  - intros E; injection E as <- <-; auto.
Qed.

(** ** Combined switches *)

Definition bl (F cs : str) : str := map (fun c => if has c F then 42 else c) cs.

Lemma bl_in c F cs : In c (bl F cs) -> c = 42 \/ (In c cs /\ ~ In c F).
Proof.
  unfold bl. rewrite in_map_iff. intros (x & E & I). destruct (has x F) eqn:Q; [auto|]. subst. apply has_false in Q. auto.
Qed.

Lemma bl_in2 c F cs : In c cs -> ~ In c F -> In c (bl F cs).
Proof.
  intros I N. unfold bl. rewrite in_map_iff. exists c. split; auto. apply has_false in N. now rewrite N.
Qed.

Lemma bl_nil cs : bl [] cs = cs.
Proof. unfold bl. cbn. apply map_id. Qed.

Lemma bl_absent F G cs : (forall c, In c cs -> In c G -> In c F) -> bl (G ++ F) cs = bl F cs.
Proof.
  intros A. unfold bl. apply map_ext_in. intros c I.
  assert (has c (G ++ F) = has c F) as ->; [|easy].
  destruct (has c F) eqn:Q; [apply has_true; apply has_true in Q; apply in_app_iff; auto|].
  apply has_false. apply has_false in Q. rewrite in_app_iff. intros [X|X]; auto.
Qed.

Lemma bl_same F cs : ~ In 42 cs -> ~ In 42 (bl F cs) -> bl F cs = cs.
Proof.
  induction cs as [|c cs IH]; [easy|]. unfold bl in *. cbn [map In]. intros A B.
  destruct (has c F); [tauto|]. f_equal. tauto.
Qed.

Lemma bl_no42 F cs : ~ In 42 (bl F cs) -> forall c, In c cs -> ~ In c F.
Proof.
  intros N c I J. apply N. unfold bl. rewrite in_map_iff. exists c. split; auto.
  apply has_true in J. now rewrite J.
Qed.

Lemma blank_first_none c s : ~ In c s -> blank_first c s = None.
Proof.
  induction s as [|x s IH]; [easy|]. cbn [blank_first In]. intros N. destruct (Z.eqb_spec x c); [tauto|].
  now rewrite IH by tauto.
Qed.

Lemma blank_first_some c s : In c s -> exists s1, blank_first c s = Some s1.
Proof.
  induction s as [|x s IH]; [easy|]. cbn [blank_first In]. intros I. destruct (Z.eqb_spec x c); [eauto|].
  destruct IH as (s1 & ->); [|eauto]. destruct I; [congruence|auto].
Qed.

Lemma blank_first_one c s : In c s -> occurrences c s = 1 -> c <> 42 ->
  blank_first c s = Some (blank_all c s).
Proof.
  induction s as [|x s IH]; [easy|]. cbn [blank_first In]. intros I O N.
  unfold occurrences in *. cbn [filter] in O. unfold blank_all in *. cbn [map].
  rewrite (Z.eqb_sym c x) in O. destruct (Z.eqb_spec x c).
  - f_equal. f_equal. rewrite Zlen_cons in O. assert (E : filter (Z.eqb c) s = []).
    { destruct (filter (Z.eqb c) s); [easy|]. rewrite Zlen_cons in O. pose proof (Zlen_nonneg l). lia. }
    clear -E. induction s as [|y s IH]; [easy|]. cbn [filter map] in *. rewrite (Z.eqb_sym y c).
    destruct (c =? y); [discriminate|]. f_equal. auto.
  - rewrite IH; auto. destruct I; [congruence|auto].
Qed.

Lemma blank_first_len c s s1 : blank_first c s = Some s1 -> Zlen s1 = Zlen s.
Proof.
  revert s1. induction s as [|x s IH]; intros s1 E; [discriminate|]. cbn [blank_first] in E.
  destruct (x =? c); [injection E as <-; now rewrite !Zlen_cons|].
  destruct (blank_first c s) as [t|]; [|discriminate]. injection E as <-. rewrite !Zlen_cons. now rewrite (IH t).
Qed.

Lemma blank_first_many c s s1 : blank_first c s = Some s1 -> 2 <= occurrences c s -> In c s1.
Proof.
  revert s1. induction s as [|x s IH]; intros s1 E O; [discriminate|]. cbn [blank_first] in E.
  unfold occurrences in *. cbn [filter] in O. rewrite (Z.eqb_sym c x) in O. destruct (Z.eqb_spec x c).
  - injection E as <-. rewrite Zlen_cons in O. right. destruct (filter (Z.eqb c) s) as [|y l] eqn:F; [rewrite Zlen_nil in O; lia|].
    assert (I : In y (filter (Z.eqb c) s)) by (rewrite F; now left). apply filter_In in I as [I Q]. apply Z.eqb_eq in Q. now subst.
  - destruct (blank_first c s) as [s2|]; [|discriminate]. injection E as <-. right. apply IH; auto.
Qed.

Lemma occurrences_pos c s : In c s <-> 1 <= occurrences c s.
Proof.
  unfold occurrences. split.
  - intros I. destruct (filter (Z.eqb c) s) as [|y l] eqn:F; [|rewrite Zlen_cons; pose proof (Zlen_nonneg l); lia].
    assert (Q : In c (filter (Z.eqb c) s)) by (apply filter_In; split; auto; apply Z.eqb_refl). rewrite F in Q. easy.
  - intros L. destruct (filter (Z.eqb c) s) as [|y l] eqn:F; [rewrite Zlen_nil in L; lia|].
    assert (I : In y (filter (Z.eqb c) s)) by (rewrite F; now left). apply filter_In in I as [I Q]. apply Z.eqb_eq in Q. now subst.
Qed.

Lemma occurrences_bl c F cs : ~ In c F -> c <> 42 -> occurrences c (bl F cs) = occurrences c cs.
Proof.
  intros N S. induction cs as [|x cs IH]; [easy|]. unfold occurrences, bl in *. cbn [map filter].
  destruct (has x F) eqn:Q.
  - apply has_true in Q. destruct (Z.eqb_spec c 42); [lia|]. destruct (Z.eqb_spec c x); [congruence|]. exact IH.
  - destruct (c =? x); rewrite ?Zlen_cons; lia.
Qed.

Lemma blank_all_bl c F cs : ~ In c F -> c <> 42 -> blank_all c (bl F cs) = bl ([c] ++ F) cs.
Proof.
  intros N S. unfold blank_all, bl. rewrite map_map. apply map_ext. intros x. cbn [app]. unfold has. cbn [existsb].
  fold (has x F). destruct (has x F) eqn:Q.
  - rewrite orb_true_r. destruct (Z.eqb_spec 42 c); [lia|reflexivity].
  - rewrite orb_false_r. reflexivity.
Qed.

Lemma combined_bl d F cs : cs <> [] -> ~ In 45 cs ->
  combined_match d (45 :: bl F cs)
  = match blank_first (flag_char d) (bl F cs) with Some t => Some (45 :: t) | None => None end.
Proof.
  intros N D. destruct cs as [|c cs]; [congruence|]. unfold bl. cbn [map].
  assert (Y : (if has c F then 42 else c) <> 45).
  { destruct (has c F); [lia|]. intros ->. apply D. now left. }
  revert Y. generalize (if has c F then 42 else c). intros y Y.
  unfold combined_match, c_dash. change (negb (45 =? 45)) with false. cbn iota.
  apply Z.eqb_neq in Y. now rewrite Y.
Qed.

(** The effect of a combined word on one argument. *)
Definition comb_upd (cs : str) (d : decl) (a : dyn) : dyn :=
  match d_kind d, d_flag d with
  | KSwitch, [c] => if has c cs then set_switch a (negb (a_on a)) else a
  | KMultiSwitch, [c] => if has c cs then set_count a (a_count a + occurrences c cs) else a
  | _, _ => a
  end.
Definition comb_fine (cs : str) (d : decl) (a : dyn) : Prop :=
  match d_kind d, d_flag d with
  | KSwitch, [c] => In c cs -> a_set a = false /\ occurrences c cs = 1
  | KMultiSwitch, [c] => In c cs -> in_int (a_count a + occurrences c cs) = true
  | _, _ => True
  end.
Definition sw_flag (d : decl) : str := if is_switch (d_kind d) then d_flag d else [].

(** A proper combination: at least two characters after a single dash, no NUL, no further dash. *)
Definition proper (cs : str) : Prop := 2 <= Zlen cs /\ ~ In 45 cs /\ ~ In 0 cs.

Lemma proper_no_match d F cs : proper cs -> ctor_ok (d_flag d) (d_name d) = true ->
  arg_matches d (45 :: bl F cs) = false.
Proof.
  intros (L & D & _) C. apply arg_matches_false. unfold flag_word. cbn [app]. intros [[E N]|E].
  - destruct (flag_one _ _ C N) as (c & Q). rewrite Q in E. injection E as E.
    assert (Zlen (bl F cs) = 1) by (rewrite E; reflexivity). unfold bl in *. rewrite Zlen_map in *. lia.
  - injection E as E. destruct cs as [|c cs]; [discriminate|].
    unfold bl in E. cbn [map] in E. destruct (has c F); injection E as E _; [lia|]. elim D. now left.
Qed.

Lemma comb_switch g d a F cs rest : proper cs -> ctor_ok (d_flag d) (d_name d) = true ->
  (forall c, In c (d_flag d) -> c <> 42 /\ c <> 0 /\ ~ In c F) -> g_ignore g = false ->
  is_switch (d_kind d) = true ->
  (forall c, In c (d_flag d) -> In c cs -> d_vis d = NoVis) ->
  (process g d a (45 :: bl F cs) rest = PNo (45 :: bl (sw_flag d ++ F) cs) (comb_upd cs d a) g /\ comb_fine cs d a)
  \/ ((process g d a (45 :: bl F cs) rest = PErr EAlreadySet \/ process g d a (45 :: bl F cs) rest = PUB)
      /\ ~ comb_fine cs d a).
Proof.
  intros P C NF IG S V. pose proof (proper_no_match d F cs P C) as NM. pose proof C as C0. pose proof P as P0.
  destruct P as (L & D & Z0).
  assert (CS : cs <> []) by (intros ->; rewrite Zlen_nil in L; lia).
  pose proof (combined_bl d F cs CS D) as CB.
  unfold process, sw_flag, comb_fine, comb_upd. rewrite S.
  apply ctor_flag in C as (C & _).
  assert (CC : d_flag d = [] \/ exists c, d_flag d = [c]) by (destruct C as [C|(c & C & _)]; eauto). clear C.
  destruct CC as [C|(c & C)].
  { (* no flag *)
    assert (CN : combined_match d (45 :: bl F cs) = None).
    { rewrite CB. unfold flag_char. rewrite C. rewrite blank_first_none; [easy|]. intros I.
      apply bl_in in I as [I|[I _]]; [lia|auto]. }
    left. rewrite C. cbn [app]. destruct (d_kind d); try discriminate;
      unfold switch_process, multi_switch_process; rewrite IG, NM, CN; auto. }
  destruct (NF c ltac:(rewrite C; now left)) as (N1 & N2 & N3).
  assert (FC : flag_char d = c) by (unfold flag_char; now rewrite C).
  rewrite C. destruct (has c cs) eqn:HC.
  2:{ (* flag not in the word *)
    apply has_false in HC.
    assert (CN : combined_match d (45 :: bl F cs) = None).
    { rewrite CB, FC, blank_first_none; [easy|]. intros I. apply bl_in in I as [I|[I _]]; [lia|auto]. }
    left. assert (BE : bl ([c] ++ F) cs = bl F cs).
    { apply bl_absent. intros x I [<-|[]]. tauto. }
    rewrite BE. destruct (d_kind d); try discriminate;
      unfold switch_process, multi_switch_process; rewrite IG, NM, CN; split; auto; tauto. }
  apply has_true in HC.
  assert (VN : visit d g = Some g) by (unfold visit; now rewrite (V c ltac:(rewrite C; now left) HC)).
  assert (IB : In c (bl F cs)) by now apply bl_in2.
  destruct (blank_first_some _ _ IB) as (s1 & BF).
  assert (CM : combined_match d (45 :: bl F cs) = Some (45 :: s1)) by now rewrite CB, FC, BF.
  assert (O1 := proj1 (occurrences_pos _ _) HC).
  destruct (d_kind d) eqn:K; try discriminate; unfold switch_process, multi_switch_process; rewrite IG, NM, CM.
  - destruct (Z.eq_dec (occurrences c cs) 1) as [O|O].
    + assert (E1 : s1 = bl ([c] ++ F) cs).
      { rewrite blank_first_one in BF; auto; [|now rewrite occurrences_bl]. injection BF as <-. now apply blank_all_bl. }
      assert (NM1 : arg_matches d (45 :: s1) = false) by (rewrite E1; now apply proper_no_match).
      assert (CN1 : combined_match d (45 :: s1) = None).
      { rewrite E1, combined_bl, FC by auto. rewrite blank_first_none; [easy|]. intros I.
        apply bl_in in I as [I|[_ I]]; [lia|]. apply I. now left. }
      rewrite NM1, CN1. cbn [negb andb]. rewrite orb_false_r. destruct (a_set a) eqn:AS.
      * right. split; [auto|]. intros Q. destruct (Q HC); discriminate.
      * left. rewrite VN, E1. auto.
    + right. assert (O2 : 2 <= occurrences c (bl F cs)) by (rewrite occurrences_bl; auto; lia).
      pose proof (blank_first_many _ _ _ BF O2) as I1.
      assert (E1 : exists c1 t1, s1 = c1 :: t1 /\ c1 <> 45).
      { destruct cs as [|c1 cs]; [congruence|]. unfold bl in BF. cbn [map blank_first] in BF.
        set (y := if has c1 F then 42 else c1) in *.
        assert (y <> 45) by (unfold y; destruct (has c1 F); [lia|intros ->; apply D; now left]).
        destruct (y =? c); [injection BF as <-; exists 42; eexists; split; [reflexivity|lia]|].
        destruct (blank_first c _); [|discriminate]. injection BF as <-. eauto. }
      assert (CS1 : exists s2, combined_match d (45 :: s1) = Some s2).
      { destruct E1 as (c1 & t1 & -> & NE). unfold combined_match, c_dash. change (negb (45 =? 45)) with false. cbn iota.
        destruct (Z.eqb_spec c1 45); [lia|]. rewrite FC. destruct (blank_first_some _ _ I1) as (s2 & ->). eauto. }
      assert (NM1 : arg_matches d (45 :: s1) = false).
      { apply arg_matches_false. unfold flag_word. rewrite C. cbn [app]. intros [[E _]|E].
        - injection E as E. apply blank_first_len in BF. unfold bl in BF. rewrite Zlen_map, E in BF.
          change (Zlen [c]) with 1 in BF. lia.
        - destruct E1 as (c1 & t1 & -> & NE). injection E as E _. lia. }
      destruct CS1 as (s2 & CS1). rewrite NM1, CS1. cbn [negb andb]. rewrite orb_true_r. split; [auto|].
      intros Q. destruct (Q HC). lia.
  - rewrite FC. cbn [tl]. rewrite occurrences_bl by auto. destruct (Z.eqb_spec c c_star) as [Q|_]; [unfold c_star in Q; lia|].
    cbn [orb]. destruct (in_int (a_count a + occurrences c cs)) eqn:IN; cbn [negb].
    + left. rewrite VN, blank_all_bl by auto. auto.
    + right. split; [auto|]. intros Q. specialize (Q HC). congruence.
Qed.

(** ** One value *)

Definition is_value (k : kind) : bool := match k with KValue _ | KMulti _ => true | _ => false end.

(** The extraction made for a value text [s] given to [d]. *)
Definition take_value (d : decl) (a : dyn) (s : str) : option (perr + dyn) :=
  match d_kind d with
  | KValue t | KUValue t => Some (value_extract t d a s)
  | KMulti t | KUMulti t => multi_extract t d a s
  | _ => None
  end.

Lemma set_vals_fields a l : a_req (set_vals a l) = a_req a /\ a_set (set_vals a l) = true /\ a_xor (set_vals a l) = a_xor a
  /\ a_on (set_vals a l) = a_on a /\ a_count (set_vals a l) = a_count a /\ a_vals (set_vals a l) = l.
Proof. repeat split. Qed.

Lemma take_value_st i d its a s a' it : st_ok i d its a -> take_value d a s = Some (inr a') ->
  item_times i it = 0 -> item_given i it = [s] ->
  (is_multi (d_kind d) = false -> a_set a = false) ->
  st_ok i d (its ++ [it]) a'
  /\ is_required d a' = a_req (fresh d) && (Zlen (given i its) =? 0).
Proof.
  intros ST T IT IG NS.
  assert (T' : times i (its ++ [it]) = times i its) by (rewrite times_app; cbn [times]; lia).
  assert (V' : given i (its ++ [it]) = given i its ++ [s]) by (rewrite given_app; cbn [given]; rewrite IG; now rewrite app_nil_r).
  assert (LV : 0 <? Zlen (given i its ++ [s]) = true) by (rewrite Zlen_app, Zlen_cons; pose proof (Zlen_nonneg (given i its)); znil; lia).
  destruct ST as [A B C D E F G]. unfold take_value in T.
  assert (VAL : forall t, (d_kind d = KValue t \/ d_kind d = KUValue t) -> value_extract t d a s = inr a' ->
     is_multi (d_kind d) = false -> st_ok i d (its ++ [it]) a' /\ is_required d a' = a_req (fresh d) && (Zlen (given i its) =? 0)).
  { intros t K X M. specialize (NS M). rewrite C in NS. apply orb_false_iff in NS as [N1 N2].
    assert (GN : given i its = []) by (destruct (given i its); [easy|rewrite Zlen_cons in N2; pose proof (Zlen_nonneg l); lia]).
    unfold vals_ok in G. rewrite GN in G.
    assert (G' : a_vals a = [d_default d]) by (destruct K as [K|K]; rewrite K in G; exact G). clear G.
    unfold value_extract in X. destruct (extract t s) as [| |v] eqn:EX; try discriminate.
    destruct (forallb (allowed d) (match v with Some v0 => [v0] | None => a_vals a end)) eqn:FA; [|discriminate].
    injection X as <-. set (l := match v with Some v0 => [v0] | None => a_vals a end) in *.
    split.
    - constructor; rewrite ?T', ?V', ?LV; auto.
      + cbn [a_set set_vals]. now rewrite orb_true_r.
      + cbn [set_vals a_vals]. unfold vals_ok. rewrite GN. cbn [app].
        assert (Q : (exists v0, reads t s v0 /\ permitted d v0 /\ l = [v0]) \/ t = TInt /\ s = [] /\ l = [d_default d]).
        { destruct v as [v0|].
          - left. exists v0. split; [now apply extract_some|]. cbn [forallb l] in FA. bsplit. split; [now apply allowed_permitted|easy].
          - right. apply extract_none in EX as [-> ->]. auto. }
        destruct K as [K|K]; rewrite K; exact Q.
    - unfold is_required. rewrite M. cbn [set_vals a_req]. rewrite A, GN. change (Zlen (@nil str) =? 0) with true. now rewrite andb_true_r. }
  assert (MUL : forall t, (d_kind d = KMulti t \/ d_kind d = KUMulti t) -> multi_extract t d a s = Some (inr a') ->
     is_multi (d_kind d) = true -> st_ok i d (its ++ [it]) a' /\ is_required d a' = a_req (fresh d) && (Zlen (given i its) =? 0)).
  { intros t K X M. unfold multi_extract in X. destruct (extract t s) as [| |[v|]] eqn:EX; try discriminate.
    destruct (allowed d v) eqn:AL; [|discriminate]. injection X as <-.
    apply extract_some in EX. apply allowed_permitted in AL.
    assert (G' : Forall2 (fun w v => reads t w v /\ permitted d v) (given i its) (a_vals a)).
    { unfold vals_ok in G. destruct K as [K|K]; rewrite K in G; exact G. }
    assert (K1 : d_kind d <> KSwitch /\ d_kind d <> KMultiSwitch) by (destruct K as [K|K]; rewrite K; easy).
    split.
    - constructor; rewrite ?T', ?V', ?LV; auto.
      + cbn [a_set set_vals]. now rewrite orb_true_r.
      + cbn [set_vals a_vals]. unfold vals_ok.
        assert (Q : Forall2 (fun w v => reads t w v /\ permitted d v) (given i its ++ [s]) (a_vals a ++ [v])).
        { apply Forall2_app; auto. }
        destruct K as [K|K]; rewrite K; exact Q.
    - unfold is_required. rewrite M. cbn [set_vals a_req a_vals]. rewrite A. f_equal.
      assert (LE : Zlen (a_vals a) = Zlen (given i its)).
      { unfold Zlen. f_equal. clear -G'. induction G'; cbn [length]; congruence. }
      rewrite Zlen_app, Zlen_cons, LE. znil. pose proof (Zlen_nonneg (given i its)). lia. }
  destruct (d_kind d) eqn:K; try discriminate.
  - injection T as T. eapply VAL; eauto.
  - eapply MUL; eauto.
  - injection T as T. eapply VAL; eauto.
  - eapply MUL; eauto.
Qed.

(** ** Counting the required arguments *)

Definition need (x : Z * decl) : bool := a_req (fresh (snd x)).
Definition got (its : list item) (x : Z * decl) : bool := 0 <? Zlen (given (fst x) its).
Definition cnt (args : list (Z * decl)) (its : list item) : Z :=
  Zlen (filter (fun x => need x && got its x) args).

Lemma got_other its it x : item_given (fst x) it = [] -> got (its ++ [it]) x = got its x.
Proof. intros E. unfold got. rewrite given_app. cbn [given]. now rewrite E, !app_nil_r. Qed.

Lemma cnt_other args its it : (forall i d, In (i, d) args -> item_given i it = []) ->
  cnt args (its ++ [it]) = cnt args its.
Proof.
  intros A. unfold cnt. apply Zlen_filter_ext. intros [i d] I. rewrite got_other; [easy|]. cbn [fst]. eauto.
Qed.

Lemma cnt_step args its it i d s : NoDup (map fst args) -> In (i, d) args ->
  item_given i it = [s] -> (forall j, j <> i -> item_given j it = []) ->
  cnt args (its ++ [it]) = cnt args its + (if need (i, d) && (Zlen (given i its) =? 0) then 1 else 0).
Proof.
  intros N I G O. induction args as [|[j d'] args IH]; [easy|]. cbn [map fst] in N. inversion N as [|? ? N1 N2]; subst.
  unfold cnt in *. cbn [filter].
  assert (GG : got (its ++ [it]) (i, d) = true).
  { unfold got. cbn [fst]. rewrite given_app. cbn [given]. rewrite G, app_nil_r, Zlen_app, Zlen_cons. pose proof (Zlen_nonneg (given i its)). znil. lia. }
  assert (GO : got its (i, d) = negb (Zlen (given i its) =? 0)).
  { unfold got. cbn [fst]. pose proof (Zlen_nonneg (given i its)). lia. }
  destruct I as [E|I].
  - injection E as -> ->. rewrite GG, GO.
    assert (Q : Zlen (filter (fun x => need x && got (its ++ [it]) x) args) = Zlen (filter (fun x => need x && got its x) args)).
    { apply Zlen_filter_ext. intros [k d''] K. rewrite got_other; [easy|]. cbn [fst]. apply O. intros ->. apply N1.
      change i with (fst (i, d'')). now apply in_map. }
    destruct (need (i, d)), (Zlen (given i its) =? 0); cbn [andb negb]; rewrite ?Zlen_cons; lia.
  - assert (JI : j <> i). { intros ->. apply N1. change i with (fst (i, d)). now apply in_map. }
    rewrite got_other by (cbn [fst]; auto). specialize (IH N2 I).
    destruct (need (j, d') && got its (j, d')); rewrite ?Zlen_cons; lia.
Qed.

Lemma cnt_full args its : cnt args its = Zlen (filter need args) ->
  forall i d, In (i, d) args -> need (i, d) = true -> given i its <> [].
Proof.
  assert (LE : forall l, Zlen (filter (fun x => need x && got its x) l) <= Zlen (filter need l)).
  { induction l as [|x l IH]; [easy|]. cbn [filter]. destruct (need x); cbn [andb]; auto.
    destruct (got its x); rewrite ?Zlen_cons; lia. }
  unfold cnt. induction args as [|x args IH]; intros E i d I R; [easy|]. cbn [filter] in E. specialize (LE args).
  destruct I as [->|I].
  - rewrite R in E. cbn [andb] in E. destruct (got its (i, d)) eqn:G.
    + unfold got in G. cbn [fst] in G. intros Q. rewrite Q in G. discriminate.
    + rewrite Zlen_cons in E. lia.
  - apply (IH) with (d := d); auto. destruct (need x); cbn [andb] in E; auto.
    destruct (got its x); rewrite ?Zlen_cons in E; lia.
Qed.

Lemma cnt_reached args its : (forall i d, In (i, d) args -> need (i, d) = true -> given i its <> []) ->
  cnt args its = Zlen (filter need args).
Proof.
  intros A. unfold cnt. apply Zlen_filter_ext. intros [i d] I. destruct (need (i, d)) eqn:N; [|easy].
  specialize (A _ _ I N). unfold got. cbn [fst]. destruct (given i its); [congruence|]. rewrite Zlen_cons. pose proof (Zlen_nonneg l). cbn [andb]. lia.
Qed.

Lemma wf_num_need p h : wf p h -> p_xor p = [] -> p_num p = Zlen (filter need (p_args p)).
Proof.
  intros W X. rewrite (wf_num _ _ W). apply Zlen_filter_ext. intros [i d] I. cbn [fst snd].
  rewrite (wf_state _ _ W _ _ I). unfold grouped. rewrite X. cbn [existsb].
  unfold need, is_required. cbn [snd]. destruct (is_multi (d_kind d)) eqn:M; [|easy].
  assert (a_vals (fresh d) = []) as -> by (unfold fresh; cbn [a_vals]; destruct (d_kind d); easy).
  cbn. now rewrite andb_true_r.
Qed.

(** ** Scanning a combined word *)

Definition flags_ok (l : list (Z * decl)) (F : str) : Prop :=
  forall i d c, In (i, d) l -> In c (d_flag d) -> c <> 42 /\ c <> 0 /\ ~ In c F.

Lemma labelled_blank g t m d a w rest : has_blanks w = true -> labelled_process g t m d a w rest = PNo w a g.
Proof. intros B. unfold labelled_process. rewrite B. now destruct (g_ignore g). Qed.

(** How one argument reacts to a partly blanked combined word. *)
Lemma comb_head g d a F cs rest : proper cs -> g_ignore g = false ->
  ctor_ok (d_flag d) (d_name d) = true -> unlabelled (d_kind d) = false ->
  (forall c, In c (d_flag d) -> c <> 42 /\ c <> 0 /\ ~ In c F) ->
  (forall c, is_switch (d_kind d) = true -> In c (d_flag d) -> In c cs ->
     d_vis d = NoVis \/ d_vis d = VHelp \/ d_vis d = VVersion) ->
  match process g d a (45 :: bl F cs) rest with
  | PNo w a' g' => w = 45 :: bl (sw_flag d ++ F) cs /\ a' = comb_upd cs d a /\ g' = g
      /\ comb_fine cs d a /\ (comb_upd cs d a <> a -> d_vis d = NoVis)
  | PYes took a' g' => is_value (d_kind d) = true /\ ~ In 42 (bl F cs)
  | _ => True
  end.
Proof.
  intros P IG C U NF VI. destruct (is_switch (d_kind d)) eqn:S.
  - assert (DEC : (exists c, In c (d_flag d) /\ In c cs) \/ (forall c, In c (d_flag d) -> ~ In c cs)).
    { pose proof C as C'. apply ctor_flag in C' as ([->|(c & -> & _)] & _); [right; now intros|].
      destruct (in_dec Z.eq_dec c cs); [left; exists c; split; [now left|auto]|right; intros x [->|[]]; auto]. }
    destruct DEC as [(c & J1 & J2)|DEC].
    + destruct (d_vis d) eqn:V.
      * destruct (comb_switch g d a F cs rest P C NF IG S ltac:(auto)) as [[E FI]|[[E|E] _]]; rewrite E; auto.
      * assert (PE : process g d a (45 :: bl F cs) rest = PExit \/ (exists e, process g d a (45 :: bl F cs) rest = PErr e)
                     \/ process g d a (45 :: bl F cs) rest = PUB).
        2:{ destruct PE as [->|[(e & ->)| ->]]; exact I. }
        pose proof (proper_no_match d F cs P C) as NM.
        destruct (combined_match d (45 :: bl F cs)) as [s|] eqn:CM.
        -- unfold process; destruct (d_kind d); try discriminate; unfold switch_process, multi_switch_process, visit;
             rewrite IG, NM, CM, V; destruct (_ || _); eauto.
        -- exfalso. destruct (flag_one _ _ C ltac:(intros X; rewrite X in J1; easy)) as (x & X).
           rewrite X in J1; destruct J1 as [->|[]]. destruct (NF c ltac:(rewrite X; now left)) as (N1 & N2 & N3).
           destruct P as (PL & PD & _). rewrite combined_bl in CM; [|now intros ->|auto].
           unfold flag_char in CM; rewrite X in CM. destruct (blank_first_some c (bl F cs)) as (s & Q); [now apply bl_in2|].
           rewrite Q in CM. discriminate.
      * assert (PE : process g d a (45 :: bl F cs) rest = PExit \/ (exists e, process g d a (45 :: bl F cs) rest = PErr e)
                     \/ process g d a (45 :: bl F cs) rest = PUB).
        2:{ destruct PE as [->|[(e & ->)| ->]]; exact I. }
        pose proof (proper_no_match d F cs P C) as NM.
        destruct (combined_match d (45 :: bl F cs)) as [s|] eqn:CM.
        -- unfold process; destruct (d_kind d); try discriminate; unfold switch_process, multi_switch_process, visit;
             rewrite IG, NM, CM, V; destruct (_ || _); eauto.
        -- exfalso. destruct (flag_one _ _ C ltac:(intros X; rewrite X in J1; easy)) as (x & X).
           rewrite X in J1; destruct J1 as [->|[]]. destruct (NF c ltac:(rewrite X; now left)) as (N1 & N2 & N3).
           destruct P as (PL & PD & _). rewrite combined_bl in CM; [|now intros ->|auto].
           unfold flag_char in CM; rewrite X in CM. destruct (blank_first_some c (bl F cs)) as (s & Q); [now apply bl_in2|].
           rewrite Q in CM. discriminate.
      * destruct (VI c eq_refl J1 J2) as [Q|[Q|Q]]; discriminate.
    + rewrite process_quiet.
      * assert (UE : comb_upd cs d a = a /\ comb_fine cs d a).
        { unfold comb_upd, comb_fine; destruct (d_kind d); auto; destruct (d_flag d) as [|c [|]]; auto;
          (assert (Q : has c cs = false) by (apply has_false; apply DEC; now left); rewrite Q; split; auto; intros Q'; apply has_false in Q; tauto). }
        destruct UE as [-> FI]. rewrite bl_absent; [split; [easy|]; split; [easy|]; split; [easy|]; split; [easy|congruence]|].
        intros c I1 I2. unfold sw_flag in I2. rewrite S in I2. elim (DEC c I2 I1).
      * assert (CN : arg_matches d (45 :: bl F cs) = false /\ combined_match d (45 :: bl F cs) = None).
        { split; [now apply proper_no_match|]; destruct P as (PL & PD & P0).
          rewrite combined_bl; [|now intros ->|auto]. rewrite blank_first_none; [easy|].
          intros Q; apply bl_in in Q; unfold flag_char in Q; destruct (d_flag d) as [|c fl] eqn:X.
          - destruct Q as [Q|[Q _]]; [lia|tauto].
          - destruct (NF c ltac:(now left)) as (N1 & N2 & N3); destruct Q as [Q|[Q _]]; [lia|apply (DEC c); [now left|auto]]. }
        unfold quiet. destruct (d_kind d); try discriminate; exact CN.
  - assert (UE : comb_upd cs d a = a) by (unfold comb_upd; destruct (d_kind d); try discriminate; easy).
    assert (FI : comb_fine cs d a) by (unfold comb_fine; destruct (d_kind d); try discriminate; easy).
    assert (SF : sw_flag d = []) by (unfold sw_flag; now rewrite S).
    rewrite UE, SF. cbn [app].
    destruct (has_blanks (45 :: bl F cs)) eqn:B.
    + rewrite process_quiet.
      * split; [easy|]; split; [easy|]; split; [easy|]; split; [easy|congruence].
      * unfold quiet. destruct (d_kind d); try discriminate; auto.
    + assert (N42 : ~ In 42 (bl F cs)) by (cbn [has_blanks] in B; now apply has_false in B).
      assert (LP : forall t m, match labelled_process g t m d a (45 :: bl F cs) rest with
        | PNo w a' g' => w = 45 :: bl F cs /\ a' = a /\ g' = g | _ => True end).
      { intros t m. unfold labelled_process. rewrite IG, B. destruct (trim_flag (g_delim g) (45 :: bl F cs)) as [f v].
        destruct (arg_matches d f); [|auto]. destruct (negb m && a_set a); [exact I|].
        destruct (negb (g_delim g =? c_space) && seqb v []); [exact I|].
        destruct (seqb v []); [destruct rest as [|s rest]; [exact I|]|];
        (destruct (if m then _ else _) as [[e|x]|]; [exact I|destruct (visit d g); exact I|exact I]). }
      unfold process. destruct (d_kind d); try discriminate.
      * specialize (LP t false). destruct (labelled_process g t false d a (45 :: bl F cs) rest); auto.
        destruct LP as (-> & -> & ->). split; [easy|]; split; [easy|]; split; [easy|]; split; [easy|congruence].
      * specialize (LP t true). destruct (labelled_process g t true d a (45 :: bl F cs) rest); auto.
        destruct LP as (-> & -> & ->). split; [easy|]; split; [easy|]; split; [easy|]; split; [easy|congruence].
Qed.

Lemma comb_upd_absent cs d a : (forall c, In c (sw_flag d) -> ~ In c cs) -> comb_upd cs d a = a.
Proof.
  intros A. unfold comb_upd, sw_flag in *. destruct (d_kind d); auto; cbn [is_switch] in A; destruct (d_flag d) as [|c [|]]; auto;
  (destruct (has c cs) eqn:Q; auto; apply has_true in Q; elim (A c); [now left|auto]).
Qed.

Lemma comb_scan xs l g rest cs : proper cs -> g_ignore g = false ->
  NoDup (map fst l) ->
  (forall i d, In (i, d) l -> unlabelled (d_kind d) = false /\ ctor_ok (d_flag d) (d_name d) = true) ->
  (forall i d c, In (i, d) l -> is_switch (d_kind d) = true -> In c (d_flag d) -> In c cs ->
      d_vis d = NoVis \/ d_vis d = VHelp \/ d_vis d = VVersion) ->
  (forall i d j d', In (i, d) l -> In (j, d') l -> d_flag d <> [] -> d_flag d = d_flag d' -> i = j) ->
  forall F h, flags_ok l F ->
  match scan xs l g h (45 :: bl F cs) rest with
  | SNone w' h' g' =>
      g' = g
      /\ (exists F', w' = 45 :: bl F' cs /\ (forall c, In c F' <-> In c F \/ exists i d, In (i, d) l /\ In c (sw_flag d)))
      /\ (forall i d, In (i, d) l -> comb_fine cs d (h i) /\ h' i = comb_upd cs d (h i)
            /\ (comb_upd cs d (h i) <> h i -> d_vis d = NoVis))
      /\ (forall j, ~ In j (map fst l) -> h' j = h j)
  | SMatch took h' g' n =>
      exists i d a h0, In (i, d) l /\ is_value (d_kind d) = true
        /\ (forall j, h0 j = h j)
        /\ process g d (h i) (45 :: bl F cs) rest = PYes took a g'
        /\ (h', n) = xor_check xs (hset h0 i a) i d
  | _ => True
  end.
Proof.
  intros P IG. induction l as [|[i d] l IH]; intros ND UL VI UQ F h FL; cbn [scan].
  { split; [easy|]. split; [exists F; split; [easy|intros c; split; [auto|intros [|(? & ? & [] & _)]; auto]]|]. split; [easy|auto]. }
  cbn [map fst] in ND. inversion ND as [|? ? ND1 ND2]; subst.
  destruct (UL i d ltac:(now left)) as [U C].
  assert (FLt : flags_ok l F) by (intros j d' c I; apply (FL j d' c); now right).
  assert (NF : forall c, In c (d_flag d) -> c <> 42 /\ c <> 0 /\ ~ In c F) by (intros c; apply (FL i d c); now left).
  assert (VI' : forall c, is_switch (d_kind d) = true -> In c (d_flag d) -> In c cs ->
     d_vis d = NoVis \/ d_vis d = VHelp \/ d_vis d = VVersion) by (intros c; apply (VI i d c); now left).
  pose proof (comb_head g d (h i) F cs rest P IG C U NF VI') as HD.
  destruct (process g d (h i) (45 :: bl F cs) rest) as [w a g1|took a g1|e| |] eqn:PR; auto.
  - destruct HD as (-> & -> & -> & FI & NV).
    assert (FL' : flags_ok l (sw_flag d ++ F)).
    { intros j d' c I J. destruct (FLt j d' c I J) as (A1 & A2 & A3). split; [auto|]. split; [auto|].
      rewrite in_app_iff. intros [Q|Q]; [|auto]. unfold sw_flag in Q. destruct (is_switch (d_kind d)) eqn:S; [|easy].
      destruct (UL j d' ltac:(now right)) as [_ C'].
      destruct (flag_one _ _ C ltac:(intros X; rewrite X in Q; easy)) as (x & X).
      destruct (flag_one _ _ C' ltac:(intros Y; rewrite Y in J; easy)) as (y & Y).
      rewrite X in Q. rewrite Y in J. destruct Q as [->|[]], J as [->|[]].
      assert (i = j). { eapply (UQ i d j d'); [now left|now right|congruence|congruence]. }
      subst. apply ND1. change j with (fst (j, d')). now apply in_map. }
    assert (IH' := IH ND2 (fun j d' I => UL j d' (or_intror I)) (fun j d' c I => VI j d' c (or_intror I))
      (fun i1 d1 i2 d2 I1 I2 => UQ i1 d1 i2 d2 (or_intror I1) (or_intror I2))
      (sw_flag d ++ F) (hset h i (comb_upd cs d (h i))) FL'). clear IH.
    destruct (scan xs l g (hset h i (comb_upd cs d (h i))) (45 :: bl (sw_flag d ++ F) cs) rest) as [took h' g' n|w' h' g'| | |]; auto.
    + destruct IH' as (j & d' & a & h0 & I & VK & HE & PR' & X).
      assert (JI : j <> i) by (intros ->; apply ND1; change i with (fst (i, d')); now apply in_map).
      assert (NB : has_blanks (45 :: bl (sw_flag d ++ F) cs) = false).
      { destruct (has_blanks _) eqn:B; auto. unfold process in PR'.
        destruct (d_kind d'); try discriminate; rewrite labelled_blank in PR' by auto; discriminate. }
      assert (N42 : ~ In 42 (bl (sw_flag d ++ F) cs)) by (cbn [has_blanks] in NB; now apply has_false in NB).
      assert (NC : forall c, In c cs -> ~ In c (sw_flag d)).
      { intros c I1 I2. apply (bl_no42 _ _ N42 c I1). apply in_app_iff. now left. }
      rewrite comb_upd_absent in * by (intros c I1 I2; now apply (NC c)).
      rewrite bl_absent in PR' by (intros c I1 I2; now apply NC in I2).
      exists j, d', a, h0. split; [now right|]. split; auto.
      split. { intros k. rewrite HE. destruct (Z.eq_dec k i) as [->|]; [apply hset_same|now apply hset_other]. }
      split; auto. rewrite hset_other in PR' by auto. exact PR'.
    + destruct IH' as (-> & (F' & -> & HF) & HU & HO). split; [easy|]. split; [|split].
      * exists F'. split; [easy|]. intros c. rewrite HF, in_app_iff. split.
        -- intros [[Q|Q]|(j & d' & I & Q)]; [right; exists i, d; split; [now left|auto]|now left|right; exists j, d'; split; [now right|auto]].
        -- intros [Q|(j & d' & [E1|I] & Q)]; [auto|injection E1 as <- <-; auto|right; eauto].
      * intros j d' [E1|I].
        -- injection E1 as <- <-. split; [auto|]. split; [|auto]. rewrite HO by auto. apply hset_same.
        -- assert (JI : j <> i) by (intros ->; apply ND1; change i with (fst (i, d')); now apply in_map).
           specialize (HU j d' I). now rewrite hset_other in HU by auto.
      * intros j N. cbn [map fst In] in N. rewrite HO by tauto. apply hset_other. intros ->. tauto.
  - destruct HD as [VK _]. destruct (xor_check xs (hset h i a) i d) as [h' n] eqn:X.
    exists i, d, a, h. split; [now left|]. auto.
Qed.

(** * Every accepted command line is a sequence of meaningful items *)

(** The ways to write an item. *)
Definition spells (delim : Z) (ws : list str) (it : item) : Prop :=
  match it with
  | ISwitch i d long => ws = [flag_word d long] /\ (long = false -> d_flag d <> [])
  | ICombined l =>
      exists cs, ws = [45 :: cs] /\ (forall x, In x l -> d_flag (snd x) <> [])
        /\ filter (fun c => negb (c =? 42)) cs = map (fun x => flag_char (snd x)) l
  | IValue i d long w =>
      (long = false -> d_flag d <> [])
      /\ ((ws = [flag_word d long ++ delim :: w] /\ w <> [])
          \/ (delim = 32 /\ (ws = [flag_word d long; w] \/ ws = [flag_word d long ++ [32]; w])))
  | IPlain i d w => ws = [w]
  end.

Inductive spells_all (delim : Z) : list str -> list item -> Prop :=
| sp_nil : spells_all delim [] []
| sp_cons ws it ws' its : spells delim ws it -> spells_all delim ws' its -> spells_all delim (ws ++ ws') (it :: its).

(** The item names declared arguments of the right kind. *)
Definition declared (p : parser) (it : item) : Prop :=
  match it with
  | ISwitch i d _ => In (i, d) (p_args p) /\ is_switch (d_kind d) = true /\ d_vis d = NoVis
  | ICombined l => forall i d, In (i, d) l -> In (i, d) (p_args p) /\ is_switch (d_kind d) = true /\ d_vis d = NoVis
  | IValue i d _ _ => In (i, d) (p_args p) /\ is_value (d_kind d) = true
  | IPlain i d _ => In (i, d) (p_args p) /\ unlabelled (d_kind d) = true
  end.

(** A word without NUL that cannot switch on "ignore the rest". *)
Definition plain_word (w : str) : Prop :=
  ~ In 0 w /\ w <> [45; 45] /\ w <> [45; 45] ++ n_ignore
  /\ (forall c t, w = 45 :: c :: t -> c <> 45 -> ~ In 45 t).

Lemma value_yes g d a w rest took a' g' : is_value (d_kind d) = true -> g_ignore g = false -> d_vis d = NoVis ->
  process g d a w rest = PYes took a' g' ->
  exists long s, take_value d a s = Some (inr a') /\ g' = g /\ (is_multi (d_kind d) = false -> a_set a = false)
    /\ (long = false -> d_flag d <> [])
    /\ ((took = false /\ s <> [] /\ w = flag_word d long ++ g_delim g :: s)
        \/ (took = true /\ g_delim g = 32 /\ (w = flag_word d long \/ w = flag_word d long ++ [32])
            /\ exists r, rest = s :: r)).
Proof.
  intros K IG V P.
  assert (VN : visit d g = Some g) by (unfold visit; now rewrite V).
  assert (GEN : forall t m, labelled_process g t m d a w rest = PYes took a' g' ->
    (forall s, (if m then multi_extract t d a s else Some (value_extract t d a s)) = take_value d a s) ->
    is_multi (d_kind d) = m ->
    exists long s, take_value d a s = Some (inr a') /\ g' = g /\ (is_multi (d_kind d) = false -> a_set a = false)
    /\ (long = false -> d_flag d <> [])
    /\ ((took = false /\ s <> [] /\ w = flag_word d long ++ g_delim g :: s)
        \/ (took = true /\ g_delim g = 32 /\ (w = flag_word d long \/ w = flag_word d long ++ [32])
            /\ exists r, rest = s :: r))).
  { clear P. intros t m P TV M. unfold labelled_process in P. rewrite IG in P. destruct (has_blanks w); [discriminate|].
    destruct (trim_flag (g_delim g) w) as [f v] eqn:T. destruct (arg_matches d f) eqn:AM; [|discriminate].
    destruct (negb m && a_set a) eqn:AS; [discriminate|].
    destruct (negb (g_delim g =? c_space) && seqb v []) eqn:DL; [discriminate|].
    assert (NS : is_multi (d_kind d) = false -> a_set a = false).
    { intros Q. rewrite Q in M. subst m. cbn [negb andb] in AS. exact AS. }
    apply arg_matches_iff in AM.
    assert (LG : exists long, f = flag_word d long /\ (long = false -> d_flag d <> [])).
    { destruct AM as [[AM N]|AM]; [exists false|exists true]; split; auto; discriminate. }
    destruct LG as (long & -> & NE). clear AM.
    destruct (seqb v []) eqn:VE.
    - apply seqb_true in VE. subst v. destruct rest as [|s r]; [discriminate|]. rewrite TV in P.
      destruct (take_value d a s) as [[e|x]|] eqn:TK; try discriminate. rewrite VN in P. injection P as <- <- <-.
      exists long, s. split; [auto|]. split; [auto|]. split; [auto|]. split; [auto|]. right. split; [auto|].
      assert (DS : g_delim g = 32). { rewrite andb_true_r in DL. bsplit. unfold c_space in DL. lia. }
      split; [auto|]. split; [|eauto]. apply trim_inv in T as [[T _]|T]; [left; auto|]. right. now rewrite T, DS.
    - apply seqb_false in VE. rewrite TV in P.
      destruct (take_value d a v) as [[e|x]|] eqn:TK; try discriminate. rewrite VN in P. injection P as <- <- <-.
      exists long, v. split; [auto|]. split; [auto|]. split; [auto|]. split; [auto|]. left. split; [auto|]. split; [auto|].
      apply trim_inv in T as [[_ T]|T]; [congruence|auto]. }
  unfold process in P. destruct (d_kind d) eqn:KD; try discriminate.
  - apply (GEN t false P); [|easy]. intros s. unfold take_value. now rewrite KD.
  - apply (GEN t true P); [|easy]. intros s. unfold take_value. now rewrite KD.
Qed.

Lemma st_switch i d its a it : st_ok i d its a -> d_kind d = KSwitch -> a_set a = false ->
  item_times i it = 1 -> item_given i it = [] ->
  st_ok i d (its ++ [it]) (set_switch a (negb (a_on a))) /\ is_required d (set_switch a (negb (a_on a))) = false.
Proof.
  intros [A B C D E F G] K S T V. pose proof (times_nonneg i its) as TN.
  assert (T' : times i (its ++ [it]) = times i its + 1) by (rewrite times_app; cbn [times]; lia).
  assert (V' : given i (its ++ [it]) = given i its) by (rewrite given_app; cbn [given]; rewrite V; apply app_nil_r).
  rewrite S in C. symmetry in C. apply orb_false_iff in C as [C1 C2].
  split.
  - constructor; rewrite ?T', ?V'; cbn [set_switch a_req a_xor a_set a_on a_count a_vals]; auto.
    + lia.
    + rewrite D, K. rewrite C1. destruct (Z.ltb_spec 0 (times i its + 1)); [easy|lia].
    + lia.
    + rewrite K in *. exact F.
  - unfold is_required. rewrite K. cbn [is_multi set_switch a_req]. rewrite A. unfold fresh. cbn [a_req]. now rewrite K.
Qed.

Lemma st_multi_switch i d its a it k : st_ok i d its a -> d_kind d = KMultiSwitch ->
  item_times i it = k -> 1 <= k -> item_given i it = [] ->
  st_ok i d (its ++ [it]) (set_count a (a_count a + k)) /\ is_required d (set_count a (a_count a + k)) = false.
Proof.
  intros [A B C D E F G] K T L V. pose proof (times_nonneg i its) as TN.
  assert (T' : times i (its ++ [it]) = times i its + k) by (rewrite times_app; cbn [times]; lia).
  assert (V' : given i (its ++ [it]) = given i its) by (rewrite given_app; cbn [given]; rewrite V; apply app_nil_r).
  split.
  - constructor; rewrite ?T', ?V'; cbn [set_count a_req a_xor a_set a_on a_count a_vals]; auto.
    + lia.
    + rewrite D, K. reflexivity.
    + rewrite K. discriminate.
    + rewrite F, K. lia.
  - unfold is_required. rewrite K. cbn [is_multi set_count a_req]. rewrite A. unfold fresh. cbn [a_req]. now rewrite K.
Qed.

(** The switches named by a combined word. *)
Definition sw_of (args : list (Z * decl)) (c : Z) : option (Z * decl) :=
  find (fun x => is_switch (d_kind (snd x)) && seqb (d_flag (snd x)) [c]) args.
Definition comb_items (args : list (Z * decl)) (cs : str) : list (Z * decl) :=
  flat_map (fun c => match sw_of args c with Some x => [x] | None => [] end) cs.

Lemma sw_of_some args c x : sw_of args c = Some x ->
  In x args /\ is_switch (d_kind (snd x)) = true /\ d_flag (snd x) = [c].
Proof. intros E. apply find_some in E as [I E]. bsplit. rewrite seqb_true in *. auto. Qed.

Lemma sw_of_in p h i d c : wf p h -> In (i, d) (p_args p) -> is_switch (d_kind d) = true -> d_flag d = [c] ->
  sw_of (p_args p) c = Some (i, d).
Proof.
  intros W I S F. unfold sw_of. destruct (find _ (p_args p)) as [[j d']|] eqn:E.
  - apply find_some in E as [J E]. bsplit. cbn [snd] in *. rewrite seqb_true in *.
    assert (j = i) by (eapply (wf_flags _ _ W); eauto; congruence). subst j.
    f_equal. f_equal. eapply in_split_uniq; eauto. apply (wf_ids _ _ W).
  - apply find_none with (x := (i, d)) in E; auto. cbn [snd] in E. rewrite S, F, seqb_refl in E. discriminate.
Qed.

Lemma comb_items_times p h i d cs : wf p h -> In (i, d) (p_args p) ->
  Zlen (filter (fun x => i =? fst x) (comb_items (p_args p) cs)) =
  match d_flag d with
  | [c] => if is_switch (d_kind d) then occurrences c cs else 0
  | _ => 0
  end.
Proof.
  intros W I. induction cs as [|c' cs IH]; cbn [comb_items flat_map].
  - destruct (d_flag d) as [|c [|]]; auto. now destruct (is_switch (d_kind d)).
  - fold (comb_items (p_args p) cs). rewrite Zlen_filter_app, IH. clear IH.
    assert (HD : Zlen (filter (fun x => i =? fst x) match sw_of (p_args p) c' with Some x => [x] | None => [] end)
      = match d_flag d with [c] => if is_switch (d_kind d) then (if c =? c' then 1 else 0) else 0 | _ => 0 end).
    { destruct (is_switch (d_kind d) && seqb (d_flag d) [c']) eqn:Q.
      - bsplit. rewrite seqb_true in *. rewrite (sw_of_in p h i d c') by auto. cbn [filter fst].
        rewrite Z.eqb_refl. rewrite H0, H, Z.eqb_refl. reflexivity.
      - assert (R : match d_flag d with [c] => if is_switch (d_kind d) then (if c =? c' then 1 else 0) else 0 | _ => 0 end = 0).
        { destruct (d_flag d) as [|c [|]]; auto. destruct (is_switch (d_kind d)); auto. cbn [andb] in Q.
          destruct (Z.eqb_spec c c'); auto. subst. rewrite seqb_refl in Q. discriminate. }
        rewrite R. destruct (sw_of (p_args p) c') as [[j d']|] eqn:E; [|easy].
        apply sw_of_some in E as (J & S & F). cbn [snd] in *. cbn [filter fst]. destruct (Z.eqb_spec i j); [|easy]. subst j.
        assert (d' = d) by (eapply in_split_uniq; eauto; apply (wf_ids _ _ W)). subst d'.
        rewrite S, F, seqb_refl in Q. discriminate. }
    rewrite HD. destruct (d_flag d) as [|c [|]]; auto. destruct (is_switch (d_kind d)); auto.
    unfold occurrences. cbn [filter]. destruct (c =? c'); rewrite ?Zlen_cons; lia.
Qed.

Lemma comb_upd_changes cs d a c : is_switch (d_kind d) = true -> d_flag d = [c] -> In c cs -> comb_upd cs d a <> a.
Proof.
  intros S F I E. unfold comb_upd in E. rewrite F in E. pose proof (proj1 (occurrences_pos _ _) I).
  apply has_true in I. rewrite I in E. destruct (d_kind d); try discriminate.
  - apply (f_equal a_on) in E. cbn [set_switch a_on] in E. destruct (a_on a); discriminate.
  - apply (f_equal a_count) in E. cbn [set_count a_count] in E. lia.
Qed.

(** The state change of a combined word is that of its item. *)
Lemma comb_st p h i d cs its a l : wf p h -> In (i, d) (p_args p) -> st_ok i d its a ->
  comb_fine cs d a -> item_times i (ICombined l) = match d_flag d with
    | [c] => if is_switch (d_kind d) then occurrences c cs else 0 | _ => 0 end ->
  st_ok i d (its ++ [ICombined l]) (comb_upd cs d a).
Proof.
  intros W I ST FI T.
  assert (OTH : item_times i (ICombined l) = 0 -> st_ok i d (its ++ [ICombined l]) a) by (intros; now apply st_ok_other).
  unfold comb_fine, comb_upd in *. destruct (d_flag d) as [|c [|]] eqn:F.
  - destruct (d_kind d); auto.
  - destruct (d_kind d) eqn:K; auto; cbn [is_switch] in T.
    + destruct (has c cs) eqn:Q.
      * apply has_true in Q. destruct (FI Q) as [A O]. apply st_switch; auto. lia.
      * apply OTH. rewrite T. apply has_false in Q. rewrite occurrences_pos in Q.
        assert (0 <= occurrences c cs) by apply Zlen_nonneg. lia.
    + destruct (has c cs) eqn:Q.
      * apply has_true in Q. apply st_multi_switch; auto. now apply occurrences_pos.
      * apply OTH. rewrite T. apply has_false in Q. rewrite occurrences_pos in Q.
        assert (0 <= occurrences c cs) by apply Zlen_nonneg. lia.
  - destruct (d_kind d); auto.
Qed.

Lemma xor_check_nil h i d : xor_check [] h i d = (h, if is_required d (h i) then 1 else 0).
Proof. reflexivity. Qed.

(** Is [w] a single dash followed by at least two characters, the first not a dash? *)
Definition is_comb (w : str) : bool :=
  match w with c :: c' :: _ :: _ => (c =? 45) && negb (c' =? 45) | _ => false end.

Lemma simple_no_comb d w : is_comb w = false -> ~ In 0 w ->
  ctor_ok (d_flag d) (d_name d) = true -> arg_matches d w = false -> combined_match d w = None.
Proof.
  intros NC N0 C M. unfold combined_match, c_dash. destruct w as [|c t]; [easy|].
  destruct (Z.eqb_spec c 45); [|easy]. subst c. cbn [negb]. destruct t as [|c t]; [easy|].
  destruct (Z.eqb_spec c 45); [easy|]. destruct t as [|c' t].
  - unfold flag_char. cbn [blank_first]. destruct (d_flag d) as [|f fl] eqn:F.
    + destruct (Z.eqb_spec c 0); [|easy]. subst. elim N0. right. now left.
    + destruct (Z.eqb_spec c f); [|easy]. subst f. apply arg_matches_false in M. elim M. left.
      unfold flag_word. destruct (flag_one _ _ C) as (x & X); [discriminate|]. injection X as -> ->.
      rewrite F. split; [easy|discriminate].
  - cbn [is_comb] in NC. cbn [Z.eqb Pos.eqb andb] in NC. bsplit. apply Z.eqb_eq in NC. congruence.
Qed.


(** The assumptions of the soundness theorem on the parser. *)
Definition no_unlabelled (p : parser) : Prop :=
  forall i d, In (i, d) (p_args p) -> unlabelled (d_kind d) = false.

Lemma yes_item p h0 g h its w rest took a g' i d :
  wf p h0 -> vis_ok p -> g_ignore g = false -> no_unlabelled p -> plain_word w ->
  In (i, d) (p_args p) -> st_ok i d its (h i) ->
  (is_switch (d_kind d) = true -> arg_matches d w = false -> combined_match d w = None) ->
  process g d (h i) w rest = PYes took a g' ->
  exists it ws1, g' = g /\ declared p it /\ spells (g_delim g) (w :: ws1) it
    /\ (if took then exists r, rest = hd [] ws1 :: r /\ ws1 = [hd [] ws1] else ws1 = [])
    /\ st_ok i d (its ++ [it]) a
    /\ (forall j, j <> i -> item_times j it = 0 /\ item_given j it = [])
    /\ (if is_required d a then 1 else 0)
       = (if need (i, d) && negb (Zlen (item_given i it) =? 0) && (Zlen (given i its) =? 0) then 1 else 0)
    /\ (item_given i it = [] \/ exists s, item_given i it = [s]).
Proof.
  intros W VO IG NU PW I ST CM P.
  assert (U := NU i d I).
  destruct (is_switch (d_kind d)) eqn:S.
  - specialize (CM eq_refl).
    assert (NA : arg_matches d w = true /\ took = false /\ exists g1, visit d g = Some g1 /\ g' = g1 /\
        ((d_kind d = KSwitch /\ a_set (h i) = false /\ a = set_switch (h i) (negb (a_on (h i))))
         \/ (d_kind d = KMultiSwitch /\ a = set_count (h i) (a_count (h i) + 1)))).
    { unfold process in P. destruct (d_kind d) eqn:K; try discriminate.
      - unfold switch_process in P. rewrite IG in P. destruct (arg_matches d w) eqn:M; [|rewrite CM in P by easy; discriminate].
        destruct (a_set (h i)) eqn:AS; [discriminate|]. destruct (visit d g) as [g1|]; [|discriminate].
        injection P as <- <- <-. split; [easy|]. split; [easy|]. exists g1. split; [easy|]. split; [easy|]. left. auto.
      - unfold multi_switch_process in P. rewrite IG in P. destruct (arg_matches d w) eqn:M; [|rewrite CM in P by easy; discriminate].
        destruct (in_int _); [|discriminate]. destruct (visit d g) as [g1|]; [|discriminate].
        injection P as <- <- <-. split; [easy|]. split; [easy|]. exists g1. split; [easy|]. split; [easy|]. right. auto. }
    destruct NA as (M & -> & g1 & VG & -> & KK). apply arg_matches_iff in M.
    assert (LG : exists long, w = flag_word d long /\ (long = false -> d_flag d <> [])).
    { destruct M as [[M N]|M]; [exists false|exists true]; split; auto; discriminate. }
    destruct LG as (long & E & NE).
    assert (VN : d_vis d = NoVis).
    { destruct (VO i d I) as [V|[_ [V|[V|(V & F & N)]]]]; auto; exfalso; unfold visit in VG; rewrite V in VG; try discriminate.
      destruct PW as (_ & N1 & N2 & _). unfold flag_word in E. rewrite F, N in E. destruct long; auto. }
    unfold visit in VG. rewrite VN in VG. injection VG as <-.
    assert (IT : item_times i (ISwitch i d long) = 1) by (cbn [item_times]; now rewrite Z.eqb_refl).
    exists (ISwitch i d long), []. split; [auto|]. split; [cbn [declared]; auto|]. split; [cbn [spells]; subst; auto|]. split; [auto|].
    split.
    { destruct KK as [(K & AS & ->)|(K & ->)]; [now apply st_switch|]. apply st_multi_switch; auto; lia. }
    split; [intros j J; cbn [item_times item_given]; destruct (Z.eqb_spec j i); [lia|auto]|].
    split; [|auto]. cbn [item_given]. change (negb (Zlen (@nil str) =? 0)) with false. rewrite andb_false_r. cbn [andb].
    assert (Q : is_required d a = false).
    { destruct KK as [(K & AS & ->)|(K & ->)]; [now apply (st_switch i d its _ (ISwitch i d long))|].
      apply (st_multi_switch i d its _ (ISwitch i d long)); auto. lia. }
    now rewrite Q.
  - assert (KV : is_value (d_kind d) = true) by (destruct (d_kind d); try discriminate; easy).
    assert (VN : d_vis d = NoVis).
    { destruct (VO i d I) as [V|[K _]]; auto. rewrite K in S. discriminate. }
    destruct (value_yes _ _ _ _ _ _ _ _ KV IG VN P) as (long & s & TV & -> & NS & NE & SP).
    assert (IT : item_times i (IValue i d long s) = 0) by reflexivity.
    assert (IGV : item_given i (IValue i d long s) = [s]) by (cbn [item_given]; now rewrite Z.eqb_refl).
    destruct (take_value_st _ _ _ _ _ _ _ ST TV IT IGV NS) as [ST' RQ].
    exists (IValue i d long s), (if took then [s] else []). split; [auto|]. split; [cbn [declared]; auto|]. split.
    { cbn [spells]. split; auto. destruct SP as [(-> & NE' & ->)|(-> & DS & WW & r & ->)]; [left; auto|].
      right. split; auto. destruct WW as [->| ->]; auto. }
    split. { destruct SP as [(-> & _ & _)|(-> & _ & _ & r & ->)]; [easy|]. exists r. auto. }
    split; auto. split; [intros j J; cbn [item_times item_given]; destruct (Z.eqb_spec j i); [lia|auto]|].
    split; [|eauto]. rewrite RQ, IGV. change (negb (Zlen [s] =? 0)) with true. rewrite andb_true_r. reflexivity.
Qed.

Definition good (p : parser) (its : list item) (h : heap) : Prop :=
  forall i d, In (i, d) (p_args p) -> st_ok i d its (h i).

Lemma filter_star_items p h cs : wf p h ->
  (forall c, In c cs -> c = 42 \/ exists i d, In (i, d) (p_args p) /\ is_switch (d_kind d) = true /\ d_flag d = [c]) ->
  (forall i d, In (i, d) (p_args p) -> ~ In 42 (d_flag d)) ->
  filter (fun c => negb (c =? 42)) cs = map (fun x => flag_char (snd x)) (comb_items (p_args p) cs).
Proof.
  intros W A N. induction cs as [|c cs IH]; [easy|]. cbn [filter comb_items flat_map]. fold (comb_items (p_args p) cs).
  rewrite map_app, <- IH by (intros; apply A; now right). clear IH.
  destruct (A c ltac:(now left)) as [->|(i & d & I & S & F)].
  - cbn [Z.eqb Pos.eqb negb]. destruct (sw_of (p_args p) 42) as [[j d]|] eqn:E; [|easy].
    apply sw_of_some in E as (J & _ & F). cbn [snd] in F. elim (N j d J). rewrite F. now left.
  - rewrite (sw_of_in p h i d c) by auto. cbn [map snd]. unfold flag_char. rewrite F.
    destruct (Z.eqb_spec c 42); [|easy]. subst. elim (N i d I). rewrite F. now left.
Qed.

Lemma declared_comb p h cs h1 : wf p h ->
  (forall i d, In (i, d) (p_args p) -> comb_upd cs d (h1 i) <> h1 i -> d_vis d = NoVis) ->
  declared p (ICombined (comb_items (p_args p) cs)) /\ (forall x, In x (comb_items (p_args p) cs) -> d_flag (snd x) <> []).
Proof.
  intros W V. assert (A : forall x, In x (comb_items (p_args p) cs) ->
     In x (p_args p) /\ is_switch (d_kind (snd x)) = true /\ d_vis (snd x) = NoVis /\ d_flag (snd x) <> []).
  { intros x I. apply in_flat_map in I as (c & J & I). destruct (sw_of (p_args p) c) as [[j d]|] eqn:E; [|easy].
    destruct I as [<-|[]]. apply sw_of_some in E as (K & S & F). cbn [snd] in *. split; [auto|]. split; [auto|].
    split; [|rewrite F; discriminate]. apply (V j d K). eapply comb_upd_changes; eauto. }
  split; [|intros x I; now apply A]. cbn [declared]. intros i d I. apply A in I. tauto.
Qed.

Lemma sound_loop p h0 g : wf p h0 -> p_xor p = [] -> vis_ok p -> no_unlabelled p -> names_ok p (g_delim g) ->
  g_ignore g = false ->
  forall n ws its h h' g', (length ws < n)%nat -> (forall w, In w ws -> plain_word w) ->
  good p its h ->
  parse_loop p g h (cnt (p_args p) its) ws = Done h' g' ->
  exists more, spells_all (g_delim g) ws more /\ (forall it, In it more -> declared p it)
    /\ good p (its ++ more) h' /\ cnt (p_args p) (its ++ more) = p_num p /\ g' = g.
Proof.
  intros W X VO NU NO IG. induction n as [|n IH]; intros ws its h h' g' LN PW GD E; [lia|].
  destruct ws as [|w rest]; cbn [parse_loop] in E.
  { destruct (Z.ltb_spec (cnt (p_args p) its) (p_num p)); [discriminate|].
    destruct (Z.ltb_spec (p_num p) (cnt (p_args p) its)); [discriminate|]. injection E as <- <-.
    exists []. rewrite app_nil_r. split; [constructor|]. split; [easy|]. split; [auto|]. split; [lia|auto]. }
  rewrite X in E. assert (PWw := PW w ltac:(now left)). assert (PWr : forall v, In v rest -> plain_word v) by (intros; apply PW; now right).
  cbn [length] in LN.
  (* what happens after an item that names one argument *)
  assert (STEP : forall i d a h1 took g1,
     In (i, d) (p_args p) -> (forall j, h1 j = h j) ->
     (is_switch (d_kind d) = true -> arg_matches d w = false -> combined_match d w = None) ->
     process g d (h i) w rest = PYes took a g1 ->
     (let '(hh, k) := xor_check [] (hset h1 i a) i d in
      (if took then match rest with [] => Undefined | _ :: rest' => parse_loop p g1 hh (cnt (p_args p) its + k) rest' end
       else parse_loop p g1 hh (cnt (p_args p) its + k) rest) = Done h' g') ->
     exists more, spells_all (g_delim g) (w :: rest) more /\ (forall it, In it more -> declared p it)
       /\ good p (its ++ more) h' /\ cnt (p_args p) (its ++ more) = p_num p /\ g' = g).
  { intros i d a h1 took g1 I HE CM P Q. rewrite xor_check_nil, hset_same in Q.
    destruct (yes_item p h0 g h its w rest took a g1 i d W VO IG NU PWw I (GD i d I) CM P)
      as (it & ws1 & -> & DC & SP & TK & ST & OT & RQ & IGV).
    assert (GD' : good p (its ++ [it]) (hset h1 i a)).
    { intros j d' J. destruct (Z.eq_dec j i) as [->|NJ].
      - assert (d' = d) by (eapply in_split_uniq; eauto; apply (wf_ids _ _ W)). subst d'. now rewrite hset_same.
      - rewrite hset_other, HE by auto. destruct (OT j NJ). apply st_ok_other; auto. }
    assert (CN : cnt (p_args p) its + (if is_required d a then 1 else 0) = cnt (p_args p) (its ++ [it])).
    { rewrite RQ. destruct IGV as [Q0|(s & Q0)].
      - rewrite Q0. change (negb (Zlen (@nil str) =? 0)) with false. rewrite andb_false_r. cbn [andb].
        rewrite cnt_other; [lia|]. intros j d' J. destruct (Z.eq_dec j i) as [->|NJ]; auto. now apply OT.
      - rewrite Q0. change (negb (Zlen [s] =? 0)) with true. rewrite andb_true_r.
        rewrite (cnt_step _ _ _ i d s); auto. apply (wf_ids _ _ W). intros j J. now apply OT. }
    rewrite CN in Q. destruct took.
    - destruct TK as (r & -> & W1). apply IH in Q; auto.
      + destruct Q as (more & A1 & A2 & A3 & A4 & A5). exists (it :: more).
        replace (its ++ it :: more) with ((its ++ [it]) ++ more) by now rewrite <- app_assoc.
        split; [|split; [intros it' [<-|J]; auto|auto]].
        rewrite W1 in SP |- *. cbn [hd] in *. change (w :: hd [] ws1 :: r) with ([w; hd [] ws1] ++ r). now constructor.
      + cbn [length] in LN. lia.
      + intros v J. apply PWr. now right.
    - subst ws1. apply IH in Q; auto; [|lia].
      destruct Q as (more & A1 & A2 & A3 & A4 & A5). exists (it :: more).
      replace (its ++ it :: more) with ((its ++ [it]) ++ more) by now rewrite <- app_assoc.
      split; [|split; [intros it' [<-|J]; auto|auto]].
      change (w :: rest) with ([w] ++ rest). now constructor. }
  assert (CT : forall i d, In (i, d) (p_args p) -> ctor_ok (d_flag d) (d_name d) = true) by (intros i d I; now apply (wf_ctor _ _ W) in I).
  destruct NO as (D1 & D2 & D3 & NN).
  assert (N42 : forall i d, In (i, d) (p_args p) -> ~ In 42 (d_flag d)).
  { intros i d I J. destruct (NN i d I 42) as (_ & Q & _); [apply in_app_iff; auto|]. congruence. }
  destruct (is_comb w) eqn:IC.
  - (* combined word *)
    destruct w as [|c0 [|c1 [|c2 t]]]; try discriminate. cbn [is_comb] in IC. bsplit.
    apply Z.eqb_eq in H. subst c0. set (cs := c1 :: c2 :: t) in *.
    destruct PWw as (N0 & N1 & N2 & N3).
    assert (PR : proper cs).
    { split; [unfold cs; rewrite !Zlen_cons; pose proof (Zlen_nonneg t); lia|]. apply Z.eqb_neq in H0.
      split; [|intros Q; apply N0; now right]. intros [Q|Q]; [lia|]. now apply (N3 c1 (c2 :: t)). }
    assert (FO : flags_ok (p_args p) []).
    { intros i d c I J. destruct (NN i d I c) as (Q1 & Q2 & _); [apply in_app_iff; auto|]. auto. }
    pose proof (comb_scan [] (p_args p) g rest cs PR IG (wf_ids _ _ W)
      (fun i d I => conj (NU i d I) (CT i d I))) as CS.
    assert (VI : forall i d c, In (i, d) (p_args p) -> is_switch (d_kind d) = true -> In c (d_flag d) -> In c cs ->
      d_vis d = NoVis \/ d_vis d = VHelp \/ d_vis d = VVersion).
    { intros i d c I S J K. destruct (VO i d I) as [V|[_ [V|[V|(V & F & N)]]]]; auto.
      rewrite F in J. destruct J as [<-|[]]. destruct PR as (_ & Q & _). tauto. }
    specialize (CS VI (wf_flags _ _ W) [] h FO). rewrite bl_nil in CS.
    destruct (scan [] (p_args p) g h (45 :: cs) rest) as [took hh gg k|w' hh gg| | |] eqn:SC; try discriminate.
    + destruct CS as (i & d & a & h1 & I & VK & HE & P & XC).
      apply (STEP i d a h1 took gg); auto.
      * intros S. destruct (d_kind d); discriminate.
      * rewrite <- XC. exact E.
    + destruct CS as (-> & (F' & -> & HF) & HU & HO). rewrite IG in E.
      destruct (empty_combined (45 :: bl F' cs)) eqn:EC; [|discriminate].
      unfold empty_combined, c_dash, c_star in EC. cbn [Z.eqb Pos.eqb andb] in EC.
      set (it := ICombined (comb_items (p_args p) cs)).
      assert (GD' : good p (its ++ [it]) hh).
      { intros i d I. destruct (HU i d I) as (FI & -> & _). eapply comb_st; eauto. cbn [item_times]. now apply (comb_items_times p h0). }
      assert (CN : cnt (p_args p) (its ++ [it]) = cnt (p_args p) its) by (apply cnt_other; reflexivity).
      rewrite <- CN in E. apply IH in E; auto; [|lia].
      destruct E as (more & A1 & A2 & A3 & A4 & A5). exists (it :: more).
      destruct (declared_comb p h0 cs h W) as [DC DF]; [intros i d I; now apply HU|].
      replace (its ++ it :: more) with ((its ++ [it]) ++ more) by now rewrite <- app_assoc.
      split; [|split; [intros it' [<-|J]; auto|auto]].
      change ((45 :: cs) :: rest) with ([45 :: cs] ++ rest). constructor; auto. cbn [spells]. exists cs. split; [auto|]. split; [auto|].
      apply (filter_star_items p h0); auto. intros c I.
      assert (Q : In (if has c F' then 42 else c) (bl F' cs)) by (unfold bl; apply in_map_iff; eauto).
      rewrite forallb_forall in EC. apply EC in Q. apply Z.eqb_eq in Q.
      destruct (has c F') eqn:HC; [|left; lia]. apply has_true, HF in HC as [[]|(i & d & J & SF)]. right. exists i, d.
      unfold sw_flag in SF. destruct (is_switch (d_kind d)) eqn:S; [|easy]. split; [auto|]. split; [auto|].
      destruct (flag_one _ _ (CT i d J)) as (x & Y); [intros Y; rewrite Y in SF; easy|]. rewrite Y in SF |- *. now destruct SF as [->|[]].
  - (* any other word *)
    assert (SM : forall i d, In (i, d) (p_args p) -> is_switch (d_kind d) = true -> arg_matches d w = false -> combined_match d w = None).
    { intros i d I _ M. eapply simple_no_comb; eauto. apply PWw. }
    pose proof (scan_simple [] (p_args p) g w rest h SM IG) as SS.
    destruct (scan [] (p_args p) g h w rest) as [took hh gg k|w' hh gg| | |] eqn:SC; try discriminate.
    + destruct SS as (i & d & a & h1 & I & HE & P & XC).
      apply (STEP i d a h1 took gg); auto.
      * intros S M. eapply SM; eauto.
      * rewrite <- XC. exact E.
    + destruct SS as (-> & -> & HE). rewrite IG in E. destruct (empty_combined w) eqn:EC; [|discriminate].
      assert (WW : exists cs, w = 45 :: cs /\ filter (fun c => negb (c =? 42)) cs = []).
      { unfold empty_combined in EC. destruct w as [|c t]; [discriminate|]. bsplit. unfold c_dash, c_star in *.
        apply Z.eqb_eq in H. subst c. exists t. split; auto. clear -H0. induction t as [|c t IH]; [easy|]. cbn [forallb filter] in *.
        bsplit. apply Z.eqb_eq in H. subst c. cbn. auto. }
      destruct WW as (cs & -> & FE). set (it := ICombined []).
      assert (GD' : good p (its ++ [it]) hh).
      { intros i d I. rewrite HE. apply st_ok_other; auto. }
      assert (CN : cnt (p_args p) (its ++ [it]) = cnt (p_args p) its) by (apply cnt_other; reflexivity).
      rewrite <- CN in E. apply IH in E; auto; [|lia].
      destruct E as (more & A1 & A2 & A3 & A4 & A5). exists (it :: more).
      replace (its ++ it :: more) with ((its ++ [it]) ++ more) by now rewrite <- app_assoc.
      split; [|split; [intros it' [<-|J]; [now intros i d []|auto]|auto]].
      change ((45 :: cs) :: rest) with ([45 :: cs] ++ rest). constructor; auto. cbn [spells]. exists cs. split; [auto|]. split; [easy|]. exact FE.
Qed.

(** * Every meaningful sequence of items is accepted *)

(** The usual way to write an item. *)
Definition spell (delim : Z) (it : item) : list str :=
  match it with
  | ISwitch i d long => [flag_word d long]
  | ICombined l => [45 :: map (fun x => flag_char (snd x)) l]
  | IValue i d long w => if delim =? 32 then [flag_word d long; w] else [flag_word d long ++ delim :: w]
  | IPlain i d w => [w]
  end.

Definition value_fits (d : decl) (w : str) : Prop :=
  match d_kind d with
  | KValue t | KUValue t | KMulti t | KUMulti t => exists v, reads t w v /\ permitted d v
  | _ => False
  end.

Definition label_ok (d : decl) (long : bool) : Prop :=
  if long then d_name d <> [] else d_flag d <> [].

Definition item_ok (p : parser) (delim : Z) (it : item) : Prop :=
  declared p it /\
  match it with
  | ISwitch i d long => label_ok d long
  | ICombined l => 2 <= Zlen l /\ (forall i d, In (i, d) l -> d_flag d <> [])
  | IValue i d long w =>
      label_ok d long /\ value_fits d w
      /\ (delim <> 32 -> w <> [] /\ ~ In 42 w
          /\ (long = false -> ~ In 0 w /\ forall j d' c, In (j, d') (p_args p) -> is_switch (d_kind d') = true ->
                In c (d_flag d') -> ~ In c w))
  | IPlain i d w => value_fits d w /\ hd 0 w <> 45 /\ ~ In 42 (tl w)
  end.

Record meaningful (p : parser) (delim : Z) (items : list item) : Prop := mkMeaning {
  m_items : forall it, In it items -> item_ok p delim it;
  m_once : forall i d, In (i, d) (p_args p) ->
    match d_kind d with
    | KSwitch => times i items <= 1
    | KMultiSwitch => -2 ^ 31 <= d_count d /\ d_count d + times i items < 2 ^ 31
    | KValue _ | KUValue _ => Zlen (given i items) <= 1
    | _ => True
    end;
  m_required : forall i d, In (i, d) (p_args p) -> is_switch (d_kind d) = false -> d_req d = true -> given i items <> [];
  m_plain : forall pre i d w post l1 l2, items = pre ++ IPlain i d w :: post -> p_args p = l1 ++ (i, d) :: l2 ->
    forall j d', In (j, d') l1 -> unlabelled (d_kind d') = true ->
    (exists t, d_kind d' = KUValue t) /\ given j pre <> []
}.

Definition has_ignore (p : parser) : Prop := exists i, In (i, d_ignore) (p_args p).

Lemma order_split {A} (lab unl : list A) : forall l1 x l2, lab ++ unl = l1 ++ x :: l2 ->
  (exists m, lab = l1 ++ x :: m) \/ In x unl.
Proof.
  induction lab as [|y lab IH]; intros l1 x l2 E; cbn [app] in E.
  - right. rewrite E. apply in_app_iff. right. now left.
  - destruct l1 as [|z l1]; cbn [app] in E; injection E as <- E.
    + left. now exists lab.
    + destruct (IH _ _ _ E) as [(m & ->)|I]; [left; now exists m|auto].
Qed.

Lemma before_labelled p h i d l1 l2 : wf p h -> p_args p = l1 ++ (i, d) :: l2 -> unlabelled (d_kind d) = false ->
  forall j d', In (j, d') l1 -> unlabelled (d_kind d') = false.
Proof.
  intros W E U j d' I. destruct (wf_order _ _ W) as (lab & unl & E1 & L & UU).
  rewrite E1 in E. apply order_split in E as [(m & ->)|Q].
  - eapply L. apply in_app_iff. left. eauto.
  - apply UU in Q. congruence.
Qed.

Lemma not_self (p : parser) h i (d : decl) l1 l2 : wf p h -> p_args p = l1 ++ (i, d) :: l2 ->
  forall j d', In (j, d') l1 -> j <> i.
Proof.
  intros W E j d' I ->. pose proof (wf_ids _ _ W) as N. rewrite E, map_app in N. cbn [map fst] in N.
  apply NoDup_remove_2 in N. apply N. apply in_app_iff. left. change i with (fst (i, d')). now apply in_map.
Qed.

(** A user's argument is not labelled with the dash or the name "ignore_rest". *)
Lemma user_flag p h i d : wf p h -> has_ignore p -> In (i, d) (p_args p) -> d_vis d = NoVis ->
  d_name d <> n_ignore /\ ~ In 45 (d_flag d).
Proof.
  intros W (k & K) I V.
  assert (N : d_name d <> n_ignore).
  { intros Q. assert (i = k) by (eapply (wf_names _ _ W); eauto; rewrite Q; reflexivity). subst k.
    assert (d = d_ignore) by (eapply in_split_uniq; eauto; apply (wf_ids _ _ W)). subst d. discriminate. }
  split; auto. destruct (wf_ctor _ _ W _ _ I) as [C _]. apply ctor_flag in C as ([->|(c & -> & Q)] & _); [easy|].
  intros [->|[]]. apply Q in N. unfold c_dash in N. lia.
Qed.

(** The labelled word of one argument concerns no other labelled argument. *)
Lemma label_quiet p h delim i d long j d' a : wf p h -> has_ignore p -> names_ok p delim ->
  In (i, d) (p_args p) -> d_vis d = NoVis -> label_ok d long ->
  In (j, d') (p_args p) -> unlabelled (d_kind d') = false -> j <> i ->
  quiet delim d' a (flag_word d long).
Proof.
  intros W HI (D1 & D2 & D3 & NN) I V LO J U NJ.
  destruct (user_flag _ _ _ _ W HI I V) as [N1 N2].
  destruct (wf_ctor _ _ W _ _ I) as [C _]. destruct (wf_ctor _ _ W _ _ J) as [C' _].
  assert (WN : flag_word d long <> [45; 45]).
  { unfold flag_word. destruct long; cbn [label_ok] in LO; cbn [app].
    - destruct (d_name d); [congruence|discriminate].
    - destruct (flag_one _ _ C LO) as (c & F). rewrite F in *. intros Q. injection Q as ->. apply N2. now left. }
  assert (AM : arg_matches d (flag_word d long) = true).
  { apply arg_matches_iff. destruct long; [auto|left; auto]. }
  assert (NM : arg_matches d' (flag_word d long) = false).
  { destruct (arg_matches d' (flag_word d long)) eqn:M; auto. elim NJ. eapply match_unique; [exact W|exact J|exact I|exact WN|auto|auto]. }
  assert (N0 : forall c, In c (flag_word d long) -> c <> 0 /\ c <> delim).
  { intros c Q. unfold flag_word in Q. assert (QQ : c = 45 \/ In c (d_name d ++ d_flag d)).
    { destruct long; cbn [app In] in Q; rewrite in_app_iff; intuition congruence. }
    destruct QQ as [->|QQ]; [lia|]. destruct (NN i d I c QQ). tauto. }
  unfold quiet. destruct (d_kind d') eqn:K; try discriminate.
  - split; auto. apply simple_no_comb; auto; [|intros Q; apply N0 in Q; lia].
    unfold flag_word. destruct long; cbn [app]; [destruct (d_name d); reflexivity|].
    destruct (flag_one _ _ C LO) as (c & F). now rewrite F.
  - split; auto. apply simple_no_comb; auto; [|intros Q; apply N0 in Q; lia].
    unfold flag_word. destruct long; cbn [app]; [destruct (d_name d); reflexivity|].
    destruct (flag_one _ _ C LO) as (c & F). now rewrite F.
  - right. rewrite trim_none; [auto|]. intros Q. apply N0 in Q. lia.
  - right. rewrite trim_none; [auto|]. intros Q. apply N0 in Q. lia.
Qed.

Lemma flag_word_len d long : label_ok d long -> 1 < Zlen (flag_word d long).
Proof.
  unfold flag_word, label_ok. destruct long; cbn [app]; intros L.
  - rewrite !Zlen_cons. pose proof (Zlen_nonneg (d_name d)). lia.
  - destruct (d_flag d) as [|c fl]; [congruence|]. rewrite !Zlen_cons. pose proof (Zlen_nonneg fl). lia.
Qed.

(** The same for the word that also carries the value. *)
Lemma joined_quiet p h delim i d long w j d' a : wf p h -> has_ignore p -> names_ok p delim ->
  In (i, d) (p_args p) -> d_vis d = NoVis -> is_switch (d_kind d) = false -> label_ok d long ->
  In (j, d') (p_args p) -> unlabelled (d_kind d') = false -> j <> i ->
  (long = false -> ~ In 0 w /\ forall j d' c, In (j, d') (p_args p) -> is_switch (d_kind d') = true ->
                In c (d_flag d') -> ~ In c w) ->
  quiet delim d' a (flag_word d long ++ delim :: w).
Proof.
  intros W HI NO I V SW LO J U NJ SH.
  pose proof (label_quiet p h delim i d long j d' a W HI NO I V LO J U NJ) as Q.
  destruct NO as (D1 & D2 & D3 & NN).
  destruct (user_flag _ _ _ _ W HI I V) as [N1 N2].
  destruct (wf_ctor _ _ W _ _ I) as [C _]. destruct (wf_ctor _ _ W _ _ J) as [C' _].
  assert (ND : ~ In delim (flag_word d long)).
  { intros X. unfold flag_word in X. assert (QQ : delim = 45 \/ In delim (d_name d ++ d_flag d)).
    { destruct long; cbn [app In] in X; rewrite in_app_iff; intuition congruence. }
    destruct QQ as [QQ|QQ]; [lia|]. destruct (NN i d I delim QQ). tauto. }
  pose proof (flag_word_len d long LO) as LL.
  assert (SWQ : is_switch (d_kind d') = true ->
     arg_matches d' (flag_word d long ++ delim :: w) = false /\ combined_match d' (flag_word d long ++ delim :: w) = None).
  { intros S. split.
    - apply arg_matches_false. intros [[E NE]|E].
      + unfold flag_word in E at 2. destruct (flag_one _ _ C' NE) as (c & F). rewrite F in E.
        apply (f_equal Zlen) in E. rewrite Zlen_app, Zlen_cons in E. pose proof (Zlen_nonneg w). change (Zlen ([45] ++ [c])) with 2 in E. lia.
      + unfold flag_word in E. destruct long; cbn [app] in E; injection E as E.
        * apply (NN j d' J delim); [|reflexivity]. apply in_app_iff. left. rewrite <- E. apply in_app_iff. right. now left.
        * cbn [label_ok] in LO. destruct (flag_one _ _ C LO) as (c & F). rewrite F in *. cbn [app] in E. injection E as -> _. apply N2. now left.
    - unfold flag_word. destruct long; cbn [app]; [reflexivity|]. destruct (SH eq_refl) as [Z0 SC].
      cbn [label_ok] in LO. destruct (flag_one _ _ C LO) as (c & F). rewrite F. cbn [app].
      unfold combined_match, c_dash. change (negb (45 =? 45)) with false. cbn iota.
      destruct (Z.eqb_spec c 45); [subst; elim N2; rewrite F; now left|].
      rewrite blank_first_none; [easy|].
      unfold flag_char. destruct (d_flag d') as [|f fl] eqn:F'.
      + assert (c <> 0 /\ c <> 42 /\ c <> delim) by (apply (NN i d I); apply in_app_iff; right; rewrite F; now left).
        intros [X|[X|X]]; [lia|lia|auto].
      + destruct (flag_one _ _ C') as (x & X); [discriminate|]. injection X as -> ->.
        assert (x <> 0 /\ x <> 42 /\ x <> delim) by (apply (NN j d' J); apply in_app_iff; right; rewrite F'; now left).
        intros [X|[X|X]]; [|lia|].
        * subst c. apply NJ. eapply (wf_flags _ _ W); eauto; congruence.
        * apply (SC j d' x J S); [rewrite F'; now left|auto]. }
  unfold quiet in *. destruct (d_kind d') eqn:K; try discriminate.
  - apply SWQ. reflexivity.
  - apply SWQ. reflexivity.
  - right. rewrite trim_app by auto. cbn [fst]. destruct Q as [Q|Q].
    + exfalso. unfold flag_word, has_blanks in Q. destruct long; cbn [app] in Q; apply has_true in Q.
      * destruct Q as [Q|Q]; [unfold c_star in Q; lia|]. destruct (NN i d I c_star) as (_ & X & _); [apply in_app_iff; auto|]. unfold c_star in X. lia.
      * destruct (NN i d I c_star) as (_ & X & _); [apply in_app_iff; auto|]. unfold c_star in X. lia.
    + rewrite trim_none in Q by auto. exact Q.
  - right. rewrite trim_app by auto. cbn [fst]. destruct Q as [Q|Q].
    + exfalso. unfold flag_word, has_blanks in Q. destruct long; cbn [app] in Q; apply has_true in Q.
      * destruct Q as [Q|Q]; [unfold c_star in Q; lia|]. destruct (NN i d I c_star) as (_ & X & _); [apply in_app_iff; auto|]. unfold c_star in X. lia.
      * destruct (NN i d I c_star) as (_ & X & _); [apply in_app_iff; auto|]. unfold c_star in X. lia.
    + rewrite trim_none in Q by auto. exact Q.
Qed.

Lemma scan_app xs l2 rest : forall l1 g h w,
  scan xs (l1 ++ l2) g h w rest =
  match scan xs l1 g h w rest with SNone w' h' g' => scan xs l2 g' h' w' rest | r => r end.
Proof.
  induction l1 as [|[i d] l1 IH]; intros g h w; [reflexivity|]. cbn [app scan].
  destruct (process g d (h i) w rest); auto.
  destruct (xor_check xs (hset h i a) i d). reflexivity.
Qed.

Lemma comb_scan_none xs l g rest cs : proper cs -> g_ignore g = false -> NoDup (map fst l) ->
  (forall i d, In (i, d) l -> unlabelled (d_kind d) = false /\ ctor_ok (d_flag d) (d_name d) = true) ->
  (forall i d c, In (i, d) l -> is_switch (d_kind d) = true -> In c (d_flag d) -> In c cs -> d_vis d = NoVis) ->
  (forall i d j d', In (i, d) l -> In (j, d') l -> d_flag d <> [] -> d_flag d = d_flag d' -> i = j) ->
  g_delim g <> 45 -> g_delim g <> 42 -> ~ In (g_delim g) cs ->
  forall F h, flags_ok l F -> (forall i d, In (i, d) l -> comb_fine cs d (h i)) ->
  exists w' h' g', scan xs l g h (45 :: bl F cs) rest = SNone w' h' g'.
Proof.
  intros P IG. induction l as [|[i d] l IH]; intros ND UL VI UQ D1 D2 D3 F h FL FI; cbn [scan]; [eauto|].
  cbn [map fst] in ND. inversion ND as [|? ? ND1 ND2]; subst.
  destruct (UL i d ltac:(now left)) as [U C].
  assert (FLt : flags_ok l F) by (intros j d' c I; apply (FL j d' c); now right).
  assert (NF : forall c, In c (d_flag d) -> c <> 42 /\ c <> 0 /\ ~ In c F) by (intros c; apply (FL i d c); now left).
  assert (NI : forall j d', In (j, d') l -> j <> i) by (intros j d' I ->; apply ND1; change i with (fst (i, d')); now apply in_map).
  assert (PE : process g d (h i) (45 :: bl F cs) rest = PNo (45 :: bl (sw_flag d ++ F) cs) (comb_upd cs d (h i)) g).
  { destruct (is_switch (d_kind d)) eqn:S.
    - destruct (comb_switch g d (h i) F cs rest P C NF IG S) as [[E _]|[_ E]]; auto.
      + intros c J1 J2. apply (VI i d c); auto. now left.
      + elim E. apply FI. now left.
    - unfold sw_flag. rewrite S. cbn [app]. assert (comb_upd cs d (h i) = h i) as -> by (unfold comb_upd; destruct (d_kind d); try discriminate; easy).
      apply process_quiet. unfold quiet. destruct (d_kind d); try discriminate.
      + right. rewrite trim_none; [now apply proper_no_match|]. intros [Q|Q]; [lia|]. apply bl_in in Q as [Q|[Q _]]; [lia|auto].
      + right. rewrite trim_none; [now apply proper_no_match|]. intros [Q|Q]; [lia|]. apply bl_in in Q as [Q|[Q _]]; [lia|auto]. }
  rewrite PE.
  apply (IH ND2 (fun j d' I => UL j d' (or_intror I)) (fun j d' c I => VI j d' c (or_intror I))
      (fun i1 d1 i2 d2 I1 I2 => UQ i1 d1 i2 d2 (or_intror I1) (or_intror I2)) D1 D2 D3).
  - intros j d' c I J. destruct (FLt j d' c I J) as (A1 & A2 & A3). split; [auto|]. split; [auto|].
    rewrite in_app_iff. intros [Q|Q]; [|auto]. unfold sw_flag in Q. destruct (is_switch (d_kind d)) eqn:S; [|easy].
    destruct (UL j d' ltac:(now right)) as [_ C'].
    destruct (flag_one _ _ C ltac:(intros X; rewrite X in Q; easy)) as (x & X).
    destruct (flag_one _ _ C' ltac:(intros Y; rewrite Y in J; easy)) as (y & Y).
    rewrite X in Q. rewrite Y in J. destruct Q as [->|[]], J as [->|[]].
    elim (NI j d' I). symmetry. eapply (UQ i d j d'); [now left|now right|congruence|congruence].
  - intros j d' I. rewrite hset_other by (eapply NI; eauto). apply FI. now right.
Qed.

Lemma accept_one p h0 g h its w rest took a i d it l1 l2 : wf p h0 -> p_xor p = [] -> good p its h ->
  p_args p = l1 ++ (i, d) :: l2 ->
  (forall j d', In (j, d') l1 -> quiet (g_delim g) d' (h j) w) ->
  process g d (h i) w rest = PYes took a g ->
  st_ok i d (its ++ [it]) a ->
  (forall j, j <> i -> item_times j it = 0 /\ item_given j it = []) ->
  (if is_required d a then 1 else 0)
    = (if need (i, d) && negb (Zlen (item_given i it) =? 0) && (Zlen (given i its) =? 0) then 1 else 0) ->
  (item_given i it = [] \/ exists s, item_given i it = [s]) ->
  exists h', good p (its ++ [it]) h' /\
    parse_loop p g h (cnt (p_args p) its) (w :: rest) =
    if took then match rest with [] => Undefined | _ :: r => parse_loop p g h' (cnt (p_args p) (its ++ [it])) r end
    else parse_loop p g h' (cnt (p_args p) (its ++ [it])) rest.
Proof.
  intros W X GD AE Q P ST OT RQ IGV.
  assert (I : In (i, d) (p_args p)) by (rewrite AE; apply in_app_iff; right; now left).
  destruct (scan_quiet (p_xor p) l1 ((i, d) :: l2) g w rest h Q) as (h1 & HE & SC).
  exists (hset h1 i a). split.
  - intros j d' J. destruct (Z.eq_dec j i) as [->|NJ].
    + assert (d' = d) by (eapply in_split_uniq; eauto; apply (wf_ids _ _ W)). subst d'. now rewrite hset_same.
    + rewrite hset_other, HE by auto. destruct (OT j NJ). apply st_ok_other; auto.
  - assert (CN : cnt (p_args p) its + (if is_required d a then 1 else 0) = cnt (p_args p) (its ++ [it])).
    { rewrite RQ. destruct IGV as [Q0|(s & Q0)].
      - rewrite Q0. change (negb (Zlen (@nil str) =? 0)) with false. rewrite andb_false_r. cbn [andb].
        rewrite cnt_other; [lia|]. intros j d' J. destruct (Z.eq_dec j i) as [->|NJ]; auto. now apply OT.
      - rewrite Q0. change (negb (Zlen [s] =? 0)) with true. rewrite andb_true_r.
        rewrite (cnt_step _ _ _ i d s); auto. apply (wf_ids _ _ W). intros j J. now apply OT. }
    cbn [parse_loop]. rewrite AE, SC. cbn [scan]. rewrite HE, P, X, xor_check_nil, hset_same.
    rewrite <- AE, CN. destruct took; [destruct rest|]; reflexivity.
Qed.

Lemma fits_take d a w : value_fits d w -> exists a', take_value d a w = Some (inr a').
Proof.
  unfold value_fits, take_value. destruct (d_kind d); try easy; intros (v & R & P);
  apply extract_some in R; apply allowed_permitted in P; unfold value_extract, multi_extract; rewrite R; cbn [forallb]; rewrite P; cbn [andb]; eauto.
Qed.

Lemma fits_kind d w : value_fits d w -> is_switch (d_kind d) = false.
Proof. unfold value_fits. now destruct (d_kind d). Qed.

(** A word that does not start with a dash concerns no labelled argument. *)
Lemma undashed_quiet d delim w a : hd 0 w <> 45 -> unlabelled (d_kind d) = false -> quiet delim d a w.
Proof.
  intros N U.
  assert (AM : forall f, hd 0 f <> 45 -> arg_matches d f = false).
  { intros f F. apply arg_matches_false. unfold flag_word. intros [[E _]|E]; subst f; cbn in F; lia. }
  assert (CM : combined_match d w = None).
  { unfold combined_match, c_dash. destruct w as [|c t]; [easy|]. cbn [hd] in N. destruct (Z.eqb_spec c 45); easy. }
  assert (TR : hd 0 (fst (trim_flag delim w)) <> 45).
  { unfold trim_flag. destruct (cut delim w) as [[x y]|] eqn:E; [|exact N]. destruct (Z.ltb_spec 1 (Zlen x)); [|exact N].
    apply cut_some in E as [E _]. destruct x as [|c x]; [znil; lia|]. subst w. exact N. }
  unfold quiet. destruct (d_kind d); try discriminate; auto.
Qed.

Lemma set_given i d its a : st_ok i d its a -> is_switch (d_kind d) = false -> times i its = 0 ->
  (a_set a = true <-> given i its <> []).
Proof.
  intros ST S T. rewrite (st_set _ _ _ _ ST), T. cbn [Z.ltb Z.compare orb].
  destruct (given i its); [split; [discriminate|congruence]|]. rewrite Zlen_cons. pose proof (Zlen_nonneg l).
  split; [discriminate|]. intros _. lia.
Qed.

Lemma times_zero p i d its h : wf p h -> In (i, d) (p_args p) -> is_switch (d_kind d) = false ->
  (forall it, In it its -> declared p it) -> times i its = 0.
Proof.
  intros W I S. induction its as [|it its IH]; intros D; [easy|]. cbn [times]. rewrite IH by (intros; apply D; now right).
  specialize (D it ltac:(now left)). destruct it; cbn [item_times declared] in *; try lia.
  - destruct (Z.eqb_spec i i0); [|lia]. subst. destruct D as (J & K & _).
    assert (d0 = d) by (eapply in_split_uniq; eauto; apply (wf_ids _ _ W)). congruence.
  - assert (E : filter (fun x => i =? fst x) l = []); [|rewrite E; reflexivity].
    clear IH. induction l as [|[j d'] l IH]; [easy|]. cbn [filter fst]. rewrite IH by (intros; apply D; now right).
    destruct (Z.eqb_spec i j); [|easy]. subst j. destruct (D i d' ltac:(now left)) as (J & K & _).
    assert (d' = d) by (eapply in_split_uniq; eauto; apply (wf_ids _ _ W)). congruence.
Qed.

Lemma switch_given p i d its h : wf p h -> In (i, d) (p_args p) -> is_switch (d_kind d) = true ->
  (forall it, In it its -> declared p it) -> given i its = [].
Proof.
  intros W I S. induction its as [|it its IH]; intros D; [easy|]. cbn [given]. rewrite IH by (intros; apply D; now right).
  specialize (D it ltac:(now left)). destruct it; cbn [item_given declared] in *; try easy.
  - destruct (Z.eqb_spec i i0); [|easy]. subst. destruct D as (J & K).
    assert (d0 = d) by (eapply in_split_uniq; eauto; apply (wf_ids _ _ W)). subst. destruct (d_kind d); discriminate.
  - destruct (Z.eqb_spec i i0); [|easy]. subst. destruct D as (J & K).
    assert (d0 = d) by (eapply in_split_uniq; eauto; apply (wf_ids _ _ W)). subst. destruct (d_kind d); discriminate.
Qed.

Lemma comb_list_times p h l i d : wf p h -> In (i, d) (p_args p) ->
  (forall j d', In (j, d') l -> In (j, d') (p_args p) /\ is_switch (d_kind d') = true /\ d_flag d' <> []) ->
  item_times i (ICombined l) = match d_flag d with
    | [c] => if is_switch (d_kind d) then occurrences c (map (fun x => flag_char (snd x)) l) else 0 | _ => 0 end.
Proof.
  intros W I. induction l as [|[j d'] l IH]; intros A; cbn [item_times filter map fst snd].
  - destruct (d_flag d) as [|c [|]]; auto. destruct (is_switch (d_kind d)); auto.
  - cbn [item_times] in IH. unfold occurrences in *. cbn [filter].
    specialize (IH ltac:(intros; apply A; now right)). destruct (A j d' ltac:(now left)) as (J & S & F).
    destruct (wf_ctor _ _ W _ _ J) as [C' _]. destruct (flag_one _ _ C' F) as (x & X).
    assert (flag_char d' = x) as -> by (unfold flag_char; now rewrite X).
    destruct (Z.eqb_spec i j).
    + subst j. assert (d' = d) by (eapply in_split_uniq; eauto; apply (wf_ids _ _ W)). subst d'.
      rewrite X, S, Z.eqb_refl, !Zlen_cons. rewrite X, S in IH. lia.
    + destruct (d_flag d) as [|c [|]] eqn:FD; auto. destruct (is_switch (d_kind d)); auto.
      destruct (Z.eqb_spec c x); [|auto]. subst. elim n. eapply (wf_flags _ _ W); eauto; congruence.
Qed.

(** One item is accepted. *)
Lemma complete_step p h0 g h items its it post rest :
  wf p h0 -> p_xor p = [] -> vis_ok p -> has_ignore p -> names_ok p (g_delim g) -> g_ignore g = false ->
  meaningful p (g_delim g) items -> items = its ++ it :: post -> good p its h ->
  exists h', good p (its ++ [it]) h' /\
    parse_loop p g h (cnt (p_args p) its) (spell (g_delim g) it ++ rest)
    = parse_loop p g h' (cnt (p_args p) (its ++ [it])) rest.
Proof.
  intros W X VO HI NO IG M EI GD.
  assert (DCL : forall x, In x its -> declared p x).
  { intros x J. apply (m_items _ _ _ M). rewrite EI. apply in_app_iff. now left. }
  destruct (m_items _ _ _ M it) as [DC OK]; [rewrite EI; apply in_app_iff; right; now left|].
  assert (VN : forall i d, In (i, d) (p_args p) -> is_switch (d_kind d) = false -> d_vis d = NoVis).
  { intros i d I S. destruct (VO i d I) as [V|[K _]]; auto. rewrite K in S. discriminate. }
  assert (NO' := NO). destruct NO' as (D1 & D2 & D3 & NN).
  assert (FWD : forall i d long, In (i, d) (p_args p) -> d_vis d = NoVis -> label_ok d long -> ~ In (g_delim g) (flag_word d long) /\ ~ In 42 (flag_word d long)).
  { intros i d long I V L. assert (Q : forall c, In c (flag_word d long) -> c = 45 \/ In c (d_name d ++ d_flag d)).
    { intros c J. unfold flag_word in J. destruct long; cbn [app In] in J; rewrite in_app_iff; intuition congruence. }
    split; intros J; apply Q in J as [J|J]; try lia; destruct (NN i d I _ J) as (? & ? & ?); congruence. }
  destruct it as [i d long|l|i d long w|i d w]; cbn [declared spell] in *.
  - (* a switch *)
    destruct DC as (I & S & V). destruct (in_split _ _ I) as (l1 & l2 & AE).
    assert (U : unlabelled (d_kind d) = false) by (destruct (d_kind d); try discriminate; easy).
    assert (AM : arg_matches d (flag_word d long) = true) by (apply arg_matches_iff; destruct long; [auto|left; auto]).
    assert (IT : item_times i (ISwitch i d long) = 1) by (cbn [item_times]; now rewrite Z.eqb_refl).
    pose proof (m_once _ _ _ M i d I) as ON. rewrite EI, times_app in ON. cbn [times] in ON. rewrite IT in ON.
    pose proof (times_nonneg i post) as TP. pose proof (times_nonneg i its) as TI.
    assert (GN : given i its = []) by (eapply switch_given; eauto).
    assert (PR : exists a, process g d (h i) (flag_word d long) rest = PYes false a g
        /\ st_ok i d (its ++ [ISwitch i d long]) a /\ is_required d a = false).
    { unfold process. destruct (d_kind d) eqn:K; try discriminate.
      - assert (AS : a_set (h i) = false).
        { rewrite (st_set _ _ _ _ (GD i d I)), GN. change (0 <? Zlen (@nil str)) with false. rewrite orb_false_r. try rewrite K in ON. lia. }
        destruct (st_switch i d its (h i) (ISwitch i d long) (GD i d I) K AS IT eq_refl) as [A B].
        eexists. split; [|split; [exact A|exact B]]. unfold switch_process, visit. now rewrite IG, AM, AS, V.
      - destruct (st_multi_switch i d its (h i) (ISwitch i d long) 1 (GD i d I) K IT ltac:(lia) eq_refl) as [A B].
        eexists. split; [|split; [exact A|exact B]]. unfold multi_switch_process, visit. rewrite IG, AM, V.
        assert (in_int (a_count (h i) + 1) = true) as ->; auto.
        rewrite (st_count _ _ _ _ (GD i d I)), K. unfold in_int, int_min, int_max in *. lia. }
    destruct PR as (a & PR & ST & RQ).
    destruct (accept_one p h0 g h its (flag_word d long) rest false a i d (ISwitch i d long) l1 l2) as (h' & G' & E); auto.
    + intros j d' J. assert (JA : In (j, d') (p_args p)) by (rewrite AE; apply in_app_iff; now left).
      apply (label_quiet p h0) with (i := i) (j := j); auto; [eapply before_labelled; eauto|eapply not_self; eauto].
    + intros j J. cbn [item_times item_given]. destruct (Z.eqb_spec j i); [lia|auto].
    + rewrite RQ. cbn [item_given]. change (negb (Zlen (@nil str) =? 0)) with false. now rewrite andb_false_r.
    + exists h'. split; auto.
  - (* combined switches *)
    destruct OK as [L2 FE]. set (cs := map (fun x => flag_char (snd x)) l). set (it := ICombined l).
    assert (CSI : forall c, In c cs -> exists i d, In (i, d) l /\ d_flag d = [c]).
    { intros c J. apply in_map_iff in J as ([i d] & E & J). cbn [snd] in E. exists i, d. split; auto.
      destruct (DC i d J) as (K & _). destruct (wf_ctor _ _ W _ _ K) as [C _].
      destruct (flag_one _ _ C (FE i d J)) as (x & Y). unfold flag_char in E. rewrite Y in *. congruence. }
    assert (CN : forall c, In c cs -> c <> 0 /\ c <> 42 /\ c <> g_delim g /\ c <> 45).
    { intros c J. destruct (CSI c J) as (i & d & K & F). destruct (DC i d K) as (I & S & V).
      destruct (user_flag _ _ _ _ W HI I V) as [_ N]. rewrite F in N.
      destruct (NN i d I c) as (? & ? & ?); [apply in_app_iff; right; rewrite F; now left|]. split; [auto|]. split; [auto|]. split; [auto|].
      intros ->. apply N. now left. }
    assert (PR : proper cs).
    { split; [unfold cs; rewrite Zlen_map; auto|]. split; intros J; apply CN in J; lia. }
    assert (TM : forall i d, In (i, d) (p_args p) -> item_times i it = match d_flag d with
       | [c] => if is_switch (d_kind d) then occurrences c cs else 0 | _ => 0 end).
    { intros i d I. apply (comb_list_times p h0); auto. intros j d' J. destruct (DC j d' J) as (? & ? & _). eauto. }
    destruct (wf_order _ _ W) as (lab & unl & AE & LL & UU).
    assert (NDL : NoDup (map fst lab)).
    { pose proof (wf_ids _ _ W) as ND. rewrite AE, map_app in ND. clear -ND. induction lab as [|x lab IH]; cbn [map app] in *; [constructor|].
      inversion ND; subst. constructor; auto. intros Q. apply H1. apply in_app_iff. now left. }
    assert (INL : forall x, In x lab -> In x (p_args p)) by (intros; rewrite AE; apply in_app_iff; now left).
    assert (FO : flags_ok lab []).
    { intros i d c I J. destruct (NN i d (INL _ I) c) as (Q1 & Q2 & _); [apply in_app_iff; auto|]. auto. }
    assert (CT : forall i d, In (i, d) lab -> unlabelled (d_kind d) = false /\ ctor_ok (d_flag d) (d_name d) = true).
    { intros i d I. split; [eauto|]. now apply (wf_ctor _ _ W i d), INL. }
    assert (VI : forall i d c, In (i, d) lab -> is_switch (d_kind d) = true -> In c (d_flag d) -> In c cs -> d_vis d = NoVis).
    { intros i d c I S J K. destruct (CSI c K) as (j & d' & K' & F). destruct (DC j d' K') as (J' & S' & V').
      destruct (CT i d I) as [_ C]. destruct (flag_one _ _ C) as (x & Y); [intros Y; rewrite Y in J; easy|].
      rewrite Y in J. destruct J as [->|[]].
      assert (i = j) by (eapply (wf_flags _ _ W); eauto; congruence). subst j.
      assert (d' = d) by (eapply in_split_uniq; [apply (wf_ids _ _ W)|exact J'|apply INL; exact I]). now subst. }
    assert (UQ : forall i d j d', In (i, d) lab -> In (j, d') lab -> d_flag d <> [] -> d_flag d = d_flag d' -> i = j).
    { intros i d j d' I J. apply (wf_flags _ _ W); auto. }
    assert (FI : forall i d, In (i, d) lab -> comb_fine cs d (h i)).
    { intros i d I0. assert (I := INL _ I0). unfold comb_fine. pose proof (m_once _ _ _ M i d I) as ON.
      rewrite EI, times_app in ON. cbn [times] in ON. fold it in ON. rewrite (TM i d I) in ON.
      pose proof (times_nonneg i post) as TP. pose proof (times_nonneg i its) as TI.
      destruct (d_kind d) eqn:K; auto; destruct (d_flag d) as [|c [|]] eqn:F; auto; intros J; cbn [is_switch] in ON;
      apply occurrences_pos in J.
      - assert (given i its = []) as GN by (eapply switch_given; eauto; rewrite K; easy). split; [|lia].
        rewrite (st_set _ _ _ _ (GD i d I)), GN. change (0 <? Zlen (@nil str)) with false. rewrite orb_false_r. try rewrite K in ON. lia.
      - rewrite (st_count _ _ _ _ (GD i d I)), K. unfold in_int, int_min, int_max in *. lia. }
    assert (ND : ~ In (g_delim g) cs) by (intros J; apply CN in J; lia).
    destruct (comb_scan_none [] lab g rest cs PR IG NDL CT VI UQ D1 D2 ND [] h FO FI) as (w1 & h1 & g1 & SC).
    pose proof (comb_scan [] lab g rest cs PR IG NDL CT (fun i d c A B C D => or_introl (VI i d c A B C D)) UQ [] h FO) as CS.
    rewrite bl_nil in *. rewrite SC in CS. destruct CS as (-> & (F' & -> & HF) & HU & HO).
    assert (ALL : forall c, In c cs -> In c F').
    { intros c J. apply HF. right. destruct (CSI c J) as (i & d & K & F). exists i, d. destruct (DC i d K) as (I & S & _).
      split. { rewrite AE in I. apply in_app_iff in I as [I|I]; auto. apply UU in I. destruct (d_kind d); discriminate. }
      unfold sw_flag. rewrite S, F. now left. }
    assert (BL : bl F' cs = map (fun _ => 42) cs).
    { unfold bl. apply map_ext_in. intros c J. apply ALL, has_true in J. now rewrite J. }
    destruct (scan_quiet [] unl [] g (45 :: bl F' cs) rest h1) as (h2 & HE & SC2).
    { intros i d I. unfold quiet. apply UU in I. assert (HB : has_blanks (45 :: bl F' cs) = true).
      { rewrite BL. unfold has_blanks, cs. destruct l; [znil; lia|]. reflexivity. }
      destruct (d_kind d); try discriminate; auto. }
    exists h2. split.
    + intros i d I. rewrite HE. rewrite AE in I. apply in_app_iff in I as [I|I].
      * destruct (HU i d I) as (A & -> & _). eapply comb_st; eauto.
      * rewrite HO.
        -- apply st_ok_other; [apply GD; rewrite AE; apply in_app_iff; auto| |reflexivity].
           rewrite (TM i d) by (rewrite AE; apply in_app_iff; auto).
           destruct (d_flag d) as [|? [|]]; auto. apply UU in I. destruct (d_kind d); try discriminate; auto.
        -- intros J. apply in_map_iff in J as ([j d'] & E & J). cbn [fst] in E. subst j.
           pose proof (LL _ _ J) as U1. pose proof (UU _ _ I) as U2.
           assert (d' = d); [|congruence]. eapply in_split_uniq; [apply (wf_ids _ _ W)|apply INL; eauto|rewrite AE; apply in_app_iff; eauto].
    + rewrite (cnt_other _ its (ICombined l)) by reflexivity. cbn [app parse_loop]. fold cs. rewrite X, AE, scan_app, SC.
      rewrite app_nil_r in SC2. rewrite SC2. cbn [scan].
      assert (empty_combined (45 :: bl F' cs) = true) as ->; [|reflexivity].
      rewrite BL. unfold empty_combined, c_dash, c_star. rewrite Z.eqb_refl. cbn [andb]. apply forallb_forall.
      intros x J. apply in_map_iff in J as (? & <- & _). reflexivity.
  - (* a labelled value *)
    destruct DC as (I & KV). destruct OK as (LO & FT & JN). destruct (in_split _ _ I) as (l1 & l2 & AE).
    assert (S : is_switch (d_kind d) = false) by (destruct (d_kind d); try discriminate; easy).
    assert (U : unlabelled (d_kind d) = false) by (destruct (d_kind d); try discriminate; easy).
    assert (V := VN i d I S).
    assert (AM : arg_matches d (flag_word d long) = true) by (apply arg_matches_iff; destruct long; [auto|left; auto]).
    set (it := IValue i d long w).
    assert (IT : item_times i it = 0) by reflexivity.
    assert (IGV : item_given i it = [w]) by (cbn [item_given it]; now rewrite Z.eqb_refl).
    assert (TZ : times i its = 0) by (eapply times_zero; eauto).
    assert (NS : is_multi (d_kind d) = false -> a_set (h i) = false).
    { intros MU. rewrite (st_set _ _ _ _ (GD i d I)), TZ. cbn [Z.ltb Z.compare orb].
      pose proof (m_once _ _ _ M i d I) as ON. rewrite EI, given_app in ON. cbn [given] in ON. fold it in ON. rewrite IGV, !Zlen_app, Zlen_cons in ON.
      pose proof (Zlen_nonneg (given i post)). pose proof (Zlen_nonneg (given i its)).
      destruct (d_kind d); try discriminate; revert ON; znil; intros ON; lia. }
    destruct (fits_take d (h i) w FT) as (a & TV).
    destruct (take_value_st _ _ _ _ _ _ _ (GD i d I) TV IT IGV NS) as [ST RQ].
    destruct (FWD i d long I V LO) as [N1 N2].
    assert (OTH : forall j, j <> i -> item_times j it = 0 /\ item_given j it = []).
    { intros j J. cbn [item_times item_given it]. destruct (Z.eqb_spec j i); [lia|auto]. }
    assert (RQ' : (if is_required d a then 1 else 0)
      = (if need (i, d) && negb (Zlen (item_given i it) =? 0) && (Zlen (given i its) =? 0) then 1 else 0)).
    { rewrite RQ, IGV. change (negb (Zlen [w] =? 0)) with true. now rewrite andb_true_r. }
    assert (HB : forall t, ~ In 42 t -> has_blanks t = false).
    { intros t NT. destruct t as [|c t]; [easy|]. cbn [has_blanks]. apply has_false. intros Q. apply NT. now right. }
    destruct (Z.eqb_spec (g_delim g) 32) as [DS|DS].
    + assert (PR : process g d (h i) (flag_word d long) (w :: rest) = PYes true a g).
      { unfold process, take_value in *. destruct (d_kind d) eqn:K; try discriminate; unfold labelled_process;
        rewrite IG, HB by auto; rewrite trim_none by auto; rewrite AM; cbn [negb andb]; unfold c_space; rewrite DS; cbn [Z.eqb Pos.eqb negb andb seqb].
        - rewrite (NS eq_refl). injection TV as TV. rewrite TV. unfold visit. now rewrite V.
        - rewrite TV. unfold visit. now rewrite V. }
      destruct (accept_one p h0 g h its (flag_word d long) (w :: rest) true a i d it l1 l2) as (h' & G' & E); eauto.
      intros j d' J. assert (JA : In (j, d') (p_args p)) by (rewrite AE; apply in_app_iff; now left).
      apply (label_quiet p h0) with (i := i) (j := j); auto; [eapply before_labelled; eauto|eapply not_self; eauto].
    + destruct (JN DS) as (WN & N42 & SH).
      assert (PR : process g d (h i) (flag_word d long ++ g_delim g :: w) rest = PYes false a g).
      { assert (HB' : has_blanks (flag_word d long ++ g_delim g :: w) = false).
        { apply HB. rewrite in_app_iff. intros [Q|[Q|Q]]; auto. }
        assert (SN : seqb w [] = false) by now apply seqb_false.
        unfold process, take_value in *. destruct (d_kind d) eqn:K; try discriminate; unfold labelled_process;
        rewrite IG, HB'; rewrite trim_app by (auto; now apply flag_word_len); rewrite AM, SN; cbn [negb andb]; rewrite ?andb_false_r.
        - rewrite (NS eq_refl). injection TV as TV. rewrite TV. unfold visit. now rewrite V.
        - rewrite TV. unfold visit. now rewrite V. }
      destruct (accept_one p h0 g h its (flag_word d long ++ g_delim g :: w) rest false a i d it l1 l2) as (h' & G' & E); eauto.
      intros j d' J. assert (JA : In (j, d') (p_args p)) by (rewrite AE; apply in_app_iff; now left).
      apply (joined_quiet p h0) with (i := i) (j := j); auto; [eapply before_labelled; eauto|eapply not_self; eauto].
  - (* a positional value *)
    destruct DC as (I & U). destruct OK as (FT & ND & N42). destruct (in_split _ _ I) as (l1 & l2 & AE).
    assert (S : is_switch (d_kind d) = false) by (destruct (d_kind d); try discriminate; easy).
    set (it := IPlain i d w).
    assert (IT : item_times i it = 0) by reflexivity.
    assert (IGV : item_given i it = [w]) by (cbn [item_given it]; now rewrite Z.eqb_refl).
    assert (TZ : times i its = 0) by (eapply times_zero; eauto).
    assert (NS : is_multi (d_kind d) = false -> a_set (h i) = false).
    { intros MU. rewrite (st_set _ _ _ _ (GD i d I)), TZ. cbn [Z.ltb Z.compare orb].
      pose proof (m_once _ _ _ M i d I) as ON. rewrite EI, given_app in ON. cbn [given] in ON. fold it in ON. rewrite IGV, !Zlen_app, Zlen_cons in ON.
      pose proof (Zlen_nonneg (given i post)). pose proof (Zlen_nonneg (given i its)).
      destruct (d_kind d); try discriminate; revert ON; znil; intros ON; lia. }
    destruct (fits_take d (h i) w FT) as (a & TV).
    destruct (take_value_st _ _ _ _ _ _ _ (GD i d I) TV IT IGV NS) as [ST RQ].
    assert (OTH : forall j, j <> i -> item_times j it = 0 /\ item_given j it = []).
    { intros j J. cbn [item_times item_given it]. destruct (Z.eqb_spec j i); [lia|auto]. }
    assert (RQ' : (if is_required d a then 1 else 0)
      = (if need (i, d) && negb (Zlen (item_given i it) =? 0) && (Zlen (given i its) =? 0) then 1 else 0)).
    { rewrite RQ, IGV. change (negb (Zlen [w] =? 0)) with true. now rewrite andb_true_r. }
    assert (HB : has_blanks w = false).
    { destruct w as [|c t]; [easy|]. cbn [has_blanks tl] in *. now apply has_false. }
    assert (PR : process g d (h i) w rest = PYes false a g).
    { unfold process, take_value in *. destruct (d_kind d) eqn:K; try discriminate.
      - unfold uvalue_process. rewrite (NS eq_refl), HB. injection TV as TV. now rewrite TV.
      - unfold umulti_process. now rewrite HB, TV. }
    destruct (accept_one p h0 g h its w rest false a i d it l1 l2) as (h' & G' & E); eauto.
    intros j d' J.
    assert (JA : In (j, d') (p_args p)) by (rewrite AE; apply in_app_iff; now left).
    destruct (unlabelled (d_kind d')) eqn:U'; [|now apply undashed_quiet].
    destruct (m_plain _ _ _ M its i d w post l1 l2 EI AE j d' J U') as [(t & K) GN].
    unfold quiet. rewrite K. left. apply (set_given j d' its (h j)); auto.
    + rewrite K. easy.
    + eapply times_zero; eauto. rewrite K. easy.
Qed.

Lemma complete p h0 g items : wf p h0 -> p_xor p = [] -> vis_ok p -> has_ignore p -> names_ok p (g_delim g) ->
  g_ignore g = false -> meaningful p (g_delim g) items ->
  exists h', parse p g h0 (flat_map (spell (g_delim g)) items) = Done h' g /\ good p items h'.
Proof.
  intros W X VO HI NO IG M.
  assert (G0 : good p [] h0).
  { intros i d I. rewrite (wf_state _ _ W _ _ I). unfold grouped. rewrite X. apply st_ok_fresh. }
  assert (STEPS : forall post its h, items = its ++ post -> good p its h ->
    exists h', good p items h' /\ parse_loop p g h (cnt (p_args p) its) (flat_map (spell (g_delim g)) post)
      = parse_loop p g h' (cnt (p_args p) items) []).
  { induction post as [|it post IH]; intros its h E G.
    - rewrite app_nil_r in E. subst its. exists h. auto.
    - cbn [flat_map].
      destruct (complete_step p h0 g h items its it post (flat_map (spell (g_delim g)) post)) as (h1 & G1 & E1); auto.
      destruct (IH (its ++ [it]) h1) as (h' & G' & E'); auto.
      + now rewrite <- app_assoc.
      + exists h'. split; auto. now rewrite E1, E'. }
  destruct (STEPS items [] h0 eq_refl G0) as (h' & G' & E). exists h'. split; auto.
  unfold parse. assert (C0 : cnt (p_args p) [] = 0).
  { unfold cnt. assert (Q : filter (fun x => need x && got [] x) (p_args p) = []); [|now rewrite Q].
    clear. induction (p_args p) as [|x l IH]; [easy|]. cbn [filter]. unfold got at 1. cbn. now rewrite andb_false_r. }
  rewrite C0 in E. rewrite E. cbn [parse_loop].
  rewrite cnt_reached, <- (wf_num_need p h0) by
   (auto; intros i d I N; unfold need in N; cbn [snd] in N; unfold fresh in N; cbn [a_req] in N;
    apply (m_required _ _ _ M i d I); destruct (d_kind d); try discriminate; auto).
  now rewrite Z.ltb_irrefl.
Qed.
