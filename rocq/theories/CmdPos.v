(** Positional arguments and repeated members of a group. *)
From Coq Require Import Permutation.
From Verif Require Import Base Numerals CmdModel CmdProofs CmdXor CmdMore CmdWrap.

(** A positional argument that need not be given: after it no other can be found. *)
Definition positional (d : decl) : bool := match d_kind d with KUValue _ | KUMulti _ => true | _ => false end.
Definition may_be_absent (d : decl) : bool := match d_kind d with KUValue _ => negb (d_req d) | _ => false end.

Definition decls_of (cs : list dcl) : list decl := flat_map dcl_decls cs.

Definition orderly (l : list decl) : Prop :=
  forall a d b d' c, l = a ++ d :: b ++ d' :: c -> positional d' = true -> may_be_absent d = false.

Definition no_positional (l : list decl) : Prop := forall d, In d l -> positional d = false.
Definition ready (o : bool) (l : list decl) : Prop := if o then no_positional l else orderly l.

Lemma ready_cons o d l o' :
  (positional d = true -> o = false) -> o' = o || may_be_absent d -> ready o' l -> ready o (d :: l).
Proof.
  intros P O R. destruct o; cbn [ready orb] in *; subst o'; cbn [ready] in R.
  - intros x [<-|I]; [|now apply R]. destruct (positional d); auto.
  - intros a e b e' c E Q. destruct a as [|y a]; cbn [app] in E; injection E as <- E.
    + destruct (may_be_absent d); auto. cbn [ready] in R. rewrite (R e') in Q; [easy|]. rewrite E. apply in_app_iff. right. now left.
    + destruct (may_be_absent d) eqn:M; cbn [ready] in R.
      * rewrite (R e') in Q; [easy|]. rewrite E. apply in_app_iff. right. right. apply in_app_iff. right. now left.
      * eapply R; eauto.
Qed.

Lemma construct_pos g d g' : construct g d = Ok g' ->
  (positional d = true -> g_opt g = false) /\ g_opt g' = g_opt g || may_be_absent d.
Proof.
  unfold construct, positional, may_be_absent. destruct (negb _); [easy|].
  destruct (d_kind d); cbn [unlabelled andb]; try (intros E; injection E as <-; rewrite orb_false_r; easy).
  - destruct (negb _); [easy|]. destruct (g_opt g) eqn:O; [easy|]. destruct (d_req d); cbn [negb]; intros E; injection E as <-; cbn [g_opt]; auto.
  - destruct (negb _); [easy|]. destruct (g_opt g) eqn:O; [easy|]. intros E; injection E as <-. rewrite O. auto.
Qed.

Lemma construct_all_pos ds : forall g h i g' h' l, construct_all g h i ds = Ok (g', h') ->
  ready (g_opt g') l -> ready (g_opt g) (ds ++ l).
Proof.
  induction ds as [|d ds IH]; cbn [construct_all app]; intros g h i g' h' l E R.
  - now injection E as <- <-.
  - destruct (construct g d) as [g1| |] eqn:C; try discriminate. cbn [bind] in E.
    apply construct_pos in C as [C1 C2]. eapply ready_cons; eauto.
Qed.

Lemma declare_all_pos cs : forall g p h g' p' h', declare_all g p h cs = Ok (g', p', h') ->
  ready (g_opt g) (decls_of cs).
Proof.
  induction cs as [|c cs IH]; intros g p h g' p' h' E.
  - destruct (g_opt g); cbn; [easy|]. intros a d b d' x Q. destruct a; discriminate.
  - cbn [declare_all] in E. destruct (declare g p h c) as [[[g1 p1] h1]| |] eqn:D; try discriminate. cbn [bind] in E.
    apply IH in E. unfold decls_of. cbn [flat_map]. fold (decls_of cs). destruct c as [d|ds]; cbn [declare dcl_decls] in *.
    + destruct (construct g d) as [g2| |] eqn:C; try discriminate. cbn [bind] in D.
      destruct (add _ _ _ _); try discriminate. cbn [bind] in D. injection D as <- _ _.
      apply construct_pos in C as [C1 C2]. eapply ready_cons; eauto.
    + destruct (construct_all g h (p_next p) ds) as [[g2 h2]| |] eqn:C; try discriminate. cbn [bind] in D.
      destruct (add_all _ _ _ _) as [[p2 h3]| |]; try discriminate. cbn [bind] in D. injection D as <- _ _.
      eapply construct_all_pos; eauto.
Qed.

Lemma build_positional g delim help cs g' p h : build g delim help cs = Ok (g', p, h) -> g_opt g = false ->
  orderly (decls_of cs).
Proof.
  unfold build. intros E O. apply declare_all_pos in E. cbn [g_opt] in E. rewrite O in E. cbn [ready] in E.
  intros a d b d' c Q P. destruct help.
  - apply (E (d_help :: d_version :: d_ignore :: a) d b d' c); auto. cbn. now rewrite <- Q.
  - apply (E (d_ignore :: a) d b d' c); auto. cbn. now rewrite <- Q.
Qed.

(** * A repeatable member of a group, given several times *)

Lemma group_step p h0 g h i d t grp n long w v rest l1 l2 : wf p h0 -> has_ignore p -> names_ok p 32 ->
  g_delim g = 32 -> g_ignore g = false ->
  p_args p = l1 ++ (i, d) :: l2 -> d_kind d = KMulti t -> d_vis d = NoVis -> label_ok d long ->
  p_xor p = [grp] -> In i grp ->
  extract t w = XVal (Some v) -> allowed d v = true ->
  exists h', parse_loop p g h n (flag_word d long :: w :: rest)
      = parse_loop p g h' (n + (if a_more (h i) then 0 else Zlen grp)) rest
    /\ a_more (h' i) = true /\ a_vals (h' i) = a_vals (h i) ++ [v] /\ a_xor (h' i) = a_xor (h i) /\ a_set (h' i) = true
    /\ (forall j, j <> i -> In j grp -> h' j = xor_set (h j)).
Proof.
  intros W HI NO GD IG AE K V LO X IN EX AL.
  assert (I : In (i, d) (p_args p)) by (rewrite AE; apply in_app_iff; right; now left).
  assert (U : unlabelled (d_kind d) = false) by now rewrite K.
  assert (AM : arg_matches d (flag_word d long) = true) by (apply arg_matches_iff; destruct long; [auto|left; auto]).
  assert (NO' := NO). destruct NO' as (D1 & D2 & D3 & NN).
  assert (FW : forall c, In c (flag_word d long) -> c = 45 \/ In c (d_name d ++ d_flag d)).
  { intros c J. unfold flag_word in J. destruct long; cbn [app In] in J; rewrite in_app_iff; intuition congruence. }
  assert (N1 : ~ In 32 (flag_word d long)) by (intros J; apply FW in J as [J|J]; [lia|]; destruct (NN i d I _ J) as (? & ? & ?); congruence).
  assert (N2 : has_blanks (flag_word d long) = false).
  { assert (N2 : ~ In 42 (flag_word d long)) by (intros J; apply FW in J as [J|J]; [lia|]; destruct (NN i d I _ J) as (? & ? & ?); congruence).
    destruct (flag_word d long) as [|c u]; [easy|]. cbn [has_blanks]. apply has_false. intros Q. apply N2. now right. }
  set (a := set_vals (h i) (a_vals (h i) ++ [v])).
  destruct (scan_quiet (p_xor p) l1 ((i, d) :: l2) g (flag_word d long) (w :: rest) h) as (h1 & HE & SC).
  { intros j d' J. assert (JA : In (j, d') (p_args p)) by (rewrite AE; apply in_app_iff; now left). rewrite GD.
    apply (label_quiet p h0) with (i := i) (j := j); auto; [eapply before_labelled; eauto|eapply not_self; eauto]. }
  assert (PR : process g d (h i) (flag_word d long) (w :: rest) = PYes true a g).
  { unfold process. rewrite K. unfold labelled_process. rewrite IG, N2, GD. rewrite trim_none by auto. rewrite AM.
    cbn [negb andb]. change (32 =? c_space) with true. cbn [negb andb seqb]. unfold multi_extract. rewrite EX, AL.
    unfold visit. now rewrite V. }
  cbn [parse_loop]. rewrite AE, SC, X. cbn [scan]. rewrite HE, PR. unfold xor_check. cbn [find].
  assert (existsb (Z.eqb i) grp = true) as -> by (apply existsb_exists; exists i; split; [auto|apply Z.eqb_refl]).
  cbv zeta. rewrite Z.eqb_refl. cbn [negb andb]. rewrite andb_false_r. rewrite hset_same. unfold allow_more.
  rewrite K. cbn [is_multi].
  eexists. split; [reflexivity|]. rewrite !hset_same. cbn [a_more a_vals a_set a_xor]. split; [auto|]. split; [auto|]. split; [auto|]. split; [auto|].
  intros j J IJ. rewrite hset_other by auto.
  assert (existsb (Z.eqb j) grp = true) as -> by (apply existsb_exists; exists j; split; [auto|apply Z.eqb_refl]).
  destruct (Z.eqb_spec j i); [easy|]. cbn [negb andb]. rewrite hset_other by auto. now rewrite HE.
Qed.

(** The words for one value of argument [d]. *)
Definition value_words (d : decl) (x : bool * str) : list str :=
  [(if fst x then [45; 45] ++ d_name d else [45] ++ d_flag d); snd x].

Lemma group_steps p h0 g i d t grp l1 l2 : wf p h0 -> has_ignore p -> names_ok p 32 ->
  g_delim g = 32 -> g_ignore g = false ->
  p_args p = l1 ++ (i, d) :: l2 -> d_kind d = KMulti t -> d_vis d = NoVis -> p_xor p = [grp] -> In i grp ->
  forall ws vs, Forall2 (fun x v => label_ok d (fst x) /\ reads t (snd x) v /\ permitted d v) ws vs ->
  forall h n, ws <> [] -> exists h', parse_loop p g h n (flat_map (value_words d) ws)
      = parse_loop p g h' (n + (if a_more (h i) then 0 else Zlen grp)) []
    /\ a_vals (h' i) = a_vals (h i) ++ vs /\ a_xor (h' i) = a_xor (h i) /\ a_set (h' i) = true
    /\ (forall j, j <> i -> In j grp -> h' j = xor_set (h j)).
Proof.
  intros W HI NO GD IG AE K V X IN. induction ws as [|[long w] ws IH]; intros vs F h n NE; [easy|].
  inversion F as [|? v ? vs' (F1 & F2 & F3) F4]; subst. cbn [fst snd] in *.
  apply extract_some in F2. apply allowed_permitted in F3.
  destruct (group_step p h0 g h i d t grp n long w v (flat_map (value_words d) ws) l1 l2)
    as (h1 & E1 & M1 & V1 & S1 & B1 & X1); auto.
  cbn [flat_map value_words fst snd app].
  change (if long then [45; 45] ++ d_name d else [45] ++ d_flag d) with (flag_word d long).
  destruct ws as [|x ws].
  - inversion F4; subst. exists h1. split; [exact E1|]. auto.
  - destruct (IH vs' F4 h1 (n + (if a_more (h i) then 0 else Zlen grp)) ltac:(discriminate)) as (h' & E' & V' & S' & B' & X').
    exists h'. split; [rewrite M1, Z.add_0_r in E'; cbn [flat_map value_words fst snd app] in E1, E' |- *; change (if long then 45 :: 45 :: d_name d else 45 :: d_flag d) with (flag_word d long); now rewrite E1, <- E'|].
    split; [rewrite V', V1, <- app_assoc; reflexivity|]. split; [congruence|]. split; [auto|].
    intros j J IJ. rewrite X', X1 by auto. reflexivity.
Qed.

Lemma group_num p h grp : wf p h -> p_xor p = [grp] -> NoDup grp ->
  (forall i, In i grp -> exists d, In (i, d) (p_args p)) ->
  (forall i d, In (i, d) (p_args p) -> ~ In i grp -> d_req d = false \/ is_switch (d_kind d) = true) ->
  p_num p = Zlen grp.
Proof.
  intros W X ND IN OUT. rewrite (wf_num _ _ W).
  rewrite (Zlen_filter_ext _ (fun x => existsb (Z.eqb (fst x)) grp)).
  - pose proof (wf_ids _ _ W) as NI. revert NI IN. generalize (p_args p) as l. clear - ND. intros l NI IN.
    assert (P : Permutation (map fst (filter (fun x => existsb (Z.eqb (fst x)) grp) l)) grp).
    { apply NoDup_Permutation; auto.
      - clear IN ND. induction l as [|x l IH]; cbn [filter map] in *; [constructor|]. inversion NI; subst.
        destruct (existsb (Z.eqb (fst x)) grp); cbn [map]; auto. constructor; auto.
        intros Q. apply H1. apply in_map_iff in Q as (y & E & Q). apply filter_In in Q as [Q _]. rewrite <- E. now apply in_map.
      - intros i. split.
        + intros Q. apply in_map_iff in Q as (y & <- & Q). apply filter_In in Q as [_ Q]. apply existsb_exists in Q as (z & Z1 & Z2).
          apply Z.eqb_eq in Z2. now rewrite Z2.
        + intros Q. destruct (IN i Q) as (d & I). apply in_map_iff. exists (i, d). split; auto. apply filter_In. split; auto.
          apply existsb_exists. exists i. split; auto. apply Z.eqb_refl. }
    apply Permutation_length in P. rewrite map_length in P. unfold Zlen. now rewrite P.
  - intros [i d] I. cbn [fst snd]. rewrite (wf_state _ _ W _ _ I). unfold grouped. rewrite X. cbn [existsb]. rewrite orb_false_r.
    destruct (existsb (Z.eqb i) grp) eqn:E.
    + unfold is_required, force_required. cbn [a_req a_vals andb]. unfold fresh. cbn [a_vals]. destruct (d_kind d); reflexivity.
    + destruct (OUT i d I) as [Q|Q].
      * intros J. assert (existsb (Z.eqb i) grp = true); [|congruence]. apply existsb_exists. exists i. split; auto. apply Z.eqb_refl.
      * unfold is_required, fresh. cbn [a_req a_vals]. rewrite Q. now destruct (d_kind d).
      * unfold is_required, fresh. cbn [a_req a_vals]. now destruct (d_kind d).
Qed.

Lemma groups_none cs i : no_groups cs -> groups i cs = [].
Proof.
  revert i. induction cs as [|c cs IH]; intros i N; [easy|]. cbn [groups]. rewrite IH by (intros ds J; apply (N ds); now right).
  destruct c as [d|ds]; [easy|]. elim (N ds). now left.
Qed.

Lemma groups_app a b : forall i, exists k, groups i (a ++ b) = groups i a ++ groups k b.
Proof.
  induction a as [|c a IH]; intros i; cbn [app groups]; [now exists i|].
  destruct (IH (i + Zlen (dcl_decls c))) as (k & ->). exists k. now rewrite app_assoc.
Qed.

Lemma numbered_group pre ds post : forall i, no_groups pre -> no_groups post ->
  exists k, groups i (pre ++ DXor ds :: post) = [ids_from k (length ds)]
    /\ (forall j d, In (j, d) (combine (ids_from k (length ds)) ds) -> In (j, d) (numbered i (pre ++ DXor ds :: post)))
    /\ (forall j d, In (j, d) (numbered i (pre ++ DXor ds :: post)) -> In j (ids_from k (length ds)) -> In d ds)
    /\ (forall j d, In (j, d) (numbered i (pre ++ DXor ds :: post)) -> ~ In j (ids_from k (length ds)) ->
         In d (user_decls pre) \/ In d (user_decls post)) /\ i <= k.
Proof.
  induction pre as [|c pre IH]; intros i N1 N2.
  - exists i. cbn [app groups numbered dcl_group dcl_decls]. rewrite groups_none by auto. split; [reflexivity|].
    split; [|split; [|split; [|lia]]].
    + intros j d I. apply in_app_iff. now left.
    + intros j d I J. apply in_app_iff in I as [I|I]; [now apply in_combine_r in I|].
      exfalso. apply ids_from_in in J. assert (L : forall cs a b e, In (b, e) (numbered a cs) -> a <= b).
      { clear. induction cs as [|c cs IH]; intros a b e I; [easy|]. cbn [numbered] in I. apply in_app_iff in I as [I|I].
        - apply in_combine_l in I. apply ids_from_in in I. lia.
        - apply IH in I. pose proof (Zlen_nonneg (dcl_decls c)). lia. }
      apply L in I. unfold Zlen in I. lia.
    + intros j d I J. apply in_app_iff in I as [I|I]; [apply in_combine_l in I; tauto|]. right. eapply numbered_decl; eauto.
  - destruct c as [d0|ds0]; [|elim (N1 ds0); now left].
    destruct (IH (i + Zlen [d0])) as (k & G & A & B & C & L); auto.
    { intros ds' J. apply (N1 ds'). now right. }
    exists k. cbn [app groups numbered dcl_group dcl_decls length ids_from combine]. rewrite G. split; [reflexivity|].
    revert L. rewrite Zlen_cons. znil. intros L. split; [|split; [|split; [|lia]]].
    + intros j d I. right. now apply A.
    + intros j d [I|I] J; [|eapply B; eauto]. injection I as <- <-. apply ids_from_in in J. lia.
    + intros j d [I|I] J; [|destruct (C j d I J); auto]. injection I as <- <-. left. now left.
      left. cbn [user_decls flat_map]. apply in_app_iff. now right.
Qed.

Lemma repeated_member g help pre ds post g' p h i d t ws vs :
  build g 32 help (pre ++ DXor ds :: post) = Ok (g', p, h) -> g_ignore g = false ->
  no_groups pre -> no_groups post -> no_visitors (pre ++ DXor ds :: post) -> clean_names 32 help (pre ++ DXor ds :: post) ->
  (forall d', In d' (user_decls pre) \/ In d' (user_decls post) -> d_req d' = false) ->
  In (i, d) (numbered 0 (all_dcls help (pre ++ DXor ds :: post))) -> In d ds -> d_kind d = KMulti t ->
  (forall grp, In grp (groups 0 (all_dcls help (pre ++ DXor ds :: post))) -> In i grp) ->
  ws <> [] -> Forall2 (fun x v => label_ok d (fst x) /\ reads t (snd x) v /\ permitted d v) ws vs ->
  exists h', parse p g' h (flat_map (value_words d) ws) = Done h' g'
    /\ get_values h' i = vs /\ is_set (h' i) = true
    /\ forall j d' grp, In (j, d') (numbered 0 (all_dcls help (pre ++ DXor ds :: post))) ->
         In grp (groups 0 (all_dcls help (pre ++ DXor ds :: post))) -> In j grp -> j <> i -> is_set (h' j) = false.
Proof.
  intros B IG N1 N2 NV CN RQ I ID K IN NE F.
  destruct (build_facts _ _ _ _ _ _ _ B NV) as (W & VO & HI & GD & GI & A & _ & NO).
  destruct (build_wf _ _ _ _ _ _ _ B) as (_ & X & _).
  set (bi := if help then [DOne d_help; DOne d_version; DOne d_ignore] else [DOne d_ignore]).
  assert (AD : all_dcls help (pre ++ DXor ds :: post) = (bi ++ pre) ++ DXor ds :: post).
  { unfold all_dcls, bi. destruct help; cbn [app]; reflexivity. }
  assert (NB : no_groups (bi ++ pre)).
  { intros q Q. apply in_app_iff in Q as [Q|Q]; [|now apply (N1 q)]. unfold bi in Q. destruct help; cbn in Q; intuition discriminate. }
  rewrite AD in *. destruct (numbered_group (bi ++ pre) ds post 0 NB N2) as (k & G & S1 & S2 & S3 & _).
  set (grp := ids_from k (length ds)) in *. rewrite G in *.
  specialize (IN grp (or_introl eq_refl)).
  assert (AP : forall j d', In (j, d') (p_args p) <-> In (j, d') (numbered 0 ((bi ++ pre) ++ DXor ds :: post))) by (intros; apply A).
  assert (IA : In (i, d) (p_args p)) by now apply A.
  assert (V : d_vis d = NoVis). { apply NV. unfold user_decls. rewrite flat_map_app. apply in_app_iff. right. cbn. apply in_app_iff. now left. }
  destruct (in_split _ _ IA) as (l1 & l2 & AE).
  assert (IGg : g_ignore g' = false) by congruence.
  destruct (group_steps p h g' i d t grp l1 l2 W HI (NO CN) GD IGg AE K V X IN ws vs F h 0 NE) as (h' & E & V' & S' & B' & X').
  assert (HST : forall j d', In (j, d') (p_args p) -> In j grp -> h j = force_required (fresh d')).
  { intros j d' J JG. rewrite (wf_state _ _ W _ _ J). unfold grouped. rewrite X. cbn [existsb].
    assert (existsb (Z.eqb j) grp = true) as -> by (apply existsb_exists; exists j; split; [auto|apply Z.eqb_refl]). reflexivity. }
  rewrite (HST i d IA IN) in E, V', S'. cbn [force_required fresh a_more a_vals a_xor] in E, V', S'.
  assert (PN : p_num p = Zlen grp).
  { eapply group_num; eauto.
    - apply ids_from_nodup.
    - intros j J. destruct (combine_ids ds k j J) as (d' & Q). exists d'. apply A. now apply S1.
    - intros j d' J NJ. apply A in J. destruct (S3 j d' J NJ) as [Q|Q]; [|left; apply RQ; auto].
      unfold user_decls in Q. rewrite flat_map_app in Q. apply in_app_iff in Q as [Q|Q]; [|left; apply RQ; auto].
      right. unfold bi in Q. destruct help; cbn in Q; intuition (subst; reflexivity). }
  exists h'. split; [|split; [|split]].
  - unfold parse. rewrite E. cbn [parse_loop Z.add]. rewrite PN, Z.ltb_irrefl. reflexivity.
  - unfold get_values. rewrite V', K. reflexivity.
  - unfold is_set. now rewrite B', S'.
  - intros j d' gr J [<-|[]] JG NJ. rewrite X' by auto. unfold is_set, xor_set. cbn. reflexivity.
Qed.
