(** Further facts about the command line: "--", constraints, programs built by declarations, and the
    wrapping of the usage text. *)
From Verif Require Import Base Numerals CmdModel CmdProofs CmdXor.

(** * Programs built by declarations *)

(** All of the program's own arguments are declared one by one. *)
Definition user_decls (cs : list dcl) : list decl := flat_map dcl_decls cs.
Definition no_groups (cs : list dcl) : Prop := forall ds, ~ In (DXor ds) cs.
Definition no_visitors (cs : list dcl) : Prop := forall d, In d (user_decls cs) -> d_vis d = NoVis.
(** Flags and names that contain none of NUL, the blank character and the delimiter. *)
Definition clean_names (delim : Z) (help : bool) (cs : list dcl) : Prop :=
  delim <> 45 /\ delim <> 42 /\ delim <> 0
  /\ forall d, In d (user_decls (all_dcls help cs)) -> forall c, In c (d_name d ++ d_flag d) -> c <> 0 /\ c <> 42 /\ c <> delim.

Lemma numbered_decl cs : forall i k d, In (k, d) (numbered i cs) -> In d (user_decls cs).
Proof.
  induction cs as [|c cs IH]; intros i k d I; cbn [numbered] in I; [easy|]. cbn [user_decls flat_map].
  apply in_app_iff in I. apply in_app_iff. destruct I as [I|I]; [left; now apply in_combine_r in I|right; eapply IH; eauto].
Qed.

Lemma no_groups_nil cs : no_groups cs -> forall i, groups i cs = [].
Proof.
  induction cs as [|c cs IH]; intros N i; [easy|]. cbn [groups]. destruct c as [d|ds]; [|elim (N ds); now left].
  cbn [dcl_group app]. apply IH. intros ds I. apply (N ds). now right.
Qed.

Lemma user_all help cs d : In d (user_decls (all_dcls help cs)) ->
  d = d_help \/ d = d_version \/ d = d_ignore \/ In d (user_decls cs).
Proof.
  unfold all_dcls, user_decls. destruct help; cbn [app flat_map dcl_decls In]; intuition.
Qed.

Lemma build_facts g delim help cs g' p h : build g delim help cs = Ok (g', p, h) ->
  no_visitors cs -> wf p h /\ vis_ok p /\ has_ignore p /\ g_delim g' = delim /\ g_ignore g' = g_ignore g
  /\ (forall x, In x (p_args p) <-> In x (numbered 0 (all_dcls help cs)))
  /\ (no_groups cs -> p_xor p = [])
  /\ (clean_names delim help cs -> names_ok p delim).
Proof.
  intros B NV. destruct (build_wf _ _ _ _ _ _ _ B) as (W & X & A & D & IG).
  split; [auto|]. split; [|split; [|split; [auto|split; [auto|split; [auto|split]]]]].
  - intros i d I. apply A, numbered_decl, user_all in I as [->|[->|[->|I]]]; cbn; [right|right|right|left; now apply NV].
    + split; [easy|auto].
    + split; [easy|auto].
    + split; [easy|]. right. right. auto.
  - unfold all_dcls in A. destruct help; [exists 2|exists 0]; apply A; cbn.
    + right. right. now left.
    + now left.
  - intros N. rewrite X. apply no_groups_nil. intros ds I. apply (N ds). unfold all_dcls in I.
    destruct help; cbn [app In] in I; intuition discriminate.
  - intros (C1 & C2 & C3 & C4). split; [auto|]. split; [auto|]. split; [auto|]. intros i d I.
    apply C4. eapply numbered_decl. apply A. eauto.
Qed.

(** What the program reads back for argument [i] after the items were given. *)
Definition reads_back (i : Z) (d : decl) (items : list item) (h : heap) : Prop :=
  match d_kind d with
  | KSwitch => get_switch h i = (if 0 <? times i items then negb (d_on d) else d_on d)
  | KMultiSwitch => get_count h i = d_count d + times i items
  | KValue t | KUValue t =>
      match given i items with
      | [] => get_values h i = [d_default d]
      | [w] => exists v, reads t w v /\ permitted d v /\ get_values h i = [v]
      | _ => False
      end
  | KMulti t | KUMulti t => Forall2 (fun w v => reads t w v /\ permitted d v) (given i items) (get_values h i)
  end.

Lemma good_reads_back p items h i d : good p items h -> In (i, d) (p_args p) ->
  (forall w, In w (given i items) -> value_fits d w) -> reads_back i d items h.
Proof.
  intros G I F. destruct (G i d I) as [_ _ _ D _ E V]. unfold reads_back, get_switch, get_count, get_values.
  unfold vals_ok in V. destruct (d_kind d) eqn:K; try (rewrite D; now rewrite K); auto.
  - destruct (given i items) as [|w [|]]; auto. destruct V as [V|(-> & -> & _)]; auto.
    specialize (F [] ltac:(now left)). unfold value_fits in F. rewrite K in F.
    destruct F as (v & R & _). apply extract_some in R. discriminate.
  - destruct (given i items) as [|w [|]]; auto. destruct V as [V|(-> & -> & _)]; auto.
    specialize (F [] ltac:(now left)). unfold value_fits in F. rewrite K in F.
    destruct F as (v & R & _). apply extract_some in R. discriminate.
Qed.

Lemma given_fits p h delim i d items : wf p h -> In (i, d) (p_args p) -> (forall it, In it items -> item_ok p delim it) ->
  forall w, In w (given i items) -> value_fits d w.
Proof.
  intros W I. induction items as [|it items IH]; intros A w J; [easy|]. cbn [given] in J. apply in_app_iff in J as [J|J].
  - destruct (A it ltac:(now left)) as [DC OK]. destruct it; cbn [item_given declared] in *; try easy.
    + destruct (Z.eqb_spec i i0); [|easy]. destruct J as [->|[]]. subst. destruct DC as [J _].
      assert (d0 = d) by (eapply in_split_uniq; eauto; apply (wf_ids _ _ W)). subst. tauto.
    + destruct (Z.eqb_spec i i0); [|easy]. destruct J as [->|[]]. subst. destruct DC as [J _].
      assert (d0 = d) by (eapply in_split_uniq; eauto; apply (wf_ids _ _ W)). subst. tauto.
  - apply IH; auto. intros; apply A; now right.
Qed.

Lemma reads_fun t w v v' : reads t w v -> reads t w v' -> v = v'.
Proof. intros A B. apply extract_some in A, B. congruence. Qed.

(** * After "--" *)

Definition same_value (a b : dyn) : Prop := a_on a = a_on b /\ a_count a = a_count b /\ a_vals a = a_vals b.

Lemma same_refl a : same_value a a. Proof. repeat split. Qed.
Lemma same_trans a b c : same_value a b -> same_value b c -> same_value a c.
Proof. intros (A & B & C) (D & E & F). repeat split; congruence. Qed.

Lemma xor_check_same xs h i d j : same_value (fst (xor_check xs h i d) j) (h j).
Proof.
  unfold xor_check. destruct (find _ xs) as [grp|]; cbn [fst]; [|apply same_refl].
  unfold allow_more. destruct (Z.eqb_spec j i) as [->|N].
  - destruct (is_multi (d_kind d)); cbn [fst]; rewrite hset_same; destruct (existsb (Z.eqb i) grp && negb (i =? i)); repeat split.
  - destruct (is_multi (d_kind d)); cbn [fst]; rewrite hset_other by auto; destruct (existsb (Z.eqb j) grp && negb (j =? i)); repeat split.
Qed.

Lemma ignored_process g d a w rest : g_ignore g = true -> unlabelled (d_kind d) = false -> process g d a w rest = PNo w a g.
Proof.
  intros G U. unfold process. destruct (d_kind d); try discriminate;
  unfold switch_process, multi_switch_process, labelled_process; now rewrite G.
Qed.

Lemma unlabelled_glob g d a w rest : unlabelled (d_kind d) = true ->
  match process g d a w rest with PNo _ _ g' | PYes _ _ g' => g' = g | _ => True end.
Proof.
  intros U. unfold process. destruct (d_kind d); try discriminate.
  - unfold uvalue_process. destruct (a_set a); auto. destruct (has_blanks w); auto. destruct (value_extract _ _ _ _); auto.
  - unfold umulti_process. destruct (has_blanks w); auto. destruct (multi_extract _ _ _ _) as [[|]|]; auto.
Qed.

Lemma ignored_scan xs l rest : NoDup (map fst l) -> forall g h w, g_ignore g = true ->
  match scan xs l g h w rest with
  | SMatch _ h' g' _ => g' = g /\ forall i d, In (i, d) l -> unlabelled (d_kind d) = false -> same_value (h' i) (h i)
  | SNone _ h' g' => g' = g /\ forall i d, In (i, d) l -> unlabelled (d_kind d) = false -> same_value (h' i) (h i)
  | _ => True
  end
  /\ (forall j, ~ In j (map fst l) -> match scan xs l g h w rest with
       | SMatch _ h' g' _ => same_value (h' j) (h j) | SNone _ h' g' => same_value (h' j) (h j) | _ => True end).
Proof.
  induction l as [|[i d] l IH]; intros N g h w G; cbn [scan].
  { split; [split; [auto|]; easy|intros; apply same_refl]. }
  cbn [map fst] in N. inversion N as [|? ? N1 N2]; subst. specialize (IH N2).
  assert (NI : forall d', ~ In (i, d') l) by (intros d' J; apply N1; change i with (fst (i, d')); now apply in_map).
  assert (STEP : forall a w', (unlabelled (d_kind d) = false -> a = h i) ->
    match scan xs l g (hset h i a) w' rest with
    | SMatch _ h' g' _ => g' = g /\ forall j d', In (j, d') ((i, d) :: l) -> unlabelled (d_kind d') = false -> same_value (h' j) (h j)
    | SNone _ h' g' => g' = g /\ forall j d', In (j, d') ((i, d) :: l) -> unlabelled (d_kind d') = false -> same_value (h' j) (h j)
    | _ => True
    end
    /\ (forall j, ~ In j (map fst ((i, d) :: l)) -> match scan xs l g (hset h i a) w' rest with
       | SMatch _ h' g' _ => same_value (h' j) (h j) | SNone _ h' g' => same_value (h' j) (h j) | _ => True end)).
  { intros a w' E. destruct (IH g (hset h i a) w' G) as [A B].
    assert (HI : unlabelled (d_kind d) = false -> forall j, hset h i a j = h j).
    { intros U j. destruct (Z.eq_dec j i) as [->|]; [rewrite hset_same; auto|now apply hset_other]. }
    destruct (scan xs l g (hset h i a) w' rest) as [took h' g' n|w'' h' g'| | |]; auto.
    - destruct A as [-> A]. split; [split; auto|].
      + intros j d' [Q|J] U; [injection Q as <- <-; rewrite <- (HI U i); now apply B|].
        pose proof (A j d' J U) as S. rewrite hset_other in S; auto. intros ->. eapply NI; eauto.
      + intros j J. cbn [map fst In] in J. specialize (B j ltac:(tauto)). rewrite hset_other in B; auto.
    - destruct A as [-> A]. split; [split; auto|].
      + intros j d' [Q|J] U; [injection Q as <- <-; rewrite <- (HI U i); now apply B|].
        pose proof (A j d' J U) as S. rewrite hset_other in S; auto. intros ->. eapply NI; eauto.
      + intros j J. cbn [map fst In] in J. specialize (B j ltac:(tauto)). rewrite hset_other in B; auto. }
  destruct (unlabelled (d_kind d)) eqn:U.
  - pose proof (unlabelled_glob g d (h i) w rest U) as UG.
    destruct (process g d (h i) w rest) as [w' a g'|took a g'|e| |] eqn:P; auto.
    + subst g'. apply STEP. discriminate.
    + subst g'. destruct (xor_check xs (hset h i a) i d) as [h' n] eqn:XC.
      pose proof (xor_check_same xs (hset h i a) i d) as XS. rewrite XC in XS. cbn [fst] in XS.
      split; [split; auto|].
      * intros j d' [Q|J] U'; [injection Q as <- <-; congruence|]. specialize (XS j). rewrite hset_other in XS; auto.
        intros ->. eapply NI; eauto.
      * intros j J. cbn [map fst In] in J. specialize (XS j). rewrite hset_other in XS; auto.
  - rewrite ignored_process by auto. apply STEP. auto.
Qed.

Lemma ignored_loop p h0 : wf p h0 -> forall m ws g h n h' g', (length ws < m)%nat -> g_ignore g = true ->
  parse_loop p g h n ws = Done h' g' ->
  forall i d, In (i, d) (p_args p) -> unlabelled (d_kind d) = false -> same_value (h' i) (h i).
Proof.
  intros W. induction m as [|m IH]; intros ws g h n h' g' L G E i d I U; [lia|].
  destruct ws as [|w rest]; cbn [parse_loop] in E.
  - destruct (_ <? _); [discriminate|]. destruct (_ <? _); [discriminate|]. injection E as <- <-. apply same_refl.
  - cbn [length] in L. destruct (ignored_scan (p_xor p) (p_args p) rest (wf_ids _ _ W) g h w G) as [A _].
    destruct (scan (p_xor p) (p_args p) g h w rest) as [took hh gg k|w' hh gg| | |]; try discriminate.
    + destruct A as [-> A]. eapply same_trans; [|apply (A i d I U)]. destruct took.
      * destruct rest as [|s rest]; [discriminate|]. cbn [length] in L. eapply (IH rest); eauto. lia.
      * eapply (IH rest); eauto. lia.
    + destruct A as [-> A]. rewrite G in E. eapply same_trans; [|apply (A i d I U)].
      destruct (empty_combined w'); eapply (IH rest); eauto; lia.
Qed.

(** The word "--" concerns only the built-in switch. *)
Lemma dashes_quiet delim d a : delim <> 45 -> unlabelled (d_kind d) = false -> d_name d <> [] -> d_flag d <> [45] ->
  quiet delim d a [45; 45].
Proof.
  intros D U N F.
  assert (M : arg_matches d [45; 45] = false).
  { apply arg_matches_false. unfold flag_word. intros [[E _]|E]; cbn [app] in E; injection E as E; congruence. }
  unfold quiet. destruct (d_kind d); try discriminate; auto; right; rewrite trim_none; auto; intros [Q|[Q|[]]]; lia.
Qed.

Lemma process_dashes g a rest : g_ignore g = false ->
  process g d_ignore a [45; 45] rest =
  if a_set a then PErr EAlreadySet else PYes false (set_switch a (negb (a_on a))) (mkG true (g_delim g) (g_opt g)).
Proof. intros G. unfold process. cbn [d_ignore d_kind]. unfold switch_process. rewrite G. reflexivity. Qed.

Lemma double_dash p h0 g h n post h' g' : wf p h0 -> vis_ok p -> has_ignore p -> g_delim g <> 45 ->
  (forall i d, In (i, d) (p_args p) -> d_name d <> []) ->
  parse_loop p g h n ([45; 45] :: post) = Done h' g' ->
  forall i d, In (i, d) (p_args p) -> unlabelled (d_kind d) = false -> d_vis d <> VIgnore -> same_value (h' i) (h i).
Proof.
  intros W VO (k & K) D NN E i d I U V.
  destruct (g_ignore g) eqn:G.
  { eapply (ignored_loop p h0 W (S (length ([45; 45] :: post)))); eauto. }
  destruct (in_split _ _ K) as (l1 & l2 & AE). cbn [parse_loop] in E.
  destruct (scan_quiet (p_xor p) l1 ((k, d_ignore) :: l2) g [45; 45] post h) as (h1 & HE & SC).
  { intros j d' J. assert (JA : In (j, d') (p_args p)) by (rewrite AE; apply in_app_iff; now left).
    apply dashes_quiet; auto.
    - eapply before_labelled; eauto.
    - eauto.
    - intros Q. assert (j = k) by (eapply (wf_flags _ _ W); eauto; rewrite Q; easy).
      eapply not_self in J; eauto. }
  rewrite AE, SC in E. cbn [scan] in E. rewrite process_dashes in E by auto.
  destruct (a_set (h1 k)); [discriminate|].
  set (a := set_switch (h1 k) (negb (a_on (h1 k)))) in *.
  destruct (xor_check (p_xor p) (hset h1 k a) k d_ignore) as [h2 c] eqn:XC.
  pose proof (xor_check_same (p_xor p) (hset h1 k a) k d_ignore i) as XS.
  rewrite XC in XS. cbn [fst] in XS.
  assert (NK : i <> k).
  { intros ->. assert (d = d_ignore) by (eapply in_split_uniq; eauto; apply (wf_ids _ _ W)). subst d. now apply V. }
  rewrite hset_other, HE in XS by auto.
  eapply same_trans; [|exact XS].
  eapply (ignored_loop p h0 W (S (length post))); eauto; reflexivity.
Qed.

(** * Constraints *)

Definition kept (d : decl) (a : dyn) : Prop :=
  match d_kind d with
  | KValue _ | KUValue _ => exists v, a_vals a = [v] /\ (v = d_default d \/ permitted d v)
  | KMulti _ | KUMulti _ => forall v, In v (a_vals a) -> permitted d v
  | _ => a_vals a = []
  end.

Lemma kept_value t d a s a' : (d_kind d = KValue t \/ d_kind d = KUValue t) -> kept d a -> value_extract t d a s = inr a' -> kept d a'.
Proof.
  intros K. assert (KE : forall x, kept d x <-> exists v, a_vals x = [v] /\ (v = d_default d \/ permitted d v)).
  { intros x. unfold kept. destruct K as [K|K]; rewrite K; tauto. }
  rewrite !KE. intros (v & E & Q). unfold value_extract. destruct (extract t s) as [| |o]; try discriminate.
  rewrite E. destruct o as [v'|]; cbn [forallb]; destruct (allowed d _) eqn:A; cbn [andb]; try discriminate;
  intros X; injection X as <-; cbn [set_vals a_vals]; eexists; split; eauto; right; now apply allowed_permitted.
Qed.

Lemma kept_multi t d a s a' : (d_kind d = KMulti t \/ d_kind d = KUMulti t) -> kept d a -> multi_extract t d a s = Some (inr a') -> kept d a'.
Proof.
  intros K. assert (KE : forall x, kept d x <-> forall v, In v (a_vals x) -> permitted d v).
  { intros x. unfold kept. destruct K as [K|K]; rewrite K; tauto. }
  rewrite !KE. intros P. unfold multi_extract. destruct (extract t s) as [| |[v|]]; try discriminate.
  destruct (allowed d v) eqn:A; [|discriminate]. intros X; injection X as <-. cbn [set_vals a_vals].
  intros v' I. apply in_app_iff in I as [I|[<-|[]]]; auto. now apply allowed_permitted.
Qed.

Lemma kept_process g d a w rest : kept d a ->
  match process g d a w rest with PNo _ a' _ => kept d a' | PYes _ a' _ => kept d a' | _ => True end.
Proof.
  intros K. unfold process. destruct (d_kind d) eqn:KD.
  - assert (S : kept d (set_switch a (negb (a_on a)))) by (unfold kept in *; rewrite KD in *; exact K).
    unfold switch_process. destruct (g_ignore g); auto. destruct (arg_matches d w).
    + destruct (a_set a); auto. destruct (visit d g); auto.
    + destruct (combined_match d w); auto. destruct (_ || _); auto. destruct (visit d g); auto. destruct (arg_matches d s); auto.
  - assert (S : forall n, kept d (set_count a n)) by (intros; unfold kept in *; rewrite KD in *; exact K).
    unfold multi_switch_process. destruct (g_ignore g); auto. destruct (arg_matches d w).
    + destruct (in_int _); auto. destruct (visit d g); auto.
    + destruct (combined_match d w); auto. destruct (_ || _); auto. destruct (visit d g); auto.
  - unfold labelled_process. destruct (g_ignore g); auto. destruct (has_blanks w); auto. destruct (trim_flag _ w) as [f v].
    destruct (arg_matches d f); auto. destruct (_ && _); auto. destruct (_ && _); auto.
    destruct (seqb v []); [destruct rest as [|s rest]; auto|];
    (destruct (value_extract t d a _) eqn:E; auto; destruct (visit d g); auto; eapply kept_value; eauto).
  - unfold labelled_process. destruct (g_ignore g); auto. destruct (has_blanks w); auto. destruct (trim_flag _ w) as [f v].
    destruct (arg_matches d f); auto. destruct (_ && _); auto. destruct (_ && _); auto.
    destruct (seqb v []); [destruct rest as [|s rest]; auto|];
    (destruct (multi_extract t d a _) as [[|]|] eqn:E; auto; destruct (visit d g); auto; eapply kept_multi; eauto).
  - unfold uvalue_process. destruct (a_set a); auto. destruct (has_blanks w); auto.
    destruct (value_extract t d a w) eqn:E; auto. eapply kept_value; eauto.
  - unfold umulti_process. destruct (has_blanks w); auto.
    destruct (multi_extract t d a w) as [[|]|] eqn:E; auto. eapply kept_multi; eauto.
Qed.

Lemma kept_same d a b : same_value a b -> kept d b -> kept d a.
Proof. intros (_ & _ & E). unfold kept. rewrite E. auto. Qed.

Definition all_kept (p : parser) (h : heap) : Prop := forall i d, In (i, d) (p_args p) -> kept d (h i).

Lemma kept_hset p h0 h i d a : wf p h0 -> all_kept p h -> In (i, d) (p_args p) -> kept d a -> all_kept p (hset h i a).
Proof.
  intros W A I K j d' J. destruct (Z.eq_dec j i) as [->|]; [|rewrite hset_other by auto; auto].
  assert (d' = d) by (eapply in_split_uniq; eauto; apply (wf_ids _ _ W)). subst. now rewrite hset_same.
Qed.

Lemma kept_scan p h0 rest : wf p h0 -> forall l g h w, (forall x, In x l -> In x (p_args p)) -> all_kept p h ->
  match scan (p_xor p) l g h w rest with SMatch _ h' _ _ => all_kept p h' | SNone _ h' _ => all_kept p h' | _ => True end.
Proof.
  intros W. induction l as [|[i d] l IH]; intros g h w IL A; cbn [scan]; auto.
  assert (I : In (i, d) (p_args p)) by (apply IL; now left).
  pose proof (kept_process g d (h i) w rest (A i d I)) as K.
  destruct (process g d (h i) w rest) as [w' a g'|took a g'|e| |]; auto.
  - apply IH; [intros; apply IL; now right|]. eapply kept_hset; eauto.
  - destruct (xor_check (p_xor p) (hset h i a) i d) as [h' n] eqn:XC. intros j d' J.
    pose proof (xor_check_same (p_xor p) (hset h i a) i d j) as XS. rewrite XC in XS.
    eapply kept_same; [exact XS|]. eapply (kept_hset p h0); eauto.
Qed.

Lemma kept_loop p h0 : wf p h0 -> forall m ws g h n h' g', (length ws < m)%nat -> all_kept p h ->
  parse_loop p g h n ws = Done h' g' -> all_kept p h'.
Proof.
  intros W. induction m as [|m IH]; intros ws g h n h' g' L A E; [lia|].
  destruct ws as [|w rest]; cbn [parse_loop] in E.
  - destruct (_ <? _); [discriminate|]. destruct (_ <? _); [discriminate|]. injection E as <- <-. auto.
  - cbn [length] in L. pose proof (kept_scan p h0 rest W (p_args p) g h w (fun x I => I) A) as K.
    destruct (scan (p_xor p) (p_args p) g h w rest) as [took hh gg k|w' hh gg| | |]; try discriminate.
    + destruct took; [destruct rest as [|s rest]; [discriminate|]; cbn [length] in L|]; eapply (IH rest); try exact E; auto; lia.
    + destruct (empty_combined w'); [|destruct (g_ignore gg); [|discriminate]]; eapply (IH rest); try exact E; auto; lia.
Qed.

Lemma kept_fresh p h : wf p h -> all_kept p h.
Proof.
  intros W i d I. rewrite (wf_state _ _ W _ _ I). unfold kept, force_required, fresh.
  destruct (grouped p i); destruct (d_kind d); cbn [a_vals]; eauto; easy.
Qed.

