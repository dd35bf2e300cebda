(** Properties of the command line parser. *)
From Coq Require Import String Ascii.
From Verif Require Import Base Numerals CmdModel CmdProofs CmdXor CmdMore CmdWrap CmdPos.

(** Example programs and command lines, written with Coq strings. *)
Definition tx (s : string) : str := map (fun a => Z.of_N (N_of_ascii a)) (list_ascii_of_string s).
Definition sw f n := DOne (mkD KSwitch (tx f) (tx n) (tx (f ++ n)) false None NoVis false 0 no_val).
Definition msw f n := DOne (mkD KMultiSwitch (tx f) (tx n) (tx (f ++ n)) false None NoVis false 0 no_val).
Definition va t f n req v := DOne (mkD (KValue t) (tx f) (tx n) (tx (f ++ n)) req None NoVis false 0 v).
Definition mva t f n req := DOne (mkD (KMulti t) (tx f) (tx n) (tx (f ++ n)) req None NoVis false 0 no_val).
Definition uva t n req v := DOne (mkD (KUValue t) [] (tx n) (tx n) req None NoVis false 0 v).
Definition grp (l : list dcl) : dcl := DXor (flat_map dcl_decls l).

(** Build the program and run the parser on a command line. *)
Definition run (g : glob) (delim : Z) (cs : list dcl) (ws : list string) : option (parser * outcome) :=
  match build g delim true cs with
  | Ok (g', p, h) => Some (p, parse p g' h (map tx ws))
  | _ => None
  end.

Lemma run_done g delim cs ws (P : heap -> Prop) :
  match run g delim cs ws with Some (_, Done h _) => P h | _ => False end ->
  exists p h g', run g delim cs ws = Some (p, Done h g') /\ P h.
Proof. destruct (run g delim cs ws) as [[p [h g'| | |]]|]; try easy. intros H. exists p, h, g'. split; auto. Qed.
Lemma run_failed g delim cs ws o :
  match run g delim cs ws with Some (_, Done _ _) | None => False | Some (_, x) => x = o end ->
  exists p, run g delim cs ws = Some (p, o).
Proof. destruct (run g delim cs ws) as [[p [h g'| | |]]|]; try easy; intros H; exists p; now rewrite H. Qed.
Ltac accepted := apply run_done; vm_compute; repeat split.
Ltac refused := apply run_failed; vm_compute; reflexivity.

(** * C41: every valid command line is accepted and read back *)

Theorem C41_valid_line_is_read_back : forall g delim help cs g' p h items,
  build g delim help cs = Ok (g', p, h) -> g_ignore g = false ->
  no_groups cs -> no_visitors cs -> clean_names delim help cs ->
  meaningful p delim items ->
  exists h', parse p g' h (flat_map (spell delim) items) = Done h' g'
    /\ forall i d, In (i, d) (numbered 0 (all_dcls help cs)) -> reads_back i d items h'.
Proof.
  intros g delim help cs g' p h items B IG NG NV CN M.
  destruct (build_facts _ _ _ _ _ _ _ B NV) as (W & VO & HI & GD & GI & A & X & NO).
  subst delim. destruct (complete p h g' items W (X NG) VO HI (NO CN) ltac:(congruence) M) as (h' & E & G).
  exists h'. split; auto. intros i d I. apply A in I. eapply good_reads_back; eauto.
  eapply given_fits; eauto. intros it J. now apply (m_items _ _ _ M).
Qed.
Print Assumptions C41_valid_line_is_read_back.

(** The order of the items does not matter beyond the order of the values of one argument. *)
Theorem C41_order_is_irrelevant : forall g delim help cs g' p h items items',
  build g delim help cs = Ok (g', p, h) -> g_ignore g = false ->
  no_groups cs -> no_visitors cs -> clean_names delim help cs ->
  meaningful p delim items -> meaningful p delim items' ->
  (forall i, times i items = times i items' /\ given i items = given i items') ->
  exists h1 h2, parse p g' h (flat_map (spell delim) items) = Done h1 g'
    /\ parse p g' h (flat_map (spell delim) items') = Done h2 g'
    /\ forall i d, In (i, d) (numbered 0 (all_dcls help cs)) ->
       (d_kind d = KSwitch -> get_switch h1 i = get_switch h2 i)
       /\ (d_kind d = KMultiSwitch -> get_count h1 i = get_count h2 i)
       /\ (is_switch (d_kind d) = false -> get_values h1 i = get_values h2 i).
Proof.
  intros g delim help cs g' p h items items' B IG NG NV CN M M' E.
  destruct (C41_valid_line_is_read_back _ _ _ _ _ _ _ _ B IG NG NV CN M) as (h1 & P1 & R1).
  destruct (C41_valid_line_is_read_back _ _ _ _ _ _ _ _ B IG NG NV CN M') as (h2 & P2 & R2).
  exists h1, h2. split; auto. split; auto. intros i d I. destruct (E i) as [E1 E2].
  specialize (R1 i d I). specialize (R2 i d I). unfold reads_back in *.
  assert (F2 : forall t l v v', Forall2 (fun w x => reads t w x /\ permitted d x) l v ->
     Forall2 (fun w x => reads t w x /\ permitted d x) l v' -> v = v').
  { intros t l v v' Q. revert v'. induction Q as [|w x l v [Q1 _] Q IH]; intros v' Q'; inversion Q' as [|? y ? v'' [S1 _] S2]; subst; auto.
    f_equal; [eapply reads_fun; eauto|auto]. }
  split; [|split]; intros K.
  - rewrite K in *. rewrite E1 in R1. congruence.
  - rewrite K in *. rewrite E1 in R1. congruence.
  - destruct (d_kind d) eqn:KD; try discriminate; rewrite E2 in R1.
    + destruct (given i items') as [|w [|]]; [congruence| |easy].
      destruct R1 as (v & A1 & _ & ->), R2 as (v' & A2 & _ & ->). f_equal. eapply reads_fun; eauto.
    + eapply F2; eauto.
    + destruct (given i items') as [|w [|]]; [congruence| |easy].
      destruct R1 as (v & A1 & _ & ->), R2 as (v' & A2 & _ & ->). f_equal. eapply reads_fun; eauto.
    + eapply F2; eauto.
Qed.
Print Assumptions C41_order_is_irrelevant.

(** * C42: every accepted command line is meaningful *)

Theorem C42_accepted_line_is_meaningful : forall g delim help cs g' p h ws h' g'',
  build g delim help cs = Ok (g', p, h) -> g_ignore g = false ->
  no_groups cs -> no_visitors cs -> clean_names delim help cs ->
  (forall d, In d (user_decls cs) -> unlabelled (d_kind d) = false) ->
  (forall w, In w ws -> plain_word w) ->
  parse p g' h ws = Done h' g'' ->
  exists items, spells_all delim ws items
    /\ (forall it, In it items -> declared p it)
    /\ (forall i d, In (i, d) (numbered 0 (all_dcls help cs)) ->
         (d_kind d = KSwitch -> times i items <= 1
            /\ get_switch h' i = (if 0 <? times i items then negb (d_on d) else d_on d))
         /\ (d_kind d = KMultiSwitch -> get_count h' i = d_count d + times i items)
         /\ vals_ok d (given i items) (get_values h' i)
         /\ (is_switch (d_kind d) = false -> d_req d = true -> given i items <> [])).
Proof.
  intros g delim help cs g' p h ws h' g'' B IG NG NV CN NU PW E.
  destruct (build_facts _ _ _ _ _ _ _ B NV) as (W & VO & HI & GD & GI & A & X & NO).
  assert (NUp : no_unlabelled p).
  { intros i d I. apply A, numbered_decl, user_all in I as [->|[->|[->|I]]]; auto. }
  assert (G0 : good p [] h).
  { intros i d I. rewrite (wf_state _ _ W _ _ I). unfold grouped. rewrite (X NG). apply st_ok_fresh. }
  assert (C0 : cnt (p_args p) [] = 0).
  { unfold cnt. assert (Q : filter (fun x => need x && got [] x) (p_args p) = []); [|now rewrite Q].
    clear. induction (p_args p) as [|x l IH]; [easy|]. cbn [filter]. unfold got at 1. cbn. now rewrite andb_false_r. }
  subst delim. unfold parse in E. rewrite <- C0 in E.
  destruct (sound_loop p h g' W (X NG) VO NUp (NO CN) ltac:(congruence) (S (length ws)) ws [] h h' g'' ltac:(lia) PW G0 E)
    as (items & SP & DC & GD & CNT & _).
  cbn [app] in *. exists items. split; auto. split; auto. intros i d I. apply A in I.
  destruct (GD i d I) as [S1 S2 S3 S4 S5 S6 S7]. split; [|split; [|split]]; auto.
  - intros K. split; auto. unfold get_switch. rewrite S4, K. reflexivity.
  - intros K. unfold get_count. rewrite S6, K. reflexivity.
  - intros S R. apply (cnt_full (p_args p) items) with (d := d); auto.
    + rewrite CNT. eapply wf_num_need; eauto.
    + unfold need, fresh. cbn [snd a_req]. destruct (d_kind d); try discriminate; auto.
Qed.
Print Assumptions C42_accepted_line_is_meaningful.

(** A program and lines that meet the hypotheses of both theorems. *)
Definition demo : list dcl :=
  [sw "v" "verbose"; msw "d" "debug"; va TInt "n" "number" true (VInt 0); mva TStr "f" "file" false].

Example C42_demo : exists p h g, run glob0 32 demo ["-dvd"; "--number"; " -12"; "-f"; "x"; "-f"; "y"]%string = Some (p, Done h g)
  /\ (get_switch h 3 = true /\ get_count h 4 = 2 /\ get_values h 5 = [VInt (-12)] /\ get_values h 6 = [VStr (tx "x"); VStr (tx "y")]).
Proof. accepted. Qed.

Example C42_demo_hyps : no_groups demo /\ no_visitors demo /\ clean_names 32 true demo
  /\ (forall d, In d (user_decls demo) -> unlabelled (d_kind d) = false)
  /\ (forall w, In w (map tx ["-dvd"; "--number"; " -12"; "-f"; "x"; "-f"; "y"]%string) -> plain_word w).
Proof.
  split; [|split; [|split; [|split]]].
  - intros ds I. cbn in I. intuition discriminate.
  - intros d I. cbn in I. intuition (subst; reflexivity).
  - split; [lia|]. split; [lia|]. split; [lia|]. intros d I c J.
    cbn in I. repeat match goal with H : _ \/ _ |- _ => destruct H as [H|H] | H : False |- _ => destruct H end; subst d; vm_compute in J;
    repeat match goal with H : _ \/ _ |- _ => destruct H as [H|H] | H : False |- _ => destruct H end; subst c; repeat split; discriminate.
  - intros d I. cbn in I. intuition (subst; reflexivity).
  - intros w I. vm_compute in I. unfold plain_word.
    repeat match goal with H : _ \/ _ |- _ => destruct H as [H|H] | H : False |- _ => destruct H end; subst w;
    (split; [cbn; lia|]; split; [discriminate|]; split; [discriminate|]; intros c t E N; injection E; intros; subst; cbn; try lia; try discriminate).
Qed.

(** Items that are meaningful for a program with every kind of labelled argument and a positional one. *)
Definition demo2 : list dcl := demo ++ [uva TStr "input" true (VStr [])].
Definition decl_at (p : parser) (i : Z) : decl :=
  match find (fun x => fst x =? i) (p_args p) with Some x => snd x | None => d_ignore end.
Definition parser2 : parser := Eval vm_compute in
  match build glob0 32 true demo2 with Ok (_, p, _) => p | _ => mkP [] [] 0 0 end.
Definition items2 : list item := Eval vm_compute in
  let p := parser2 in
  [ICombined [(4, decl_at p 4); (3, decl_at p 3); (4, decl_at p 4)]; IPlain 7 (decl_at p 7) (tx "in");
   IValue 5 (decl_at p 5) true (tx " -12"); IValue 6 (decl_at p 6) false (tx "-x")].

Ltac orsplit := repeat match goal with H : _ \/ _ |- _ => destruct H as [H|H] | H : False |- _ => destruct H end.
Ltac member := cbn [parser2 p_args In]; auto 12.

Example C41_parser2 : exists g h, build glob0 32 true demo2 = Ok (g, parser2, h).
Proof.
  assert (E : match build glob0 32 true demo2 with Ok (_, p, _) => p = parser2 | _ => False end) by (vm_compute; reflexivity).
  destruct (build glob0 32 true demo2) as [[[g p] h]| |]; try easy. subst p. now exists g, h.
Qed.

Example C41_meaningful : meaningful parser2 32 items2
  /\ flat_map (spell 32) items2 = map tx ["-dvd"; "in"; "--number"; " -12"; "-f"; "-x"]%string.
Proof.
  split; [|vm_compute; reflexivity].
  constructor.
  - intros it I. cbn [items2 In] in I. orsplit; subst it; (split; [cbn [declared]|]).
    + intros i d J. cbn [In] in J. orsplit; injection J as <- <-; (split; [member|split; reflexivity]).
    + split; [vm_compute; discriminate|]. intros i d J. cbn [In] in J. orsplit; injection J as <- <-; discriminate.
    + split; [member|reflexivity].
    + split; [|split; [discriminate|vm_compute; intuition discriminate]]. exists (VStr (tx "in")). split; [reflexivity|exact I].
    + split; [member|reflexivity].
    + split; [discriminate|]. split; [|lia]. exists (VInt (-12)). split; [|exact I]. exists (-12). split; [reflexivity|].
      exists [32], [45], [49; 50]. split; [reflexivity|]. split; [reflexivity|]. split; [right; split; reflexivity|].
      split; [discriminate|]. split; [reflexivity|lia].
    + split; [member|reflexivity].
    + split; [discriminate|]. split; [|lia]. exists (VStr (tx "-x")). split; [reflexivity|exact I].
  - intros i d I. cbn [parser2 p_args In] in I. orsplit; injection I as <- <-; vm_compute; auto; try (split; [discriminate|reflexivity]); try discriminate.
  - intros i d I. cbn [parser2 p_args In] in I. orsplit; injection I as <- <-; intros A B; try discriminate; vm_compute; discriminate.
  - intros pre i d w post l1 l2 E Q j d' J U. exfalso.
    assert (II : In (IPlain i d w) items2) by (rewrite E; apply in_app_iff; right; now left).
    cbn [items2 In] in II. orsplit; try discriminate. injection II as <- <- <-.
    assert (JJ : In (j, d') (p_args parser2)) by (rewrite Q; apply in_app_iff; now left).
    cbn [parser2 p_args In] in JJ. orsplit; injection JJ as <- <-; try discriminate U.
    assert (ND : NoDup (map fst (p_args parser2))) by (cbn; repeat constructor; cbn; lia).
    rewrite Q, map_app in ND. cbn [map fst] in ND. apply NoDup_remove_2 in ND. apply ND. apply in_app_iff. left.
    change 7 with (fst (7, mkD (KUValue TStr) [] [105; 110; 112; 117; 116] [105; 110; 112; 117; 116] true None NoVis false 0 (VStr []))).
    now apply in_map.
Qed.

(** * C43: exclusive groups *)

Theorem C43_exactly_one_of_each_group : forall g delim help cs g' p h ws h' g'',
  build g delim help cs = Ok (g', p, h) ->
  (forall ds d, In (DXor ds) cs -> In d ds -> group_kind (d_kind d) /\ d_flag d <> [42]) ->
  (forall w, In w ws -> ~ In 0 w /\
     forall c t, w = 45 :: c :: t -> c <> 45 -> t <> [] ->
     forall ds d f, In (DXor ds) cs -> In d ds -> d_kind d = KSwitch -> In f (d_flag d) -> ~ In f (c :: t)) ->
  parse p g' h ws = Done h' g'' ->
  forall grp, In grp (groups 0 (all_dcls help cs)) -> grp <> [] ->
  exists k, In k grp /\ is_set (h' k) = true
    /\ forall i d, In (i, d) (numbered 0 (all_dcls help cs)) -> In i grp -> i <> k ->
       is_set (h' i) = false /\ a_on (h' i) = d_on d /\ a_vals (h' i) = a_vals (fresh d).
Proof.
  intros g delim help cs g' p h ws h' g'' B K CW E gr GI NE.
  destruct (build_wf _ _ _ _ _ _ _ B) as (W & X & A & _).
  assert (GO : groups_ok p) by (eapply build_groups; eauto; intros; now apply (K ds)).
  assert (MEM : forall i d, In (i, d) (p_args p) -> grouped p i = true -> exists ds, In (DXor ds) cs /\ In d ds).
  { intros i d I G. apply grouped_true in G as (g1 & G1 & G2). rewrite X in G1.
    destruct (groups_spec _ _ _ G1) as (ds & j & J1 & -> & _ & J2). exists ds. split.
    - unfold all_dcls in J1. destruct help; cbn [app In] in J1; intuition discriminate.
    - destruct (combine_ids _ _ _ G2) as (d' & J3).
      assert (d = d') by (eapply in_split_uniq; [apply (wf_ids _ _ W)|eauto|now apply A, J2]). subst d'. now apply in_combine_r in J3. }
  destruct (exactly_one p h g' ws h' g'' W GO) with (grp := gr) as (k & K1 & K2 & K3); auto.
  - intros i d f I G KD F ->. destruct (MEM i d I G) as (ds & D1 & D2). destruct (K ds d D1 D2) as [_ NF].
    destruct (wf_ctor _ _ W _ _ I) as [C _]. destruct (flag_one _ _ C) as (x & Y); [intros Y; rewrite Y in F; easy|].
    rewrite Y in *. destruct F as [->|[]]. congruence.
  - intros w I. destruct (CW w I) as [N0 Q]. split; auto. intros c t EW NC NT i d f J G KD F.
    destruct (MEM i d J G) as (ds & D1 & D2). eapply Q; eauto.
  - now rewrite X.
  - exists k. split; auto. split; auto. intros i d I J N. destruct (K3 i d (proj2 (A _) I) J N) as (U1 & U2 & U3 & U4). auto.
Qed.
Print Assumptions C43_exactly_one_of_each_group.

Definition demo3 : list dcl := [va TInt "n" "number" true (VInt 0); grp [sw "a" "all"; va TStr "f" "file" false (VStr [])]; sw "v" "verbose"].
Example C43_demo : exists p h g, run glob0 32 demo3 ["-f"; "x"; "-n"; "3"; "-v"]%string = Some (p, Done h g)
  /\ (groups 0 (all_dcls true demo3) = [[4; 5]] /\ is_set (h 4) = false /\ is_set (h 5) = true).
Proof. accepted. Qed.
Example C43_demo_none : exists p, run glob0 32 demo3 ["-n"; "3"]%string = Some (p, Failed ERequiredMissing).
Proof. refused. Qed.
Example C43_demo_both : exists p, run glob0 32 demo3 ["-a"; "-n"; "3"; "-f"; "x"]%string = Some (p, Failed EAlreadySet).
Proof. refused. Qed.

(** * C119: words after "--" never change a labelled argument *)

Theorem C119_double_dash_protects_labelled : forall g delim help cs g' p h n post h0 h' g'' g1,
  build g delim help cs = Ok (g', p, h) -> no_visitors cs -> delim <> 45 ->
  (forall d, In d (user_decls cs) -> d_name d <> []) ->
  g_delim g1 = delim ->
  parse_loop p g1 h0 n ([45; 45] :: post) = Done h' g'' ->
  forall i d, In (i, d) (numbered 0 (all_dcls help cs)) -> unlabelled (d_kind d) = false -> d_vis d <> VIgnore ->
  get_switch h' i = get_switch h0 i /\ get_count h' i = get_count h0 i /\ get_values h' i = get_values h0 i.
Proof.
  intros g delim help cs g' p h n post h0 h' g'' g1 B NV D NN GD E i d I U V.
  destruct (build_facts _ _ _ _ _ _ _ B NV) as (W & VO & HI & _ & _ & A & _ & _).
  assert (NA : forall i d, In (i, d) (p_args p) -> d_name d <> []).
  { intros j d' J. apply A, numbered_decl, user_all in J as [->|[->|[->|J]]]; try discriminate. now apply NN. }
  apply (double_dash p h g1 h0 n post h' g'' W VO HI ltac:(congruence) NA E i d); auto. now apply A.
Qed.
Print Assumptions C119_double_dash_protects_labelled.

Example C119_demo : exists p h g, run glob0 32 [sw "v" "verbose"; uva TStr "input" true (VStr [])] ["--"; "-v"]%string = Some (p, Done h g)
  /\ (get_switch h 3 = false /\ get_values h 4 = [VStr (tx "-v")]).
Proof. accepted. Qed.

(** * C120: no two arguments of a program share a flag or a name *)

Theorem C120_labels_are_unique : forall g delim help cs g' p h i d j d',
  build g delim help cs = Ok (g', p, h) ->
  In (i, d) (numbered 0 (all_dcls help cs)) -> In (j, d') (numbered 0 (all_dcls help cs)) -> i <> j ->
  d_name d <> d_name d' /\ (d_flag d <> [] -> d_flag d <> d_flag d')
  /\ (forall w, w <> [45; 45] -> arg_matches d w = true -> arg_matches d' w = false).
Proof.
  intros g delim help cs g' p h i d j d' B I J N. destruct (build_wf _ _ _ _ _ _ _ B) as (W & _ & A & _).
  apply A in I, J. split; [|split].
  - intros Q. apply N. eapply (wf_names _ _ W); eauto.
  - intros F Q. apply N. eapply (wf_flags _ _ W); eauto.
  - intros w NW M. destruct (arg_matches d' w) eqn:M'; auto. elim N. eapply match_unique; eauto.
Qed.
Print Assumptions C120_labels_are_unique.

(** Declaring a labelled argument: it throws exactly if its name, or a flag it has, is that of an argument declared before; otherwise the argument is added
    and nothing else changes. *)
Theorem C120_duplicates_throw : forall p h i d, unlabelled (d_kind d) = false ->
  let taken := exists j d', In (j, d') (p_args p) /\ (d_name d' = d_name d \/ (d_flag d <> [] /\ d_flag d' = d_flag d)) in
  (taken -> add p h i d = Throw InvalidArgError) /\
  (~ taken -> exists p', add p h i d = Ok p' /\ p_args p' = (i, d) :: p_args p /\ p_xor p' = p_xor p /\ p_next p' = p_next p /\
     p_num p' = p_num p + (if is_required d (h i) then 1 else 0)).
Proof.
  intros p h i d U taken.
  assert (E : existsb (fun '(j, d') => clashes (label_of (p_xor p) j) d d' (h j)) (p_args p) = true <-> taken).
  { rewrite existsb_exists. unfold clashes. rewrite U. split.
    - intros ([j d'] & I & C). exists j, d'. split; [exact I|]. apply orb_true_iff in C. rewrite andb_true_iff, negb_true_iff in C.
      destruct C as [[A B]|B]; [right|left]; [apply seqb_false in A|]; apply seqb_true in B; auto.
    - intros (j & d' & I & C). exists (j, d'). split; [exact I|]. apply orb_true_iff. rewrite andb_true_iff, negb_true_iff.
      destruct C as [<-|[A B]]; [right; apply seqb_refl|left]. split; [now apply seqb_false|]. rewrite B. apply seqb_refl. }
  unfold add. destruct (existsb _ (p_args p)).
  - split; [easy|]. intros N. elim N. now apply E.
  - split; [intros T; apply E in T; discriminate|]. intros _. eexists. split; [reflexivity|]. rewrite U. cbn. repeat split. destruct (is_required d (h i)); lia.
Qed.
Print Assumptions C120_duplicates_throw.

Example C120_demo : build glob0 32 true demo2 <> Throw InvalidArgError
  /\ build glob0 32 true [sw "h" "hush"] = Throw InvalidArgError
  /\ build glob0 32 true [sw "a" "all"; va TInt "b" "all" false (VInt 0)] = Throw InvalidArgError.
Proof. split; [vm_compute; discriminate|]. split; reflexivity. Qed.

(** * C121: a stored value is the declared default or an allowed one *)

Theorem C121_values_are_default_or_allowed : forall g delim help cs g' p h ws h' g'' i d,
  build g delim help cs = Ok (g', p, h) -> parse p g' h ws = Done h' g'' ->
  In (i, d) (numbered 0 (all_dcls help cs)) -> is_switch (d_kind d) = false ->
  (is_multi (d_kind d) = false -> exists v, get_values h' i = [v] /\ (v = d_default d \/ permitted d v))
  /\ (is_multi (d_kind d) = true -> forall v, In v (get_values h' i) -> permitted d v).
Proof.
  intros g delim help cs g' p h ws h' g'' i d B E I SW. destruct (build_wf _ _ _ _ _ _ _ B) as (W & _ & A & _).
  apply A in I. pose proof (kept_loop p h W (S (length ws)) ws g' h 0 h' g'' ltac:(lia) (kept_fresh _ _ W) E i d I) as K.
  unfold kept in K. unfold get_values. destruct (d_kind d); try discriminate; (split; [|try discriminate]); auto; discriminate.
Qed.
Print Assumptions C121_values_are_default_or_allowed.

Definition col : list dcl :=
  [DOne (mkD (KValue TStr) (tx "c") (tx "colour") [] false (Some [VStr (tx "red"); VStr (tx "blue")]) NoVis false 0 (VStr (tx "none")))].
Example C121_demo : (exists p h g, run glob0 32 col ["-c"; "red"]%string = Some (p, Done h g) /\ get_values h 3 = [VStr (tx "red")])
  /\ (exists p, run glob0 32 col ["-c"; "green"]%string = Some (p, Failed EConstraint)).
Proof. split; [accepted|refused]. Qed.

(** * C122, C123: the usage text *)

Theorem C122_usage_wrapping_keeps_text_and_width : forall s indent offset,
  0 <= indent -> 0 <= offset -> indent + offset < 75 ->
  (Zlen s <= 75 - indent \/ exists k c, 0 <= k <= 75 - indent /\ zget s k = Some c /\ (c = 32 \/ c = 44 \/ c = 124)) ->
  exists ls, space_print s indent offset = Ok ls
    /\ (forall ind line, In (ind, line) ls -> indent <= ind /\ ind + Zlen line <= 75)
    /\ filter (fun c => negb (c =? 32)) (concat (map snd ls)) = filter (fun c => negb (c =? 32)) s.
Proof.
  intros s indent offset A B C H. apply space_print_ok; auto. destruct H as [H|(k & c & K & Z & Q)]; [auto|].
  right. exists k, c. split; auto. split; auto. unfold sep, c_space, c_comma, c_bar. lia.
Qed.
Print Assumptions C122_usage_wrapping_keeps_text_and_width.

Example C122_demo : exists ls, space_print (repeat 97 70 ++ [32] ++ repeat 98 10) 3 4 = Ok ls /\ Zlen ls = 2.
Proof. eexists. split; reflexivity. Qed.

(** A text that starts with more than 72 characters without a place to break is read before its start. *)
Theorem C123_usage_of_long_names_refuted :
  exists s, Zlen s = 80 /\ space_print s 3 37 = UB.
Proof. exists (repeat 97 80). split; reflexivity. Qed.
Print Assumptions C123_usage_of_long_names_refuted.

(** In general: whenever there is no separator in the first line the read is out of bounds. *)
Theorem C123_usage_of_long_names_refuted_for_all : forall s indent offset,
  0 <= indent < 75 -> 75 - indent < Zlen s -> (forall k c, 0 <= k <= 75 - indent -> zget s k = Some c -> sep c = false) ->
  space_print s indent offset = UB.
Proof.
  intros s indent offset L LS NS. unfold space_print. destruct (Z.ltb_spec 75 (Zlen s + indent)); [|lia].
  destruct s as [|c0 s]; [znil; lia|]. cbn [length wrap_loop]. destruct (Z.ltb_spec 0 (Zlen (c0 :: s))); [|lia].
  unfold wrap_step at 1. replace (Z.min (Zlen (c0 :: s) - 0) (75 - indent)) with (75 - indent) by lia. rewrite Z.eqb_refl.
  assert (T : forall n, (1 <= n)%nat -> Z.of_nat n - 2 <= 75 - indent -> trim_len (c0 :: s) 0 n = UB).
  { induction n as [|n IH]; intros N1 N2; [lia|]. cbn [trim_len]. set (len := Z.of_nat (S n) - 2) in *.
    destruct (Z.leb_spec 0 len).
    - destruct (zget_some (c0 :: s) (len + 0)) as (c & EC); [lia|]. unfold char_at. rewrite EC.
      destruct (Z.eqb_spec (len + 0) (Zlen (c0 :: s))); [lia|]. cbn [bind]. rewrite (NS (len + 0) c) by (auto; lia). apply IH; lia.
    - assert (len = -1) by lia. unfold char_at. rewrite zget_none by lia.
      destruct (Z.eqb_spec (len + 0) (Zlen (c0 :: s))); [lia|]. reflexivity. }
  rewrite T by lia. reflexivity.
Qed.
Print Assumptions C123_usage_of_long_names_refuted_for_all.

(** * C124: an unknown word is not always an error *)

(** "-x-y" names no declared argument, yet the line is accepted, and the later "--verbose" is ignored. *)
Theorem C124_unknown_word_rejected_refuted : exists p h g,
  run glob0 32 [sw "l" "list"; sw "o" "open"; sw "g" "go"; sw "v" "verbose"] ["-x-y"; "--verbose"]%string = Some (p, Done h g)
  /\ get_switch h 6 = false.
Proof. accepted. Qed.
Print Assumptions C124_unknown_word_rejected_refuted.

(** * C125: values containing an asterisk *)

Theorem C125_values_with_asterisk_refuted :
  (exists p, run glob0 32 [uva TStr "pattern" true (VStr [])] ["a*"]%string = Some (p, Failed ENoMatch))
  /\ (exists p, run glob0 61 [va TStr "f" "file" true (VStr [])] ["--file=a*"]%string = Some (p, Failed ENoMatch))
  /\ (exists p h g, run glob0 32 [va TStr "f" "file" true (VStr [])] ["--file"; "a*"]%string = Some (p, Done h g)
       /\ get_values h 3 = [VStr (tx "a*")]).
Proof. split; [refused|]. split; [refused|]. accepted. Qed.
Print Assumptions C125_values_with_asterisk_refuted.

(** * C126: two parsers in one process are not independent *)

(** The same program and line, once in a fresh process and once after another parser has seen "--". *)
Theorem C126_parsers_are_independent_refuted :
  exists p h g, run glob0 32 [sw "v" "verbose"] ["--"]%string = Some (p, Done h g)
  /\ (exists p1 h1 g1, run glob0 32 [sw "v" "verbose"] ["-v"]%string = Some (p1, Done h1 g1) /\ get_switch h1 3 = true)
  /\ (exists p2 h2 g2, run g 32 [sw "v" "verbose"] ["-v"]%string = Some (p2, Done h2 g2) /\ get_switch h2 3 = false).
Proof.
  assert (E : match run glob0 32 [sw "v" "verbose"] ["--"]%string with Some (_, Done _ g) => g = mkG true 32 false | _ => False end)
    by (vm_compute; reflexivity).
  destruct (run glob0 32 [sw "v" "verbose"] ["--"]%string) as [[p [h g| | |]]|]; try easy. subst g.
  exists p, h, (mkG true 32 false). split; [reflexivity|]. split; accepted.
Qed.
Print Assumptions C126_parsers_are_independent_refuted.

(** And the process-wide note that an optional positional argument exists blocks the next program. *)
Theorem C126_optional_positional_refuted :
  let cs := [uva TStr "input" false (VStr [])] in
  match build glob0 32 true cs with
  | Ok (g, _, _) => build g 32 true cs = Throw ConstructorError
  | _ => False
  end.
Proof. reflexivity. Qed.
Print Assumptions C126_optional_positional_refuted.

(** * C127: words that say nothing are accepted *)

Theorem C127_empty_words_rejected_refuted : exists p h g,
  run glob0 32 [sw "v" "verbose"] ["-"; "-*"; "-**"]%string = Some (p, Done h g) /\ get_switch h 3 = false.
Proof. accepted. Qed.
Print Assumptions C127_empty_words_rejected_refuted.

(** * C128: an empty value text *)

Theorem C128_empty_number_rejected_refuted :
  (exists p h g, run glob0 32 [va TInt "n" "number" true (VInt 7)] ["-n"; ""]%string = Some (p, Done h g) /\ get_values h 3 = [VInt 7])
  /\ (exists p, run glob0 32 [mva TInt "n" "number" true] ["-n"; ""]%string = Some (p, Undefined)).
Proof. split; [accepted|refused]. Qed.
Print Assumptions C128_empty_number_rejected_refuted.

(** * C129: short flags with a delimiter other than the blank *)

(** "-f=net" and "--file=net" should mean the same; the switch "n" declared later takes the n away. *)
Theorem C129_short_and_long_agree_refuted :
  let cs := [va TStr "f" "file" true (VStr []); sw "n" "now"] in
  (exists p h g, run glob0 61 cs ["--file=net"]%string = Some (p, Done h g) /\ get_values h 3 = [VStr (tx "net")])
  /\ (exists p, run glob0 61 cs ["-f=net"]%string = Some (p, Failed ENoMatch)).
Proof. cbv zeta. split; [accepted|refused]. Qed.
Print Assumptions C129_short_and_long_agree_refuted.

(** * C130: groups and combined switches, groups and repeated arguments *)

Theorem C130_groups_with_combined_switches_refuted :
  (exists p h g, run glob0 32 [sw "x" "extra"; grp [sw "a" "all"; sw "b" "best"]] ["-xb"; "-a"]%string = Some (p, Done h g)
     /\ (is_set (h 4) = true /\ get_switch h 4 = true /\ get_switch h 5 = true))
  /\ (exists p, run glob0 32 [sw "x" "extra"; grp [sw "a" "all"; sw "b" "best"]] ["-xa"]%string = Some (p, Failed ERequiredMissing)).
Proof. split; [accepted|refused]. Qed.
Print Assumptions C130_groups_with_combined_switches_refuted.

(** Values for both members of a group of repeatable arguments, while two required arguments are missing. *)
Theorem C130_groups_of_repeatable_arguments_refuted : exists p h g,
  run glob0 32 [va TInt "r" "rate" true (VInt 0); va TInt "s" "size" true (VInt 0); grp [mva TStr "m" "more" false; mva TStr "k" "keep" false]]
    ["-m"; "x"; "-k"; "y"]%string = Some (p, Done h g)
  /\ (is_set (h 3) = false /\ is_set (h 4) = false /\ get_values h 5 = [VStr (tx "x")] /\ get_values h 6 = [VStr (tx "y")]).
Proof. accepted. Qed.
Print Assumptions C130_groups_of_repeatable_arguments_refuted.

(** * C131: counting switch named by an asterisk *)

Theorem C131_counting_switch_terminates_refuted : exists p,
  run glob0 32 [msw "*" "star"] ["-**"]%string = Some (p, Undefined).
Proof. refused. Qed.
Print Assumptions C131_counting_switch_terminates_refuted.

(** * C165: only the last positional argument may be left out *)

Theorem C165_only_the_last_positional_is_optional : forall g delim help cs g' p h a d b d' c,
  build g delim help cs = Ok (g', p, h) -> g_opt g = false ->
  flat_map dcl_decls cs = a ++ d :: b ++ d' :: c ->
  (exists t, d_kind d' = KUValue t \/ d_kind d' = KUMulti t) ->
  forall t, d_kind d = KUValue t -> d_req d = true.
Proof.
  intros g delim help cs g' p h a d b d' c B O E P t K.
  assert (Q : may_be_absent d = false).
  { apply (build_positional _ _ _ _ _ _ _ B O a d b d' c E). unfold positional. destruct P as (u & [P|P]); now rewrite P. }
  unfold may_be_absent in Q. rewrite K in Q. now apply negb_false_iff.
Qed.
Print Assumptions C165_only_the_last_positional_is_optional.

(** Two positional arguments, the second optional, can be declared; with the first optional they cannot. *)
Example C165_demo :
  (exists r, build glob0 32 true [uva TStr "from" true (VStr []); uva TStr "to" false (VStr [])] = Ok r)
  /\ build glob0 32 true [uva TStr "from" false (VStr []); uva TStr "to" true (VStr [])] = Throw ConstructorError.
Proof. split; [eexists|]; reflexivity. Qed.

(** * C166: a repeatable member of an exclusive group may be repeated *)

Theorem C166_group_member_given_repeatedly : forall g help pre ds post g' p h i d t ws vs,
  build g 32 help (pre ++ DXor ds :: post) = Ok (g', p, h) -> g_ignore g = false ->
  no_groups pre -> no_groups post -> no_visitors (pre ++ DXor ds :: post) -> clean_names 32 help (pre ++ DXor ds :: post) ->
  (forall d', In d' (user_decls pre) \/ In d' (user_decls post) -> d_req d' = false) ->
  In (i, d) (numbered 0 (all_dcls help (pre ++ DXor ds :: post))) -> In d ds -> d_kind d = KMulti t ->
  (forall grp, In grp (groups 0 (all_dcls help (pre ++ DXor ds :: post))) -> In i grp) ->
  ws <> [] -> Forall2 (fun x v => label_ok d (fst x) /\ reads t (snd x) v /\ permitted d v) ws vs ->
  exists h', parse p g' h (flat_map (value_words d) ws) = Done h' g'
    /\ get_values h' i = vs /\ is_set (h' i) = true
    /\ forall j d' grp, In (j, d') (numbered 0 (all_dcls help (pre ++ DXor ds :: post))) ->
         In grp (groups 0 (all_dcls help (pre ++ DXor ds :: post))) -> In j grp -> j <> i -> is_set (h' j) = false.
Proof. exact repeated_member. Qed.
Print Assumptions C166_group_member_given_repeatedly.

Definition demo166 : list dcl := [grp [sw "a" "all"; mva TStr "f" "file" false]; sw "v" "verbose"].
Example C166_demo : exists p h g, run glob0 32 demo166 ["-f"; "x"; "--file"; "y"; "-f"; "z"]%string = Some (p, Done h g)
  /\ (get_values h 4 = [VStr (tx "x"); VStr (tx "y"); VStr (tx "z")] /\ is_set (h 3) = false /\ is_set (h 4) = true).
Proof. accepted. Qed.
Example C166_demo_hyps : no_visitors demo166 /\ clean_names 32 true demo166
  /\ groups 0 (all_dcls true demo166) = [[3; 4]].
Proof.
  split; [|split; [|reflexivity]].
  - intros d I. cbn in I. intuition (subst; reflexivity).
  - split; [lia|]. split; [lia|]. split; [lia|]. intros d I c J.
    cbn in I. repeat match goal with H : _ \/ _ |- _ => destruct H as [H|H] | H : False |- _ => destruct H end; subst d; vm_compute in J;
    repeat match goal with H : _ \/ _ |- _ => destruct H as [H|H] | H : False |- _ => destruct H end; subst c; repeat split; discriminate.
Qed.

(** What remains of C126. Words that can neither be the switch to ignore the rest nor contain its flag. *)
Definition no_ignore_word (w : str) : Prop :=
  w <> [45; 45] /\ w <> 45 :: 45 :: n_ignore /\ forall c t, w = 45 :: c :: t -> c <> 45 -> ~ In 45 (c :: t).

Lemma blank_first_in c s : forall t x, blank_first c s = Some t -> In x t -> x = 42 \/ In x s.
Proof.
  induction s as [|y s IH]; intros t x E I; cbn [blank_first] in E; [discriminate|]. destruct (y =? c).
  - injection E as <-. destruct I as [<-|I]; [now left|right; now right].
  - destruct (blank_first c s) as [t'|] eqn:B; [|discriminate]. injection E as <-. destruct I as [<-|I]; [right; now left|].
    destruct (IH t' x eq_refl I); [now left|right; now right].
Qed.
Lemma blank_first_none c s : ~ In c s -> blank_first c s = None.
Proof.
  induction s as [|y s IH]; intros N; [reflexivity|]. cbn [blank_first]. destruct (Z.eqb_spec y c); [elim N; now left|]. rewrite IH; [reflexivity|]. intros I. apply N. now right.
Qed.
Lemma blank_first_len c s : forall t, blank_first c s = Some t -> length t = length s.
Proof.
  induction s as [|y s IH]; intros t E; cbn [blank_first] in E; [discriminate|]. destruct (y =? c); [injection E as <-; reflexivity|].
  destruct (blank_first c s) as [t'|] eqn:B; [|discriminate]. injection E as <-. cbn [length]. now rewrite (IH t' eq_refl).
Qed.
Lemma combined_shape d w w1 : combined_match d w = Some w1 -> exists c t t', w = 45 :: c :: t /\ c <> 45 /\ blank_first (flag_char d) (c :: t) = Some t' /\ w1 = 45 :: t'.
Proof.
  unfold combined_match, c_dash. destruct w as [|c [|c' t]]; [discriminate| |].
  - destruct (negb (c =? 45)); discriminate.
  - destruct (Z.eqb_spec c 45); cbn [negb]; [|discriminate]. destruct (Z.eqb_spec c' 45); [discriminate|]. destruct (blank_first (flag_char d) (c' :: t)) as [t'|] eqn:B; [|discriminate].
    intros E. injection E as <-. subst c. eauto 8.
Qed.
Lemma no_ignore_of_chars t : ~ In 45 t -> no_ignore_word (45 :: t).
Proof.
  intros N. split; [|split].
  - intros E. injection E as ->. apply N. now left.
  - intros E. injection E as ->. apply N. now left.
  - intros c t' E _. injection E as ->. exact N.
Qed.
Lemma process_glob p i d g a w rest : vis_ok p -> In (i, d) (p_args p) -> no_ignore_word w ->
  match process g d a w rest with PYes _ _ g' => g' = g | PNo w' _ g' => g' = g /\ no_ignore_word w' | _ => True end.
Proof.
  intros V I N. destruct (V i d I) as [NV|(K & [H|[H|(H & F & NM)]])].
  - assert (VI : forall g, visit d g = Some g) by (intros; unfold visit; now rewrite NV). unfold process. destruct (d_kind d) as [| |t|t|t|t].
    + unfold switch_process. destruct (g_ignore g); [tauto|]. destruct (arg_matches d w).
      * destruct (a_set a); [exact Logic.I|]. now rewrite VI.
      * destruct (combined_match d w) as [w1|] eqn:C; [|tauto]. destruct (a_set a || _); [exact Logic.I|]. rewrite VI. destruct (arg_matches d w1); [reflexivity|]. split; [reflexivity|].
        destruct (combined_shape _ _ _ C) as (c & t & t' & -> & NC & B & ->). apply no_ignore_of_chars. intros J. destruct (blank_first_in _ _ _ _ B J) as [J'|J']; [discriminate|]. now apply (proj2 (proj2 N) c t eq_refl NC).
    + unfold multi_switch_process. destruct (g_ignore g); [tauto|]. destruct (arg_matches d w).
      * destruct (in_int _); [|exact Logic.I]. now rewrite VI.
      * destruct (combined_match d w) as [w1|] eqn:C; [|tauto]. destruct ((flag_char d =? c_star) || _); [exact Logic.I|]. rewrite VI. split; [reflexivity|].
        destruct (combined_shape _ _ _ C) as (c & t & t' & -> & NC & B & ->). apply no_ignore_of_chars. cbn [tl]. unfold blank_all. rewrite in_map_iff. intros (x & E & J).
        destruct (x =? flag_char d); [discriminate|]. subst x. now apply (proj2 (proj2 N) c t eq_refl NC).
    + unfold labelled_process. destruct (g_ignore g); [tauto|]. destruct (has_blanks w); [tauto|]. destruct (trim_flag (g_delim g) w) as [f v]. destruct (arg_matches d f); [|tauto].
      destruct (negb false && a_set a); [exact Logic.I|]. destruct (_ && _); [exact Logic.I|]. destruct (seqb v []).
      * destruct rest as [|s rest]; [exact Logic.I|]. destruct (value_extract t d a s); [exact Logic.I|]. now rewrite VI.
      * destruct (value_extract t d a v); [exact Logic.I|]. now rewrite VI.
    + unfold labelled_process. destruct (g_ignore g); [tauto|]. destruct (has_blanks w); [tauto|]. destruct (trim_flag (g_delim g) w) as [f v]. destruct (arg_matches d f); [|tauto].
      destruct (negb true && a_set a); [exact Logic.I|]. destruct (_ && _); [exact Logic.I|]. destruct (seqb v []).
      * destruct rest as [|s rest]; [exact Logic.I|]. destruct (multi_extract t d a s) as [[e|x]|]; try exact Logic.I. now rewrite VI.
      * destruct (multi_extract t d a v) as [[e|x]|]; try exact Logic.I. now rewrite VI.
    + unfold uvalue_process. destruct (a_set a); [tauto|]. destruct (has_blanks w); [tauto|]. destruct (value_extract t d a w); [exact Logic.I|reflexivity].
    + unfold umulti_process. destruct (has_blanks w); [tauto|]. destruct (multi_extract t d a w) as [[e|x]|]; try exact Logic.I. reflexivity.
  - unfold process. rewrite K. unfold switch_process, visit. rewrite H. destruct (g_ignore g); [tauto|]. destruct (arg_matches d w); [destruct (a_set a); exact Logic.I|].
    destruct (combined_match d w) as [w1|]; [|tauto]. destruct (a_set a || _); exact Logic.I.
  - unfold process. rewrite K. unfold switch_process, visit. rewrite H. destruct (g_ignore g); [tauto|]. destruct (arg_matches d w); [destruct (a_set a); exact Logic.I|].
    destruct (combined_match d w) as [w1|]; [|tauto]. destruct (a_set a || _); exact Logic.I.
  - unfold process. rewrite K. unfold switch_process. destruct (g_ignore g); [tauto|].
    assert (M : arg_matches d w = false).
    { apply arg_matches_false. unfold flag_word. rewrite F, NM. cbn [app]. intros [[E _]|E]; [now apply (proj1 N)|now apply (proj1 (proj2 N))]. }
    rewrite M. destruct (combined_match d w) as [w1|] eqn:C; [|tauto]. exfalso. destruct (combined_shape _ _ _ C) as (c & t & t' & -> & NC & B & ->).
    rewrite blank_first_none in B; [discriminate|]. unfold flag_char. rewrite F. exact (proj2 (proj2 N) c t eq_refl NC).
Qed.
Lemma scan_glob p : vis_ok p -> forall l g h w rest, incl l (p_args p) -> no_ignore_word w ->
  match scan (p_xor p) l g h w rest with SMatch _ _ g' _ => g' = g | SNone _ _ g' => g' = g | _ => True end.
Proof.
  intros V. induction l as [|[i d] l IH]; intros g h w rest L N; cbn [scan]; [reflexivity|].
  pose proof (process_glob p i d g (h i) w rest V (L _ (or_introl eq_refl)) N) as P. destruct (process g d (h i) w rest) as [w' a g'|took a g'|e| |]; auto.
  - destruct P as [-> N']. apply IH; auto. intros x J. apply L. now right.
  - destruct (xor_check (p_xor p) (hset h i a) i d) as [h' n]. exact P.
Qed.
Lemma parse_glob p : vis_ok p -> forall k ws g h n h' g', (length ws < k)%nat -> (forall w, In w ws -> no_ignore_word w) -> parse_loop p g h n ws = Done h' g' -> g' = g.
Proof.
  intros V. induction k as [|k IH]; intros ws g h n h' g' L N E; [lia|]. destruct ws as [|w rest]; cbn [parse_loop] in E.
  - destruct (n <? p_num p); [discriminate|]. destruct (p_num p <? n); [discriminate|]. now injection E.
  - pose proof (scan_glob p V (p_args p) g h w rest (fun x J => J) (N _ (or_introl eq_refl))) as S. cbn [length] in L.
    destruct (scan (p_xor p) (p_args p) g h w rest) as [took h1 g1 k1|w1 h1 g1|e| |]; try discriminate; subst g1.
    + destruct took; [destruct rest as [|s rest]; [discriminate|]|]; (eapply IH in E; [exact E|cbn [length] in L; lia|]); intros x J; apply N; cbn [In]; auto.
    + assert (N' : forall x, In x rest -> no_ignore_word x) by (intros; apply N; now right).
      destruct (empty_combined w1); [eapply IH in E; [exact E|lia|exact N']|]. destruct (g_ignore g); [eapply IH in E; [exact E|lia|exact N']|discriminate].
Qed.
Lemma construct_opt g d g' : construct g d = Ok g' -> (unlabelled (d_kind d) = true -> d_req d = true) -> g_opt g' = g_opt g /\ g_ignore g' = g_ignore g.
Proof.
  unfold construct. intros E R. destruct (negb (ctor_ok _ _)); [discriminate|]. destruct (unlabelled (d_kind d) && negb _); [discriminate|]. destruct (unlabelled (d_kind d)) eqn:U.
  - destruct (g_opt g) eqn:O; [discriminate|]. rewrite (R eq_refl) in E. injection E as <-. destruct (d_kind d); cbn; rewrite ?O; split; reflexivity.
  - injection E as <-. auto.
Qed.
Lemma construct_all_opt ds : forall g h i g' h', construct_all g h i ds = Ok (g', h') -> (forall d, In d ds -> unlabelled (d_kind d) = true -> d_req d = true) -> g_opt g' = g_opt g.
Proof.
  induction ds as [|d ds IH]; intros g h i g' h' E R; cbn [construct_all] in E; [now injection E as <- <-|].
  destruct (construct g d) as [g1| |] eqn:C; try discriminate. cbn [bind] in E. apply IH in E; [|intros; apply R; auto; now right]. rewrite E. apply (construct_opt _ _ _ C). apply R. now left.
Qed.
Lemma declare_all_opt cs : forall g p h g' p' h', declare_all g p h cs = Ok (g', p', h') -> (forall d, In d (user_decls cs) -> unlabelled (d_kind d) = true -> d_req d = true) -> g_opt g' = g_opt g.
Proof.
  induction cs as [|c cs IH]; intros g p h g' p' h' E R; cbn [declare_all] in E; [now injection E as <- <- <-|].
  destruct (declare g p h c) as [[[g1 p1] h1]| |] eqn:D; try discriminate. cbn [bind] in E. apply IH in E; [|intros d J; apply R; cbn [user_decls flat_map]; apply in_app_iff; auto]. rewrite E. clear E.
  destruct c as [d|ds]; cbn [declare] in D.
  - destruct (construct g d) as [g2| |] eqn:C; try discriminate. cbn [bind] in D. destruct (add p _ _ d) as [p2| |]; try discriminate. cbn [bind] in D. injection D as <- <- <-.
    apply (construct_opt _ _ _ C). apply R. cbn. now left.
  - destruct (construct_all g h (p_next p) ds) as [[g2 h2]| |] eqn:C; try discriminate. cbn [bind] in D. destruct (add_all _ h2 (p_next p) ds) as [[p2 h3]| |]; try discriminate. cbn [bind] in D. injection D as <- <- <-.
    eapply construct_all_opt; [exact C|]. intros d J. apply R. cbn [user_decls flat_map dcl_decls]. apply in_app_iff. now left.
Qed.

Theorem C126_harmless_lines_partial : forall delim help cs g' p h ws h' g'',
  build glob0 delim help cs = Ok (g', p, h) -> no_visitors cs ->
  (forall d, In d (user_decls cs) -> unlabelled (d_kind d) = true -> d_req d = true) ->
  (forall w, In w ws -> no_ignore_word w) -> parse p g' h ws = Done h' g'' ->
  forall delim2 help2 cs2, build g'' delim2 help2 cs2 = build glob0 delim2 help2 cs2.
Proof.
  intros delim help cs g' p h ws h' g'' B NV R N P delim2 help2 cs2. destruct (build_facts _ _ _ _ _ _ _ B NV) as (W & V & _ & D & IG & _).
  unfold parse in P. apply (parse_glob p V (S (length ws))) in P; [|lia|exact N]. subst g''.
  unfold build in B. apply declare_all_opt in B.
  - unfold build. rewrite IG, B. reflexivity.
  - intros d J. apply (user_all help) in J as [->|[->|[->|J]]]; try discriminate. now apply R.
Qed.
Print Assumptions C126_harmless_lines_partial.
Example C126_case : no_ignore_word (tx "-vx") /\ no_ignore_word (tx "--verbose") /\ no_ignore_word (tx "file") /\ ~ no_ignore_word (tx "-x-y")
  /\ exists p h g, run glob0 32 [sw "v" "verbose"; sw "x" "extra"; uva TStr "input" true (VStr [])] ["-vx"; "file"]%string = Some (p, Done h g) /\ get_switch h 3 = true.
Proof.
  repeat split; try (vm_compute; discriminate).
  - intros c t E. vm_compute in E. injection E as <- <-. cbn. intuition discriminate.
  - intros c t E NC. vm_compute in E. injection E as <- _. congruence.
  - intros (_ & _ & H). apply (H 120 (tx "-y") eq_refl); [discriminate|]. vm_compute. auto.
  - accepted.
Qed.

(** What remains of C128: of all other texts exactly the readable ones are accepted, with the number they denote. *)
Theorem C128_other_texts_partial : forall s n, s <> [] ->
  (exists g p h h' g'', build glob0 32 true [va TInt "n" "number" true (VInt 7)] = Ok (g, p, h) /\ parse p g h [tx "-n"; s] = Done h' g'' /\ get_values h' 3 = [VInt n]) <-> reads_int s n.
Proof.
  intros s n N. destruct (build glob0 32 true [va TInt "n" "number" true (VInt 7)]) as [[[g p] h]| |] eqn:B; [|vm_compute in B; discriminate|vm_compute in B; discriminate].
  assert (P : parse p g h [tx "-n"; s] = match extract TInt s with
     | XFail => Failed EUnreadable | XMany => Failed ETooManyValues | XVal v => Done (hset h 3 (set_vals (h 3) (match v with Some v => [v] | None => a_vals (h 3) end))) g end).
  { cbv -[extract] in B. injection B as <- <- <-. unfold parse. cbn -[extract]. unfold value_extract. destruct (extract TInt s) as [| |[v|]]; reflexivity. }
  split.
  - intros (g0 & p0 & h0 & h' & g'' & E & Q & G). injection E as <- <- <-. rewrite P in Q. destruct (extract TInt s) as [| |[v|]] eqn:X; try discriminate.
    + cbn in Q. injection Q as <- _. unfold get_values, hset in G. cbn in G. injection G as ->. apply extract_some in X as (z & E & R). injection E as ->. exact R.
    + apply extract_none in X as [_ X]. congruence.
  - intros R. exists g, p, h. assert (X : extract TInt s = XVal (Some (VInt n))) by (apply extract_some; exists n; auto). rewrite X in P. cbn in P. eexists _, _. split; [reflexivity|]. split; [exact P|]. reflexivity.
Qed.
Print Assumptions C128_other_texts_partial.
Example C128_case : reads_int (tx " -12") (-12).
Proof. exists (tx " "), [45], (tx "12"). vm_compute. intuition discriminate. Qed.

(** What remains of C131: with no counting switch named by an asterisk, no empty word, and counts that leave room for every character of the line, the parser always ends with a defined outcome. *)
Lemma Zlen_pos (w : str) : w <> [] -> 1 <= Zlen w.
Proof. destruct w; [congruence|]. intros _. unfold Zlen. cbn [length]. lia. Qed.
Lemma occurrences_le c (s : str) : 0 <= occurrences c s <= Zlen s.
Proof.
  unfold occurrences, Zlen. induction s as [|x s IH]; cbn [filter length]; [lia|]. destruct (c =? x); cbn [length]; lia.
Qed.
Definition top_int : Z := 2147483647.
Definition low_int : Z := -2147483648.
Definition roomy (d : decl) (n k : Z) : Prop := d_kind d = KMultiSwitch -> flag_char d <> 42 /\ low_int <= n /\ n + k <= top_int.

Lemma extract_some_nonempty t s : s <> [] -> extract t s <> XVal None.
Proof. intros N E. apply extract_none in E. tauto. Qed.

Lemma process_def g d a w rest : w <> [] -> (forall s, In s rest -> s <> []) -> roomy d (a_count a) (Zlen w) ->
  match process g d a w rest with
  | PUB => False
  | PNo w' a' _ => Zlen w' = Zlen w /\ a_count a <= a_count a' <= a_count a + Zlen w
  | PYes took a' _ => (took = true -> rest <> []) /\ a_count a <= a_count a' <= a_count a + Zlen w
  | _ => True
  end.
Proof.
  intros N NR RM. pose proof (Zlen_pos w N) as LW. unfold process. destruct (d_kind d) as [| |t|t|t|t] eqn:K.
  - unfold switch_process. destruct (g_ignore g); [lia|]. destruct (arg_matches d w).
    + destruct (a_set a); [exact Logic.I|]. destruct (visit d g); [|exact Logic.I]. cbn [a_count set_vals set_switch set_count]. split; [discriminate|lia].
    + destruct (combined_match d w) as [w1|] eqn:C; [|lia]. destruct (a_set a || _); [exact Logic.I|]. destruct (visit d g); [|exact Logic.I].
      destruct (combined_shape _ _ _ C) as (c & t & t' & -> & _ & B & ->). apply blank_first_len in B. destruct (arg_matches d (45 :: t')); cbn [set_switch a_count]; [split; [discriminate|lia]|].
      split; [|lia]. unfold Zlen. cbn [length] in *. rewrite B. reflexivity.
  - destruct (RM K) as (F & M1 & M2). unfold multi_switch_process. destruct (g_ignore g); [lia|]. destruct (arg_matches d w).
    + replace (in_int (a_count a + 1)) with true; [|symmetry; unfold in_int, int_max, int_min, top_int, low_int in *; apply andb_true_iff; split; apply Z.leb_le; lia]. destruct (visit d g); [|exact Logic.I]. cbn [a_count set_vals set_switch set_count]. split; [discriminate|lia].
    + destruct (combined_match d w) as [w1|] eqn:C; [|lia]. destruct (combined_shape _ _ _ C) as (c & t & t' & -> & _ & B & ->). cbn [tl]. pose proof (occurrences_le (flag_char d) (c :: t)) as O.
      assert (LT : Zlen (45 :: c :: t) = 1 + Zlen (c :: t)) by (unfold Zlen; cbn [length]; lia).
      replace ((flag_char d =? c_star) || negb (in_int (a_count a + occurrences (flag_char d) (c :: t)))) with false.
      * destruct (visit d g); [|exact Logic.I]. cbn [set_count a_count]. split; [|lia]. unfold Zlen, blank_all. cbn [length map]. now rewrite map_length.
      * symmetry. apply orb_false_iff. split; [apply Z.eqb_neq; exact F|]. apply negb_false_iff. unfold in_int, int_max, int_min, top_int, low_int in *. apply andb_true_iff; split; apply Z.leb_le; lia.
  - unfold labelled_process. destruct (g_ignore g); [lia|]. destruct (has_blanks w); [lia|]. destruct (trim_flag (g_delim g) w) as [f v]. destruct (arg_matches d f); [|lia].
    destruct (negb false && a_set a); [exact Logic.I|]. destruct (_ && _); [exact Logic.I|]. unfold value_extract. destruct (seqb v []).
    + destruct rest as [|s rest]; [exact Logic.I|]. destruct (extract t s) as [| |x]; try exact Logic.I. destruct (forallb _ _); [|exact Logic.I]. destruct (visit d g); [|exact Logic.I]. cbn [a_count set_vals set_switch set_count]. split; [discriminate|lia].
    + destruct (extract t v) as [| |x]; try exact Logic.I. destruct (forallb _ _); [|exact Logic.I]. destruct (visit d g); [|exact Logic.I]. cbn [a_count set_vals set_switch set_count]. split; [discriminate|lia].
  - unfold labelled_process. destruct (g_ignore g); [lia|]. destruct (has_blanks w); [lia|]. destruct (trim_flag (g_delim g) w) as [f v]. destruct (arg_matches d f); [|lia].
    destruct (negb true && a_set a); [exact Logic.I|]. destruct (_ && _); [exact Logic.I|]. unfold multi_extract. destruct (seqb v []) eqn:SV.
    + destruct rest as [|s rest]; [exact Logic.I|]. pose proof (extract_some_nonempty t s (NR s (or_introl eq_refl))) as X. destruct (extract t s) as [| |[x|]]; try exact Logic.I; [|congruence].
      destruct (allowed d x); [|exact Logic.I]. destruct (visit d g); [|exact Logic.I]. cbn [a_count set_vals set_switch set_count]. split; [discriminate|lia].
    + apply seqb_false in SV. pose proof (extract_some_nonempty t v SV) as X. destruct (extract t v) as [| |[x|]]; try exact Logic.I; [|congruence].
      destruct (allowed d x); [|exact Logic.I]. destruct (visit d g); [|exact Logic.I]. cbn [a_count set_vals set_switch set_count]. split; [discriminate|lia].
  - unfold uvalue_process, value_extract. destruct (a_set a); [lia|]. destruct (has_blanks w); [lia|]. destruct (extract t w) as [| |x]; try exact Logic.I. destruct (forallb _ _); [|exact Logic.I]. cbn [a_count set_vals set_switch set_count]. split; [discriminate|lia].
  - unfold umulti_process, multi_extract. destruct (has_blanks w); [lia|]. pose proof (extract_some_nonempty t w N) as X. destruct (extract t w) as [| |[x|]]; try exact Logic.I; [|congruence].
    destruct (allowed d x); [|exact Logic.I]. cbn [a_count set_vals set_switch set_count]. split; [discriminate|lia].
Qed.
Lemma xor_check_count xs h i d j : a_count (fst (xor_check xs h i d) j) = a_count (h j).
Proof.
  unfold xor_check. destruct (find _ xs) as [grp|]; [|reflexivity].
  set (h1 := fun j => if existsb (Z.eqb j) grp && negb (j =? i) then xor_set (h j) else h j).
  assert (E : forall j, a_count (h1 j) = a_count (h j)) by (intros; unfold h1; destruct (_ && _); reflexivity).
  unfold allow_more. destruct (is_multi (d_kind d)); cbn [fst]; unfold hset; destruct (Z.eqb_spec j i); subst; cbn [a_count]; apply E.
Qed.
Lemma scan_def xs rest : (forall s, In s rest -> s <> []) -> forall l g h w, NoDup (map fst l) -> w <> [] ->
  (forall i d, In (i, d) l -> roomy d (a_count (h i)) (Zlen w)) ->
  let good h' := forall j, a_count (h j) <= a_count (h' j) <= a_count (h j) + (if existsb (Z.eqb j) (map fst l) then Zlen w else 0) in
  match scan xs l g h w rest with
  | SUB => False
  | SMatch took h' _ _ => (took = true -> rest <> []) /\ good h'
  | SNone _ h' _ => good h'
  | _ => True
  end.
Proof.
  intros NR. induction l as [|[i d] l IH]; intros g h w ND N R; cbv zeta; cbn [scan]; [intros j; cbn; lia|].
  cbn [map fst] in ND. inversion ND as [|? ? NI ND']; subst. pose proof (Zlen_pos w N) as LW.
  assert (EX : existsb (Z.eqb i) (map fst l) = false).
  { destruct (existsb (Z.eqb i) (map fst l)) eqn:Q; [|reflexivity]. apply existsb_exists in Q as (x & I & E). apply Z.eqb_eq in E. subst. contradiction. }
  pose proof (process_def g d (h i) w rest N NR (R i d (or_introl eq_refl))) as P. destruct (process g d (h i) w rest) as [w' a g'|took a g'|e| |]; auto.
  - destruct P as [LE P]. specialize (IH g' (hset h i a) w' ND').
    assert (N' : w' <> []) by (intros ->; unfold Zlen in LE at 1; cbn in LE; lia). specialize (IH N'). rewrite LE in IH.
    assert (R' : forall j d', In (j, d') l -> roomy d' (a_count (hset h i a j)) (Zlen w)).
    { intros j d' I. unfold hset. destruct (Z.eqb_spec j i); [|apply R; now right]. subst j. elim NI. change i with (fst (i, d')). now apply in_map. }
    specialize (IH R'). cbv zeta in IH.
    assert (T : forall h', (forall j, a_count (hset h i a j) <= a_count (h' j) <= a_count (hset h i a j) + (if existsb (Z.eqb j) (map fst l) then Zlen w else 0)) ->
       forall j, a_count (h j) <= a_count (h' j) <= a_count (h j) + (if existsb (Z.eqb j) (map fst ((i, d) :: l)) then Zlen w else 0)).
    { intros h' G j. specialize (G j). cbn [map fst existsb]. unfold hset in G. destruct (j =? i) eqn:JI; cbn [orb]; [apply Z.eqb_eq in JI; subst j; rewrite EX in G; lia|exact G]. }
    destruct (scan xs l g' (hset h i a) w' rest) as [took h' g'' n|w'' h' g''|e| |]; auto. destruct IH as [IH1 IH2]. split; auto.
  - destruct P as [P1 P]. destruct (xor_check xs (hset h i a) i d) as [h' n] eqn:X. split; [exact P1|]. intros j. pose proof (xor_check_count xs (hset h i a) i d j) as C. rewrite X in C. cbn [fst] in C. rewrite C.
    unfold hset. cbn [map fst existsb]. destruct (j =? i) eqn:JI; cbn [orb]; [apply Z.eqb_eq in JI; subst j; lia|]. destruct (existsb (Z.eqb j) (map fst l)); lia.
Qed.
Definition characters (ws : list str) : Z := Zlen (concat ws).
Lemma parse_def p : NoDup (map fst (p_args p)) -> forall k ws g h n, (length ws < k)%nat -> (forall w, In w ws -> w <> []) ->
  (forall i d, In (i, d) (p_args p) -> roomy d (a_count (h i)) (characters ws)) -> parse_loop p g h n ws <> Undefined.
Proof.
  intros ND. induction k as [|k IH]; intros ws g h n L NE R; [lia|]. destruct ws as [|w rest]; cbn [parse_loop].
  - destruct (n <? p_num p); [discriminate|]. destruct (p_num p <? n); discriminate.
  - cbn [length] in L. assert (CH : characters (w :: rest) = Zlen w + characters rest) by (unfold characters, Zlen; cbn [concat]; rewrite app_length; lia).
    assert (C0 : forall l : list str, 0 <= characters l) by (intros; unfold characters, Zlen; lia).
    assert (NR : forall s, In s rest -> s <> []) by (intros; apply NE; now right).
    pose proof (scan_def (p_xor p) rest NR (p_args p) g h w ND (NE w (or_introl eq_refl))) as S. cbv zeta in S.
    assert (RW : forall i d, In (i, d) (p_args p) -> roomy d (a_count (h i)) (Zlen w)).
    { intros i d I K. destruct (R i d I K) as (A & B & C). specialize (C0 rest). repeat split; auto. lia. }
    specialize (S RW).
    assert (NX : forall h' l, (forall j, a_count (h j) <= a_count (h' j) <= a_count (h j) + (if existsb (Z.eqb j) (map fst (p_args p)) then Zlen w else 0)) -> characters l <= characters rest ->
      forall i d, In (i, d) (p_args p) -> roomy d (a_count (h' i)) (characters l)).
    { intros h' l G LE i d I K. destruct (R i d I K) as (A & B & C). specialize (G i). repeat split; auto; [lia|]. destruct (existsb _ _); pose proof (Zlen_pos w (NE w (or_introl eq_refl))); lia. }
    destruct (scan (p_xor p) (p_args p) g h w rest) as [took h1 g1 k1|w1 h1 g1|e| |]; try discriminate; [| |contradiction].
    + destruct S as [S1 S]. destruct took.
      * destruct rest as [|s rest]; [now elim S1|]. apply IH; [cbn [length] in L; lia|intros; apply NE; cbn; auto|]. apply NX; [exact S|]. unfold characters, Zlen. cbn [concat]. rewrite app_length. lia.
      * apply IH; [lia|exact NR|]. apply NX; [exact S|lia].
    + assert (Q : parse_loop p g1 h1 n rest <> Undefined) by (apply IH; [lia|exact NR|]; apply NX; [exact S|lia]). destruct (empty_combined w1); [exact Q|]. destruct (g_ignore g1); [exact Q|discriminate].
Qed.

Theorem C131_always_defined_partial : forall g delim help cs g' p h ws,
  build g delim help cs = Ok (g', p, h) -> (forall w, In w ws -> w <> []) ->
  (forall d, In d (user_decls cs) -> d_kind d = KMultiSwitch -> d_flag d <> [42] /\ -2147483648 <= d_count d /\ d_count d + Zlen (concat ws) <= 2147483647) ->
  parse p g' h ws <> Undefined.
Proof.
  intros g delim help cs g' p h ws B NE R. destruct (build_wf _ _ _ _ _ _ _ B) as (W & _ & A & _). unfold parse.
  apply (parse_def p (wf_ids _ _ W) (S (length ws))); [lia|exact NE|]. intros i d I K. pose proof (wf_state _ _ W i d I) as ST.
  assert (E : a_count (h i) = d_count d) by (rewrite ST; destruct (grouped p i); reflexivity). rewrite E.
  pose proof (wf_ctor _ _ W i d I) as [CT _]. apply A, numbered_decl, user_all in I as [->|[->|[->|I]]]; try discriminate. destruct (R d I K) as (F & M). split; [|exact M].
  unfold flag_char. destruct (d_flag d) as [|c f] eqn:DF; [discriminate|]. destruct (flag_one _ _ CT) as (c' & Q); [discriminate|]. injection Q as -> ->. intros ->. now apply F.
Qed.
Print Assumptions C131_always_defined_partial.
Example C131_case : exists p h g, run glob0 32 [msw "v" "verbose"] ["-vv"; "--verbose"]%string = Some (p, Done h g) /\ get_count h 3 = 3.
Proof. accepted. Qed.

(** What remains of C125: any text at all as a word of its own; joined by the delimiter any text without an asterisk;
    as a positional argument any text that does not start with a dash and has no asterisk after its first character. *)
Definition takes (delim : Z) (c : dcl) (ws : list str) (s : str) : Prop :=
  exists g p h h' g'', build glob0 delim true [c] = Ok (g, p, h) /\ parse p g h ws = Done h' g'' /\ get_values h' 3 = [VStr s].
Lemma plain_switch g d a c s : c <> 45 -> g_ignore g = false -> switch_process g d a (c :: s) = PNo (c :: s) a g.
Proof.
  intros N G. unfold switch_process, arg_matches, combined_match. rewrite G.
  assert (E : forall t, seqb (c :: s) (45 :: t) = false) by (intros t; unfold seqb; destruct (list_eq_dec Z.eq_dec (c :: s) (45 :: t)); congruence).
  change c_dash with 45. rewrite !E. apply Z.eqb_neq in N. rewrite N. reflexivity.
Qed.
Theorem C125_other_texts_partial : forall s,
  (* as a word of its own: any text *)
  takes 32 (va TStr "f" "file" true (VStr [])) [tx "--file"; s] s /\ takes 32 (va TStr "f" "file" true (VStr [])) [tx "-f"; s] s /\
  (* joined: any text without an asterisk *)
  (s <> [] -> (takes 61 (va TStr "f" "file" true (VStr [])) [(tx "--file=" ++ s)%list] s <-> ~ In 42 s)) /\
  (* positional: any text that has no asterisk after its first character and no dash there *)
  (hd 0 s <> 45 -> (takes 32 (uva TStr "pattern" true (VStr [])) [s] s <-> ~ In 42 (tl s))).
Proof.
  intros s. split; [|split; [|split]].
  - unfold takes. do 5 eexists. split; [vm_compute; reflexivity|]. split; [vm_compute; reflexivity|]. vm_compute. reflexivity.
  - unfold takes. do 5 eexists. split; [vm_compute; reflexivity|]. split; [vm_compute; reflexivity|]. vm_compute. reflexivity.
  - intros N. eassert (B : build glob0 61 true [va TStr "f" "file" true (VStr [])] = Ok (_, _, _)) by (vm_compute; reflexivity).
    match type of B with _ = Ok (?g0, ?p0, ?h0) => set (g := g0) in *; set (p := p0) in *; set (h := h0) in * end.
    assert (P : parse p g h [(tx "--file=" ++ s)%list] = if has 42 s then Failed ENoMatch else Done (hset h 3 (set_vals (h 3) [VStr s])) g).
    { destruct s as [|c s]; [congruence|]. clear B. subst g p h. unfold parse. cbn -[has]. change (has c_star (45 :: 102 :: 105 :: 108 :: 101 :: 61 :: c :: s)) with (has 42 (c :: s)). destruct (has 42 (c :: s)); reflexivity. }
    unfold takes. split.
    + intros (g0 & p0 & h0 & h' & g'' & E & Q & _) I. assert (X : Ok (g, p, h) = Ok (g0, p0, h0)) by (exact (eq_trans (eq_sym B) E)). clear E. clearbody g p h. injection X as <- <- <-. rewrite P in Q.
      replace (has 42 s) with true in Q; [discriminate|]. symmetry. apply existsb_exists. exists 42. split; [exact I|reflexivity].
    + intros I. exists g, p, h. replace (has 42 s) with false in P; [do 2 eexists; split; [exact B|]; split; [exact P|reflexivity]|].
      symmetry. destruct (has 42 s) eqn:Q; [|reflexivity]. apply existsb_exists in Q as (x & X & Y). apply Z.eqb_eq in Y. now subst x.
  - intros N. eassert (B : build glob0 32 true [uva TStr "pattern" true (VStr [])] = Ok (_, _, _)) by (vm_compute; reflexivity).
    match type of B with _ = Ok (?g0, ?p0, ?h0) => set (g := g0) in *; set (p := p0) in *; set (h := h0) in * end.
    assert (P : exists h' g'', parse p g h [s] = (if has 42 (tl s) then Failed ENoMatch else Done h' g'') /\ get_values h' 3 = [VStr s]).
    { clear B. subst g p h. unfold parse. destruct s as [|c s]; [do 2 eexists; split; [vm_compute; reflexivity|vm_compute; reflexivity]|]. cbn [hd tl] in *.
      cbn [parse_loop p_args p_xor scan process d_kind]. rewrite !plain_switch by (exact N || reflexivity).
      match goal with |- context [uvalue_process _ _ _ ?a _] => change a with (mkA true false false false false 0 [VStr []]) end.
      unfold uvalue_process, value_extract, has_blanks. cbn [a_set extract forallb allowed d_allowed negb]. change c_star with 42.
      destruct (has 42 s).
      - exists (fun _ => mkA false false false false false 0 [VStr (c :: s)]), glob0. split; [|reflexivity]. unfold empty_combined. change c_dash with 45. apply Z.eqb_neq in N. rewrite N. reflexivity.
      - do 2 eexists. split; [reflexivity|]. reflexivity. }
    destruct P as (h1 & g1 & P & G). unfold takes. split.
    + intros (g0 & p0 & h0 & h' & g'' & E & Q & _) I. assert (X : Ok (g, p, h) = Ok (g0, p0, h0)) by (exact (eq_trans (eq_sym B) E)). clear E. clearbody g p h. injection X as <- <- <-. rewrite P in Q.
      replace (has 42 (tl s)) with true in Q; [discriminate|]. symmetry. apply existsb_exists. exists 42. split; [exact I|reflexivity].
    + intros I. exists g, p, h. replace (has 42 (tl s)) with false in P; [do 2 eexists; split; [exact B|]; split; [exact P|exact G]|].
      symmetry. destruct (has 42 (tl s)) eqn:Q; [|reflexivity]. apply existsb_exists in Q as (x & X & Y). apply Z.eqb_eq in Y. now subst x.
Qed.
Print Assumptions C125_other_texts_partial.

(** What remains of C129: wherever the line with the short forms is one the parser understands, writing all labels in the long form has the same effect. *)
Definition longer (it : item) : item :=
  match it with ISwitch i d _ => ISwitch i d true | IValue i d _ w => IValue i d true w | _ => it end.
Lemma longer_given i its : given i (map longer its) = given i its.
Proof. induction its as [|it its IH]; [reflexivity|]. cbn [map given]. rewrite IH. destruct it; reflexivity. Qed.
Lemma longer_times i its : times i (map longer its) = times i its.
Proof. induction its as [|it its IH]; [reflexivity|]. cbn [map times]. rewrite IH. destruct it; reflexivity. Qed.
Lemma longer_meaningful p delim its : (forall i d, In (i, d) (p_args p) -> d_name d <> []) ->
  meaningful p delim its -> meaningful p delim (map longer its).
Proof.
  intros N [M1 M2 M3 M4]. constructor.
  - intros it I. apply in_map_iff in I as (x & <- & I). specialize (M1 x I). destruct x as [i d lg|l|i d lg w|i d w]; cbn [longer]; auto.
    + destruct M1 as [D L]. split; [exact D|]. cbn [label_ok]. destruct D as [D _]. eapply N, D.
    + destruct M1 as [D (L & V & Q)]. split; [exact D|]. split; [destruct D as [D _]; cbn; eapply N, D|]. split; [exact V|]. intros Z. destruct (Q Z) as (Q1 & Q2 & _). split; [exact Q1|]. split; [exact Q2|]. discriminate.
  - intros i d I. specialize (M2 i d I). rewrite longer_times, longer_given. exact M2.
  - intros i d I S R. rewrite longer_given. eauto.
  - intros pre i d w post l1 l2 E A j d' J U. apply map_eq_app in E as (a & b & -> & <- & E). apply map_eq_cons in E as (x & b' & -> & E & <-).
    assert (x = IPlain i d w) by (destruct x; cbn in E; congruence). subst x. rewrite longer_given. eapply M4; eauto.
Qed.

Theorem C129_short_and_long_agree_partial : forall g delim help cs g' p h items,
  build g delim help cs = Ok (g', p, h) -> g_ignore g = false ->
  no_groups cs -> no_visitors cs -> clean_names delim help cs -> (forall d, In d (user_decls cs) -> d_name d <> []) ->
  meaningful p delim items ->
  exists h1 h2, parse p g' h (flat_map (spell delim) items) = Done h1 g'
    /\ parse p g' h (flat_map (spell delim) (map longer items)) = Done h2 g'
    /\ forall i d, In (i, d) (numbered 0 (all_dcls help cs)) ->
       (d_kind d = KSwitch -> get_switch h1 i = get_switch h2 i)
       /\ (d_kind d = KMultiSwitch -> get_count h1 i = get_count h2 i)
       /\ (is_switch (d_kind d) = false -> get_values h1 i = get_values h2 i).
Proof.
  intros g delim help cs g' p h items B IG NG NV CN NN M. eapply C41_order_is_irrelevant; eauto.
  - apply longer_meaningful; [|exact M]. intros i d I. destruct (build_facts _ _ _ _ _ _ _ B NV) as (_ & _ & _ & _ & _ & A & _).
    apply A, numbered_decl, user_all in I as [->|[->|[->|I]]]; [discriminate|discriminate|discriminate|now apply NN].
  - intros i. now rewrite longer_times, longer_given.
Qed.
Print Assumptions C129_short_and_long_agree_partial.
Example C129_case : let cs := [va TStr "f" "file" true (VStr []); sw "n" "now"] in
  (exists p h g, run glob0 61 cs ["-f=out"; "-n"]%string = Some (p, Done h g) /\ (get_values h 3 = [VStr (tx "out")] /\ get_switch h 4 = true))
  /\ (exists p h g, run glob0 61 cs ["--file=out"; "--now"]%string = Some (p, Done h g) /\ (get_values h 3 = [VStr (tx "out")] /\ get_switch h 4 = true)).
Proof. cbv zeta. split; accepted. Qed.

(** What remains of C130: on lines that do not combine a grouped switch with others in one word and programs whose groups have no repeatable member, every group has one member set and every required argument is there. *)
Lemma required_given p h g ws h' g' : wf p h -> groups_ok p ->
  (forall i d f, In (i, d) (p_args p) -> grouped p i = true -> d_kind d = KSwitch -> In f (d_flag d) -> f <> 42) ->
  (forall w, In w ws -> clear_word p w) ->
  parse p g h ws = Done h' g' ->
  forall i d, In (i, d) (p_args p) -> grouped p i = false -> a_req (fresh d) = true ->
  if is_multi (d_kind d) then a_vals (h' i) <> [] else a_set (h' i) = true.
Proof.
  intros W GO F42 CW E i0 d0 I0 G0 R0.
  assert (IV := loop_inv p h W GO F42 (S (length ws)) ws g h 0 h' g' ltac:(lia) CW (inv_fresh _ _ W) E).
  destruct IV as [B1 B2 B3].
  assert (Q : counted p h' (i0, d0) = true).
  { rewrite (wf_num _ _ W) in B3. unfold total in B3. symmetry in B3. eapply filter_full; [|exact B3|exact I0|].
    - intros [i d] I Q. unfold counted in Q. cbn [fst snd] in *. rewrite (wf_state _ _ W _ _ I).
      destruct (grouped p i) eqn:G.
      + apply grouped_true in G as (g1 & J1 & J2). pose proof (go_kind _ GO _ _ _ J1 J2 I) as GK.
        unfold is_required. destruct (d_kind d); try easy.
      + unfold have in Q. apply andb_true_iff in Q as [H _]. unfold is_required. rewrite H. destruct (is_multi (d_kind d)) eqn:M; auto.
        assert (a_vals (fresh d) = []) as -> by (unfold fresh; cbn [a_vals]; destruct (d_kind d); easy). reflexivity.
    - cbn [fst snd]. rewrite (wf_state _ _ W _ _ I0), G0. unfold is_required. rewrite R0. destruct (is_multi (d_kind d0)) eqn:M; auto.
      assert (a_vals (fresh d0) = []) as -> by (unfold fresh; cbn [a_vals]; destruct (d_kind d0); easy). reflexivity. }
  unfold counted, have in Q. cbn [fst snd] in Q. rewrite G0, R0 in Q. cbn [andb] in Q. destruct (is_multi (d_kind d0)); [|exact Q].
  intros N. rewrite N in Q. discriminate.
Qed.
Lemma process_xor g d a w rest : match process g d a w rest with PNo _ a' _ | PYes _ a' _ => a_xor a' = a_xor a | _ => True end.
Proof.
  unfold process, switch_process, multi_switch_process, labelled_process, uvalue_process, umulti_process, value_extract, multi_extract.
  destruct (d_kind d);
  repeat match goal with |- context [match ?x with _ => _ end] => lazymatch x with context [match _ with _ => _ end] => fail | _ => destruct x end end; try exact Logic.I; reflexivity.
Qed.
Lemma scan_xor xs rest : forall l g h w, match scan xs l g h w rest with
  | SMatch _ h' _ _ | SNone _ h' _ => forall j, existsb (existsb (Z.eqb j)) xs = false -> a_xor (h' j) = a_xor (h j)
  | _ => True end.
Proof.
  induction l as [|[i d] l IH]; intros g h w; cbn [scan]; [reflexivity|]. pose proof (process_xor g d (h i) w rest) as P.
  assert (HS : forall a j, a_xor a = a_xor (h i) -> a_xor (hset h i a j) = a_xor (h j)) by (intros a j E; unfold hset; destruct (Z.eqb_spec j i); congruence).
  destruct (process g d (h i) w rest) as [w' a g'|took a g'|e| |]; auto.
  - specialize (IH g' (hset h i a) w'). destruct (scan xs l g' (hset h i a) w' rest); auto; intros j J; rewrite (IH j J); auto.
  - destruct (xor_check xs (hset h i a) i d) as [h2 k] eqn:X. intros j J. rewrite <- (HS a j P). clear HS.
    unfold xor_check in X. destruct (find _ xs) as [grp|] eqn:F.
    + assert (NJ : existsb (Z.eqb j) grp = false).
      { apply find_some in F as [F _]. destruct (existsb (Z.eqb j) grp) eqn:Q; auto. assert (existsb (existsb (Z.eqb j)) xs = true) by (apply existsb_exists; eauto). congruence. }
      assert (NI : j <> i) by (intros ->; apply find_some in F as [_ F]; congruence).
      destruct (allow_more d _) as [am a']. injection X as <- <-. unfold hset at 1. destruct (Z.eqb_spec j i); [congruence|]. rewrite NJ. reflexivity.
    + injection X as <- <-. reflexivity.
Qed.
Lemma loop_xor p : forall m ws g h n h' g', (length ws < m)%nat -> parse_loop p g h n ws = Done h' g' ->
  forall j, grouped p j = false -> a_xor (h' j) = a_xor (h j).
Proof.
  induction m as [|m IH]; intros ws g h n h' g' L E j J; [lia|]. destruct ws as [|w rest]; cbn [parse_loop] in E.
  - destruct (n <? p_num p); [discriminate|]. destruct (p_num p <? n); [discriminate|]. congruence.
  - cbn [length] in L. pose proof (scan_xor (p_xor p) rest (p_args p) g h w) as S.
    destruct (scan (p_xor p) (p_args p) g h w rest) as [took hh gg k|w' hh gg| | |]; try discriminate; specialize (S j J); rewrite <- S.
    + destruct took; [destruct rest as [|s rest]; [discriminate|]; cbn [length] in L|]; eapply IH; try exact E; auto; lia.
    + destruct (empty_combined w'); [eapply IH; try exact E; auto; lia|]. destruct (g_ignore gg); [eapply IH; try exact E; auto; lia|discriminate].
Qed.

Theorem C130_groups_and_required_partial : forall g delim help cs g' p h ws h' g'',
  build g delim help cs = Ok (g', p, h) ->
  (forall ds d, In (DXor ds) cs -> In d ds -> group_kind (d_kind d) /\ d_flag d <> [42]) ->
  (forall w, In w ws -> ~ In 0 w /\
     forall c t, w = 45 :: c :: t -> c <> 45 -> t <> [] ->
     forall ds d f, In (DXor ds) cs -> In d ds -> d_kind d = KSwitch -> In f (d_flag d) -> ~ In f (c :: t)) ->
  parse p g' h ws = Done h' g'' ->
  (forall grp, In grp (groups 0 (all_dcls help cs)) -> grp <> [] ->
    exists k, In k grp /\ is_set (h' k) = true /\ forall i, In i grp -> i <> k -> is_set (h' i) = false) /\
  (forall i d, In (i, d) (numbered 0 (all_dcls help cs)) -> (forall grp, In grp (groups 0 (all_dcls help cs)) -> ~ In i grp) ->
    is_switch (d_kind d) = false -> d_req d = true ->
    match d_kind d with KMulti _ | KUMulti _ => get_values h' i <> [] | _ => is_set (h' i) = true end).
Proof.
  intros g delim help cs g' p h ws h' g'' B K CW E.
  destruct (build_wf _ _ _ _ _ _ _ B) as (W & X & A & _).
  assert (GO : groups_ok p) by (eapply build_groups; eauto; intros; now apply (K ds)).
  assert (MEM : forall i d, In (i, d) (p_args p) -> grouped p i = true -> exists ds, In (DXor ds) cs /\ In d ds).
  { intros i d I G. apply grouped_true in G as (g1 & G1 & G2). rewrite X in G1.
    destruct (groups_spec _ _ _ G1) as (ds & j & J1 & -> & _ & J2). exists ds. split.
    - unfold all_dcls in J1. destruct help; cbn [app In] in J1; intuition discriminate.
    - destruct (combine_ids _ _ _ G2) as (d' & J3).
      assert (d = d') by (eapply in_split_uniq; [apply (wf_ids _ _ W)|eauto|now apply A, J2]). subst d'. now apply in_combine_r in J3. }
  split.
  - intros grp GI NE. destruct (C43_exactly_one_of_each_group _ _ _ _ _ _ _ _ _ _ B K CW E grp GI NE) as (k & K1 & K2 & K3).
    exists k. split; [exact K1|]. split; [exact K2|]. intros i I N. destruct (groups_spec _ _ _ GI) as (ds & j & J1 & -> & _ & J2). destruct (combine_ids _ _ _ I) as (d & J3).
    eapply K3; eauto.
  - intros i d I NG SW R. apply A in I.
    assert (G : grouped p i = false). { destruct (grouped p i) eqn:Q; auto. apply grouped_true in Q as (g1 & G1 & G2). rewrite X in G1. elim (NG _ G1 G2). }
    assert (F42 : forall i d f, In (i, d) (p_args p) -> grouped p i = true -> d_kind d = KSwitch -> In f (d_flag d) -> f <> 42).
    { clear i d I NG SW R G. intros i d f I G KD F ->. destruct (MEM i d I G) as (ds & D1 & D2). destruct (K ds d D1 D2) as [_ NF].
      destruct (wf_ctor _ _ W _ _ I) as [C _]. destruct (flag_one _ _ C) as (x & Y); [intros Y; rewrite Y in F; easy|].
      rewrite Y in *. destruct F as [->|[]]. congruence. }
    assert (CL : forall w, In w ws -> clear_word p w).
    { intros w IW. destruct (CW w IW) as [N0 Q]. split; auto. intros c t EW NC NT i1 d1 f J G1 KD F. destruct (MEM i1 d1 J G1) as (ds & D1 & D2). eapply Q; eauto. }
    pose proof (required_given p h g' ws h' g'' W GO F42 CL E i d I G) as RG.
    assert (AX : a_xor (h' i) = false).
    { unfold parse in E. rewrite (loop_xor p (S (Datatypes.length ws)) ws g' h 0 h' g'' (Nat.lt_succ_diag_r _) E i G). rewrite (wf_state _ _ W _ _ I), G. reflexivity. }
    assert (RF : a_req (fresh d) = true) by (unfold fresh; cbn [a_req]; destruct (d_kind d); try discriminate; exact R).
    specialize (RG RF). unfold get_values, is_set. rewrite AX. destruct (d_kind d); try discriminate; cbn [is_multi] in RG; try exact RG; now rewrite RG.
Qed.
Print Assumptions C130_groups_and_required_partial.
Example C130_case : exists p h g, run glob0 32 demo3 ["-a"; "-n"; "3"]%string = Some (p, Done h g)
  /\ (groups 0 (all_dcls true demo3) = [[4; 5]] /\ is_set (h 4) = true /\ is_set (h 5) = false /\ is_set (h 3) = true).
Proof. accepted. Qed.
