From Coq Require Import String Ascii.
From Verif Require Import Base Numerals CmdModel UsageModel CmdProofs CmdMore CmdProperties MsgModel MsgProofs.
Open Scope Z_scope.

(** * C267: what is said about a wrong line or declaration *)

(** Whatever the parser, its state and the line: parse() hands an exception to the output exactly when it fails, and the exception says what is wrong: the
    reason, the argument concerned, the value as it was typed ([explains], MsgProofs.v). *)
Theorem C267_failures_are_explained : forall p g h ws,
  match parse p g h ws with
  | Failed e => exists x, parse_exn p g h 0 ws = Some x /\ explains p (g_delim g) ws e x
  | _ => parse_exn p g h 0 ws = None
  end.
Proof. intros. apply (loop_explains p (List.length ws)). lia. Qed.
Print Assumptions C267_failures_are_explained.

(** The exception of a line after declarations. *)
Definition told (delim : Z) (cs : list dcl) (ws : list string) : option (str * str * str) :=
  match build glob0 delim true cs with
  | Ok (g, p, h) => match parse_exn p g h 0 (map tx ws) with Some x => Some (arg_id x, error x, type_description x) | None => None end
  | _ => None
  end.
Definition says (a t : string) (k : str) : option (str * str * str) := Some (tx a, tx t, k).
Example C267_cases :
  told 32 [va TInt "n" "number" true (VInt 0)] ["-n"; "12x"]%string = says "Argument: -n (--number)" "Couldn't read argument value from string '12x'" parse_problem
  /\ told 32 [va TInt "n" "number" true (VInt 0)] ["-n"; "1 2"]%string = says "Argument: -n (--number)" "More than one valid value parsed from string '1 2'" parse_problem
  /\ told 32 [va TInt "" "number" true (VInt 0)] ["--number"]%string = says "Argument: (--number)" "Missing a value for this argument!" parse_problem
  /\ told 61 [va TInt "n" "number" true (VInt 0)] ["-n"; "1"]%string = says "Argument: -n (--number)" "Couldn't find delimiter for this argument!" parse_problem
  /\ told 32 [va TInt "n" "number" true (VInt 0)] ["-n"; "1"; "--number"; "2"]%string = says "Argument: -n (--number)" "Argument already set!" line_problem
  /\ told 32 col ["-c"; "green"]%string = says "Argument: -c (--colour)" "Value 'green' does not meet constraint: red|blue" line_problem
  /\ told 32 [va TInt "n" "number" true (VInt 0)] [] = says " " "One or more required arguments missing!" line_problem
  /\ told 32 [sw "a" "all"] ["-a"; "--everything"]%string = says "Argument: --everything" "Couldn't find match for argument" line_problem
  /\ told 32 [sw "a" "all"] ["-a"]%string = None.
Proof. repeat split; vm_compute; reflexivity. Qed.

(** The word that matches nothing is shown as it was typed, if it does not start with one dash or contains no character of a switch. *)
Theorem C267_word_shown_partial : forall p g h ws, parse p g h ws = Failed ENoMatch ->
  (forall w, In w ws -> (forall c t, w = 45 :: c :: t -> c <> 45 -> forall i d, In (i, d) (p_args p) -> switchlike d -> ~ In (letter d) (c :: t))) ->
  exists x w, parse_exn p g h 0 ws = Some x /\ In w ws /\ (w <> lit "undefined" -> arg_id x = lit "Argument: " ++ w).
Proof.
  intros p g h ws E N. pose proof (C267_failures_are_explained p g h ws) as H. rewrite E in H. destruct H as (x & X & (_ & _ & w & I & F & D)).
  exists x, w. split; [exact X|split; [exact I|]]. intros U. assert (V : x_id x = w).
  { destruct D as [D|(c & t & u & -> & C & V)]; auto. rewrite V in *. inversion F as [|? ? ? ? _ F1]; subst. f_equal. specialize (N _ I c t eq_refl C).
    clear - F1 N. induction F1 as [|a b w v D F IH]; auto. destruct D as [->|(_ & i & d & J & K & L)].
    - f_equal. apply IH. intros i d J K Q. apply (N i d J K). now right.
    - destruct (N i d J K). left. auto. }
  unfold arg_id. rewrite V. destruct (seqb w (lit "undefined")) eqn:S; auto. now apply seqb_true in S.
Qed.
Print Assumptions C267_word_shown_partial.

(** In a group of switches the characters understood before are replaced by asterisks: "-vz" is reported as "-*z". *)
Theorem C267_word_shown_refuted : exists cs ws, told 32 cs ws = says "Argument: -*z" "Couldn't find match for argument" line_problem /\ ws = ["-vz"%string].
Proof. exists [sw "v" "verbose"], ["-vz"%string]. split; [vm_compute|]; reflexivity. Qed.
Print Assumptions C267_word_shown_refuted.

(** The word "undefined" is not shown at all. *)
Theorem C267_undefined_refuted : told 32 [sw "v" "verbose"] ["undefined"%string] = says " " "Couldn't find match for argument" line_problem.
Proof. vm_compute. reflexivity. Qed.
Print Assumptions C267_undefined_refuted.

(** A missing required argument is never named. *)
Theorem C267_missing_refuted_for_all : forall p g h ws e, parse p g h ws = Failed e -> (e = ERequiredMissing \/ e = ETooManyArgs) ->
  exists x, parse_exn p g h 0 ws = Some x /\ arg_id x = lit " ".
Proof.
  intros p g h ws e E K. pose proof (C267_failures_are_explained p g h ws) as H. rewrite E in H. destruct H as (x & X & Y). exists x. split; [exact X|].
  assert (U : x_id x = lit "undefined") by (destruct K; subst; apply Y). unfold arg_id. rewrite U. reflexivity.
Qed.
Print Assumptions C267_missing_refuted_for_all.

(** ** what() *)

(** Calls of what(), one after another: the pointers. *)
Fixpoint calls (s : static_text) (xs : list exn) : static_text * list Z :=
  match xs with [] => (s, []) | x :: tl => let '(s1, q) := what s x in let '(s2, qs) := calls s1 tl in (s2, q :: qs) end.
Lemma calls_count xs : forall s, st_calls (fst (calls s xs)) = st_calls s + Zlen xs.
Proof. induction xs as [|x xs IH]; intros s; cbn [calls]; [unfold Zlen; cbn; lia|]. cbn [what]. specialize (IH (mkStat (st_calls s + 1) (x_id x ++ lit " -- " ++ x_text x))).
  destruct (calls _ xs) as [s2 qs]. cbn [fst st_calls] in *. unfold Zlen in *. cbn [List.length]. lia. Qed.
Lemma calls_length xs : forall s, List.length (snd (calls s xs)) = List.length xs.
Proof. induction xs as [|x xs IH]; intros s; cbn [calls]; auto. cbn [what]. specialize (IH (mkStat (st_calls s + 1) (x_id x ++ lit " -- " ++ x_text x))). destruct (calls _ xs). cbn in *. lia. Qed.
Lemma calls_app xs ys : forall s, calls s (xs ++ ys) = let '(s1, qs) := calls s xs in let '(s2, rs) := calls s1 ys in (s2, qs ++ rs).
Proof. induction xs as [|x xs IH]; intros s; cbn [calls List.app]; [now destruct (calls s ys)|]. cbn [what]. rewrite IH. destruct (calls _ xs) as [s1 qs]. now destruct (calls s1 ys). Qed.

(** The text of the latest call, whichever exception and whatever was called before, can be read: argument and reason. *)
Theorem C267_what_partial : forall s xs x, exists q, nth_error (snd (calls s (xs ++ [x]))) (List.length xs) = Some q /\
  read_text (fst (calls s (xs ++ [x]))) q = Ok (x_id x ++ lit " -- " ++ x_text x).
Proof.
  intros s xs x. rewrite calls_app. pose proof (calls_length xs s) as L. destruct (calls s xs) as [s1 qs]. cbn in *. exists (st_calls s1 + 1). split.
  - rewrite nth_error_app2 by lia. now replace (List.length xs - List.length qs)%nat with 0%nat by lia.
  - unfold read_text. cbn. now rewrite Z.eqb_refl.
Qed.
Print Assumptions C267_what_partial.
(** The text of every earlier call cannot. *)
Theorem C267_what_refuted_for_all : forall s xs x y ys, exists q, nth_error (snd (calls s (xs ++ x :: y :: ys))) (List.length xs) = Some q /\
  read_text (fst (calls s (xs ++ x :: y :: ys))) q = UB.
Proof.
  intros s xs x y ys. rewrite calls_app. pose proof (calls_length xs s) as L. destruct (calls s xs) as [s1 qs]. cbn [snd] in L. cbn [calls what].
  pose proof (calls_count ys (mkStat (st_calls (mkStat (st_calls s1 + 1) (x_id x ++ lit " -- " ++ x_text x)) + 1) (x_id y ++ lit " -- " ++ x_text y))) as C.
  destruct (calls _ ys) as [s2 rs]. cbn [fst st_calls] in C. exists (st_calls s1 + 1). split.
  - cbn [snd]. rewrite nth_error_app2 by lia. now replace (List.length xs - List.length qs)%nat with 0%nat by lia.
  - unfold read_text. cbn [fst]. destruct (Z.eqb_spec (st_calls s1 + 1) (st_calls s2)); auto. unfold Zlen in C. lia.
Qed.
Print Assumptions C267_what_refuted_for_all.
Example C267_what_case : exists q1 q2 s, calls (mkStat 0 []) [cmd_parse (tx "first") (tx "a"); cmd_parse (tx "second") (tx "b")] = (s, [q1; q2])
  /\ read_text s q1 = UB /\ read_text s q2 = Ok (tx "b -- second").
Proof. exists 1, 2. eexists. repeat split. Qed.

(** ** Declarations *)

Definition spec_problem : str := lit "Exception found when an Arg object is improperly defined by the developer.".
Definition misdeclared (g : glob) (d : decl) (text : str) : Prop :=
  (text = lit "Argument flag can only be one character long" /\ 1 < Zlen (d_flag d))
  \/ (text = lit "Argument flag cannot be either '-' or '--' or a space." /\ (d_flag d = lit "-" \/ d_flag d = lit " ") /\ d_name d <> lit "ignore_rest")
  \/ (text = lit "Argument name cannot contain either '-' or '--' or space." /\ (In 45 (d_name d) \/ In 32 (d_name d)))
  \/ (text = lit "You can't specify ANY Unlabeled Arg following an optional Unlabeled Arg" /\ unlabelled (d_kind d) = true /\ g_opt g = true).

(** A constructor throws exactly when it refuses, and says why (unlabelled arguments have no flag). *)
Theorem C267_refused_declarations : forall g d, (unlabelled (d_kind d) = true -> d_flag d = []) ->
  match construct_exn g d with
  | Some x => (forall g', construct g d <> Ok g') /\ x_type x = spec_problem /\ x_id x = called d /\ misdeclared g d (x_text x)
  | None => (exists g', construct g d = Ok g') /\ forall text, ~ misdeclared g d text
  end.
Proof.
  intros g d U. unfold construct_exn, ctor_exn, construct, ctor_ok, misdeclared. change n_ignore with (lit "ignore_rest").
  destruct (Z.ltb_spec 1 (Zlen (d_flag d))) as [L|L].
  { destruct (Z.leb_spec (Zlen (d_flag d)) 1); [lia|]. cbn [andb negb]. split; [discriminate|split; [reflexivity|split; [apply called_is|left; auto]]]. }
  destruct (Z.leb_spec (Zlen (d_flag d)) 1); [|lia]. cbn [andb].
  assert (D2 : seqb (d_flag d) [c_dash; c_dash] = false) by (apply seqb_false; intros E; rewrite E in L; unfold Zlen in L; cbn in L; lia). rewrite D2, orb_false_r.
  destruct (seqb (d_name d) (lit "ignore_rest")) eqn:NI; cbn [negb andb orb].
  2: destruct (seqb (d_flag d) [c_dash] || seqb (d_flag d) [c_space]) eqn:F; cbn [negb andb].
  2: { split; [discriminate|split; [reflexivity|split; [apply called_is|right; left]]]. split; [reflexivity|]. apply seqb_false in NI. split; [|exact NI].
       apply orb_true_iff in F. rewrite !seqb_true in F. exact F. }
  all: destruct (has c_dash (d_name d) || has c_space (d_name d)) eqn:N; cbn [negb andb].
  1, 3: split; [discriminate|split; [reflexivity|split; [apply called_is|right; right; left; split; [reflexivity|]]]]; apply orb_true_iff in N; rewrite !has_true in N; exact N.
  all: apply orb_false_iff in N; rewrite !has_false in N; destruct N as (N1 & N2).
  all: destruct (unlabelled (d_kind d)) eqn:K; cbn [andb negb].
  1, 3: rewrite (U eq_refl); cbn; destruct (g_opt g) eqn:O.
  1, 3: split; [discriminate|split; [reflexivity|split; [apply called_is|right; right; right; auto]]].
  all: split; [eexists; reflexivity|].
  all: intros text; rewrite ?(U eq_refl) in *.
  1, 2: intros [(_ & T)|[(_ & [T|T] & _)|[(_ & [T|T])|(_ & _ & T)]]]; try discriminate T; try (unfold Zlen in T; cbn in T; lia); auto.
  - intros [(_ & T)|[(_ & _ & T)|[(_ & [T|T])|(_ & T & _)]]]; try discriminate T; try lia; auto. apply seqb_true in NI. auto.
  - intros [(_ & T)|[(_ & T & _)|[(_ & [T|T])|(_ & T & _)]]]; try discriminate T; try lia; auto. apply orb_false_iff in F. rewrite !seqb_false in F. destruct T, F; auto.
Qed.
Print Assumptions C267_refused_declarations.

(** add() throws exactly when it refuses; for an argument with a label there is then one of the same flag or name, as the text says. *)
Theorem C267_same_name_partial : forall p h i d given, unlabelled (d_kind d) = false ->
  match add_exn p h d given with
  | Some x => (forall p', add p h i d <> Ok p') /\ x_type x = spec_problem /\ x_text x = lit "Argument with same flag/name already exists!" /\ x_id x = long_id d (type_desc given d)
      /\ exists j d', In (j, d') (p_args p) /\ (d_name d' = d_name d \/ (d_flag d' = d_flag d /\ d_flag d <> []))
  | None => (exists p', add p h i d = Ok p') /\ forall j d', In (j, d') (p_args p) -> d_name d' <> d_name d /\ (d_flag d <> [] -> d_flag d' <> d_flag d)
  end.
Proof.
  intros p h i d given U. unfold add_exn, add. destruct (existsb _ (p_args p)) eqn:E.
  - split; [discriminate|split; [reflexivity|split; [reflexivity|split; [reflexivity|]]]]. apply existsb_exists in E. destruct E as ((j & d') & I & C). exists j, d'. split; [exact I|].
    unfold clashes in C. rewrite U in C. apply orb_true_iff in C. rewrite andb_true_iff, negb_true_iff, !seqb_true, seqb_false in C. destruct C as [(A & B)|C]; auto.
  - split; [eexists; reflexivity|]. intros j d' I.
    assert (C : clashes (label_of (p_xor p) j) d d' (h j) = false).
    { destruct (clashes _ d d' (h j)) eqn:C; auto. rewrite <- E. symmetry. apply existsb_exists. exists (j, d'). auto. }
    unfold clashes in C. rewrite U in C. apply orb_false_iff in C. rewrite andb_false_iff, negb_false_iff, seqb_true, !seqb_false in C. destruct C as (A & B). split; [auto|]. intros N. destruct A; auto.
Qed.
Print Assumptions C267_same_name_partial.

(** A positional argument with the description of another argument is refused with the same text, though nothing has its name. *)
Theorem C267_same_name_refuted : exists p h d x, unlabelled (d_kind d) = true /\ add_exn p h d [] = Some x /\ x_text x = lit "Argument with same flag/name already exists!" /\
  (exists g, build glob0 32 true [sw "v" "verbose"] = Ok (g, p, h)) /\ d_flag d = [] /\ forall j d', In (j, d') (p_args p) -> d_name d' <> d_name d.
Proof.
  destruct (build glob0 32 true [sw "v" "verbose"]) as [[[g p] h]| |] eqn:B; [|vm_compute in B; discriminate|vm_compute in B; discriminate].
  exists p, h, (mkD (KUValue TStr) [] (tx "input") (tx "vverbose") true None NoVis false 0 (VStr [])). eexists. vm_compute in B. injection B as <- <- <-.
  split; [reflexivity|split; [vm_compute; reflexivity|split; [vm_compute; reflexivity|split; [eexists; reflexivity|split; [reflexivity|]]]]].
  intros j d' [[= <- <-]|[[= <- <-]|[[= <- <-]|[[= <- <-]|[]]]]]; discriminate.
Qed.
Print Assumptions C267_same_name_refuted.

(** * C124, C127: which words an accepted line can contain *)

(** A word the declarations account for: there is a positional argument; or it is, or begins with, a label; or it is a dash followed by characters of switches
    and asterisks (which includes the dash alone). *)
Definition known (args : list (Z * decl)) (delim : Z) (w : str) : Prop :=
  (exists i d, In (i, d) args /\ unlabelled (d_kind d) = true) \/ (exists i d, In (i, d) args /\ begins delim d w)
  \/ (exists t, w = 45 :: t /\ forall c, In c t -> c = 42 \/ exists i d, In (i, d) args /\ switchlike d /\ letter d = c).
Inductive understood (args : list (Z * decl)) (delim : Z) : list str -> Prop :=
| Und_end : understood args delim []
| Und_word w ws : known args delim w -> understood args delim ws -> understood args delim (w :: ws)
| Und_value i d w v ws : In (i, d) args -> labelled d -> begins delim d w -> understood args delim ws -> understood args delim (w :: v :: ws).

Lemma dims_known args t u : Forall2 (dims args) t u -> (forall c, In c u -> c = 42) -> forall c, In c t -> c = 42 \/ exists i d, In (i, d) args /\ switchlike d /\ letter d = c.
Proof.
  induction 1 as [|a b t u D F IH]; intros S c; [intros []|]. intros [<-|J].
  - destruct D as [<-|(_ & i & d & I & K & L)]; [left; apply S; now left|right; eauto].
  - apply IH; auto. intros x X. apply S. now right.
Qed.
Lemma process_known args g i d a w0 w rest took a1 g1 : In (i, d) args -> Zlen (d_flag d) <= 1 -> dimmed args w0 w -> process g d a w rest = PYes took a1 g1 ->
  (took = true -> labelled d /\ begins (g_delim g) d w0) /\ (took = false -> known args (g_delim g) w0).
Proof.
  intros I L D.
  assert (M : arg_matches d w = true -> known args (g_delim g) w0).
  { intros M. apply label_matches in M. destruct D as [F [->|(c & t & u & -> & C & ->)]]; [right; left; exists i, d; split; [exact I|exists w0; auto]|].
    inversion F as [|? ? ? ? _ F1]; subst. destruct M as [([= ->] & N)|[= ->]].
    - destruct (d_flag d) as [|f [|]] eqn:FL; [congruence| |unfold Zlen in L; cbn in L; lia]. inversion F1 as [|? ? ? ? Q F2]; subst. inversion F2; subst.
      destruct Q as [->|(-> & K)]; [right; left; exists i, d; split; [exact I|exists [45; c]; split; [left; rewrite FL; split; [reflexivity|discriminate]|auto]]|].
      right; right. exists [c]. split; [reflexivity|]. intros x [<-|[]]. now right.
    - exfalso. inversion F1 as [|? ? ? ? Q _]; subst. destruct Q as [Q|(Q & _)]; [now apply C|discriminate]. }
  unfold process. destruct (d_kind d) eqn:K.
  - unfold switch_process. destruct (g_ignore g); [discriminate|]. destruct (arg_matches d w) eqn:A0.
    { destruct (a_set a); [discriminate|]. destruct (visit d g); [|discriminate]. intros [= <- _ _]. split; [discriminate|auto]. }
    destruct (combined_match d w) as [w2|] eqn:CM; [|discriminate]. destruct (a_set a || _); [discriminate|]. destruct (visit d g); [|discriminate].
    destruct (arg_matches d w2) eqn:A; [|discriminate]. intros _. exfalso. apply label_matches in A. destruct (combined_dashed _ _ _ CM) as (c & t & s & -> & N & -> & B).
    cbn in B. unfold letter in B. destruct A as [([= ->] & NF)|[= ->]].
    + destruct (d_flag d) as [|f [|]] eqn:FL; [congruence| |unfold Zlen in L; cbn in L; lia]. cbn [hd] in B.
      destruct (Z.eqb_spec c f) as [->|NE]; [injection B as <- ->|destruct (blank_first f t); [|discriminate]; injection B as -> _; congruence].
      assert (X : arg_matches d [45; 42] = true) by (unfold arg_matches; rewrite FL; reflexivity). unfold c_star in A0. congruence.
    + destruct (c =? _); [discriminate|]. destruct (blank_first _ t); [|discriminate]. injection B as -> _. congruence.
  - unfold multi_switch_process. destruct (g_ignore g); [discriminate|]. destruct (arg_matches d w).
    { destruct (in_int _); [|discriminate]. destruct (visit d g); [|discriminate]. intros [= <- _ _]. split; [discriminate|auto]. }
    destruct (combined_match d w) as [w2|]; [|discriminate]. destruct (_ || _); [discriminate|]. destruct (visit d g); discriminate.
  - unfold labelled_process. destruct (g_ignore g); [discriminate|]. destruct (has_blanks w) eqn:HB; [discriminate|]. rewrite (dimmed_plain _ _ _ D HB) in *.
    destruct (trim_flag (g_delim g) w0) as [f v] eqn:TF. apply trim_inv in TF. destruct (arg_matches d f) eqn:A; [|discriminate]. apply label_matches in A. intros _.
    assert (BG : begins (g_delim g) d w0) by (exists f; split; [exact A|]; destruct TF as [(-> & _)| ->]; eauto).
    split; intros _; [split; [exists t; auto|exact BG]|right; left; eauto].
  - unfold labelled_process. destruct (g_ignore g); [discriminate|]. destruct (has_blanks w) eqn:HB; [discriminate|]. rewrite (dimmed_plain _ _ _ D HB) in *.
    destruct (trim_flag (g_delim g) w0) as [f v] eqn:TF. apply trim_inv in TF. destruct (arg_matches d f) eqn:A; [|discriminate]. apply label_matches in A. intros _.
    assert (BG : begins (g_delim g) d w0) by (exists f; split; [exact A|]; destruct TF as [(-> & _)| ->]; eauto).
    split; intros _; [split; [exists t; auto|exact BG]|right; left; eauto].
  - unfold uvalue_process. destruct (a_set a); [discriminate|]. destruct (has_blanks w); [discriminate|]. destruct (value_extract _ _ _ _); [discriminate|]. intros [= <- _ _].
    split; [discriminate|]. intros _. left. exists i, d. split; [exact I|now rewrite K].
  - unfold umulti_process. destruct (has_blanks w); [discriminate|]. destruct (multi_extract _ _ _ _) as [[]|]; [discriminate| |discriminate]. intros [= <- _ _].
    split; [discriminate|]. intros _. left. exists i, d. split; [exact I|now rewrite K].
Qed.
Lemma scan_known p w0 rest : (forall i d, In (i, d) (p_args p) -> Zlen (d_flag d) <= 1) -> forall l g h w, incl l (p_args p) -> dimmed (p_args p) w0 w ->
  match scan (p_xor p) l g h w rest with
  | SMatch took _ _ _ => (took = true -> exists i d, In (i, d) (p_args p) /\ labelled d /\ begins (g_delim g) d w0) /\ (took = false -> known (p_args p) (g_delim g) w0)
  | SNone w' _ _ => empty_combined w' = true -> known (p_args p) (g_delim g) w0
  | _ => True
  end.
Proof.
  intros FL. induction l as [|(i, d) l IH]; intros g h w L D; cbn [scan].
  - intros E. destruct w as [|c u]; [discriminate|]. cbn in E. apply andb_true_iff in E as (E1 & E2). apply Z.eqb_eq in E1. subst c.
    destruct D as [F D]. assert (exists t, w0 = 45 :: t) as (t & ->) by (destruct D as [<-|(c & t & u' & -> & _)]; eauto). inversion F as [|? ? ? ? _ F1]; subst.
    right; right. exists t. split; [reflexivity|]. apply (dims_known _ _ _ F1). intros c J. rewrite forallb_forall in E2. specialize (E2 c J). apply Z.eqb_eq in E2. auto.
  - assert (I : In (i, d) (p_args p)) by (apply L; now left). destruct (process g d (h i) w rest) as [w' a' g'|took a' g'|e| |] eqn:P; auto.
    + destruct (process_no _ _ _ _ _ _ _ _ _ _ _ I D P) as (D' & G). rewrite <- G. apply IH; auto. intros y Y. apply L. now right.
    + destruct (xor_check (p_xor p) (hset h i a') i d). destruct (process_known _ _ _ _ _ _ _ _ _ _ _ I (FL _ _ I) D P) as (A & B). split; [|exact B]. intros T. exists i, d. destruct (A T). auto.
Qed.
Lemma loop_known p g : (forall i d, In (i, d) (p_args p) -> Zlen (d_flag d) <= 1) -> vis_ok p -> g_ignore g = false ->
  forall n ws h k h' g', (List.length ws <= n)%nat -> (forall w, In w ws -> no_ignore_word w) -> parse_loop p g h k ws = Done h' g' -> understood (p_args p) (g_delim g) ws.
Proof.
  intros FL V G. induction n as [|n IH]; intros ws h k h' g' L N E; (destruct ws as [|w rest]; [constructor|]); [cbn in L; lia|]. cbn in L. cbn [parse_loop] in E.
  pose proof (scan_known p w rest FL (p_args p) g h w (incl_refl _) (conj (dims_refl _ _) (or_introl eq_refl))) as S.
  pose proof (scan_glob p V (p_args p) g h w rest (fun x J => J) (N _ (or_introl eq_refl))) as Q.
  assert (N' : forall x, In x rest -> no_ignore_word x) by (intros; apply N; now right).
  destruct (scan (p_xor p) (p_args p) g h w rest) as [took h1 g1 m|w1 h1 g1|e| |]; try discriminate; subst g1; destruct S as [S1 S2] || idtac.
  - destruct took.
    + destruct rest as [|s rest]; [discriminate|]. destruct (S1 eq_refl) as (i & d & I & LB & BG). apply (Und_value _ _ i d); auto. eapply IH; [|intros x J; apply N'; now right|exact E]. cbn in L. lia.
    + constructor; [auto|]. eapply IH; [|exact N'|exact E]. lia.
  - rewrite G in E. destruct (empty_combined w1); [|discriminate]. constructor; [auto|]. eapply IH; [|exact N'|exact E]. lia.
Qed.

(** In a line without "--", "--ignore_rest" and groups that contain a dash, every word is accounted for. *)
Theorem C124_known_words_partial : forall delim help cs g p h ws h' g', build glob0 delim help cs = Ok (g, p, h) -> no_visitors cs ->
  (forall w, In w ws -> no_ignore_word w) -> parse p g h ws = Done h' g' -> understood (p_args p) delim ws.
Proof.
  intros delim help cs g p h ws h' g' B NV N P. destruct (build_facts _ _ _ _ _ _ _ B NV) as (W & V & _ & D & IG & _). rewrite <- D.
  apply (loop_known p g) with (n := List.length ws) (h := h) (k := 0) (h' := h') (g' := g'); auto. intros i d I. destruct (wf_ctor _ _ W i d I) as (C & _).
  destruct (ctor_flag _ _ C) as ([-> |(c & -> & _)] & _); unfold Zlen; cbn; lia.
Qed.
Print Assumptions C124_known_words_partial.

(** Without a positional argument a word that is neither a label nor the value of one is accepted only if it is a dash, followed by characters of switches and
    asterisks: this is all that C127 is about. *)
Theorem C127_other_words_partial : forall delim help cs g p h w h' g', build glob0 delim help cs = Ok (g, p, h) -> no_visitors cs -> no_ignore_word w ->
  parse p g h [w] = Done h' g' -> (forall i d, In (i, d) (p_args p) -> unlabelled (d_kind d) = false /\ ~ begins delim d w) ->
  exists t, w = 45 :: t /\ forall c, In c t -> c = 42 \/ exists i d, In (i, d) (p_args p) /\ switchlike d /\ letter d = c.
Proof.
  intros delim help cs g p h w h' g' B NV N P K.
  assert (U : understood (p_args p) delim [w]) by (apply (C124_known_words_partial delim help cs g p h [w] h' g'); auto; now intros x [<-|[]]).
  inversion U as [|? ? [(i & d & I & X)|[(i & d & I & X)|X]] _|]; subst; auto; destruct (K i d I); congruence || contradiction.
Qed.
Print Assumptions C127_other_words_partial.
Example C127_case : (exists p h g, run glob0 32 [sw "v" "verbose"; sw "x" "extra"] ["-xv"; "-"; "-*"]%string = Some (p, Done h g) /\ get_switch h 3 = true)
  /\ no_ignore_word (tx "-xv") /\ no_ignore_word (tx "-") /\ no_ignore_word (tx "-*").
Proof.
  split; [accepted|]. repeat split; try (vm_compute; discriminate); intros c t E; vm_compute in E; (injection E as <- <- || discriminate E); cbn; intuition discriminate.
Qed.

(** The words every program understands: those of help and version if they were not declined, and those that end the arguments. *)
Theorem C124_standard_words : forall delim help cs g p h, build glob0 delim help cs = Ok (g, p, h) ->
  (help = true -> (exists i d, In (i, d) (p_args p) /\ d_vis d = VHelp /\ forall w, arg_matches d w = true <-> w = tx "-h" \/ w = tx "--help") /\
                  (exists i d, In (i, d) (p_args p) /\ d_vis d = VVersion /\ forall w, arg_matches d w = true <-> w = tx "--version")) /\
  (exists i d, In (i, d) (p_args p) /\ d_vis d = VIgnore /\ forall w, arg_matches d w = true <-> w = tx "--" \/ w = tx "--ignore_rest").
Proof.
  intros delim help cs g p h B. apply build_wf in B as (_ & _ & A & _).
  assert (M : forall d w, arg_matches d w = true <-> (w = 45 :: d_flag d /\ d_flag d <> []) \/ w = 45 :: 45 :: d_name d).
  { intros d w. unfold arg_matches. rewrite orb_true_iff, andb_true_iff, negb_true_iff, !seqb_true, seqb_false. reflexivity. }
  split.
  - intros ->. split.
    + exists 0, d_help. split; [apply A; cbn; auto|]. split; [reflexivity|]. intros w. rewrite M. cbn. intuition (try discriminate; congruence).
    + exists 1, d_version. split; [apply A; cbn; auto|]. split; [reflexivity|]. intros w. rewrite M. cbn. intuition (try discriminate; congruence).
  - exists (if help then 2 else 0), d_ignore. split; [apply A; destruct help; cbn; auto|]. split; [reflexivity|]. intros w. rewrite M. cbn. intuition (try discriminate; congruence).
Qed.
Print Assumptions C124_standard_words.
