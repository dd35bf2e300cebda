From Coq Require Import String Ascii.
From Verif Require Import Base Numerals CmdModel UsageModel CmdProofs MsgModel.
Open Scope Z_scope.

(** * What the messages must say *)

(** How an argument is called in messages: "-f (--name)" or "(--name)". *)
Definition called (d : decl) : str :=
  match d_flag d with [] => [] | f => lit "-" ++ f ++ lit " " end ++ lit "(--" ++ d_name d ++ lit ")".
(** The character of its flag. *)
Definition letter (d : decl) : Z := hd 0 (d_flag d).
Definition switchlike (d : decl) : Prop := d_kind d = KSwitch \/ d_kind d = KMultiSwitch.
Definition labelled (d : decl) : Prop := exists t, d_kind d = KValue t \/ d_kind d = KMulti t.
Definition of_type (d : decl) (t : ty) : Prop := d_kind d = KValue t \/ d_kind d = KMulti t \/ d_kind d = KUValue t \/ d_kind d = KUMulti t.
(** The two ways to write its label. *)
Definition label (d : decl) (s : str) : Prop := (s = 45 :: d_flag d /\ d_flag d <> []) \/ s = 45 :: 45 :: d_name d.
(** A word with the label, alone or joined to a value. *)
Definition begins (delim : Z) (d : decl) (w : str) : Prop := exists s, label d s /\ (w = s \/ exists v, w = s ++ delim :: v).
(** A word that mentions a switch: its label, or its character among others behind one dash.  A switch whose character is the asterisk is mentioned by
    every group. *)
Definition mentions (d : decl) (w : str) : Prop := label d w \/ exists t, w = 45 :: t /\ (In (letter d) t \/ letter d = 42).
(** A value as it was typed: a word, or what follows the delimiter in one. *)
Definition typed (delim : Z) (ws : list str) (v : str) : Prop := exists w, In w ws /\ (v = w \/ exists a, w = a ++ delim :: v).
(** The word as the parser has left it: the characters of switches found in a group are replaced by asterisks. *)
Definition dims (args : list (Z * decl)) (a b : Z) : Prop := b = a \/ (b = 42 /\ exists i d, In (i, d) args /\ switchlike d /\ letter d = a).
Definition dimmed (args : list (Z * decl)) (w v : str) : Prop :=
  Forall2 (dims args) w v /\ (v = w \/ exists c t u, w = 45 :: c :: t /\ c <> 45 /\ v = 45 :: u).
(** The allowed values, separated by bars. *)
Definition shown_value (v : val) : str := match v with VStr s => s | VInt z => num_str z end.
Fixpoint barred (l : list str) : str := match l with [] => [] | [s] => s | s :: tl => s ++ lit "|" ++ barred tl end.

Definition about (p : parser) (x : exn) (P : decl -> Prop) : Prop := exists i d, In (i, d) (p_args p) /\ x_id x = called d /\ P d.
Definition parse_problem : str := lit "Exception found while parsing the value the Arg has been passed.".
Definition line_problem : str := lit "Exception found when the values on the command line do not meet the requirements of the defined Args.".
(** The exception [x] says what is wrong with the line [ws]. *)
Definition explains (p : parser) (delim : Z) (ws : list str) (e : perr) (x : exn) : Prop :=
  match e with
  | EAlreadySet => x_type x = line_problem /\ x_text x = lit "Argument already set!" /\ about p x (fun d =>
      (d_kind d = KSwitch /\ exists w, In w ws /\ mentions d w) \/ (exists t w, d_kind d = KValue t /\ In w ws /\ begins delim d w))
  | ENoDelimiter => x_type x = parse_problem /\ x_text x = lit "Couldn't find delimiter for this argument!" /\ delim <> 32 /\
      about p x (fun d => labelled d /\ exists w, In w ws /\ (label d w \/ exists s, label d s /\ w = s ++ [delim]))
  | EMissingValue => x_type x = parse_problem /\ x_text x = lit "Missing a value for this argument!" /\ delim = 32 /\
      about p x (fun d => labelled d /\ exists ws' w, ws = ws' ++ [w] /\ (label d w \/ exists s, label d s /\ w = s ++ [delim]))
  | EUnreadable | ETooManyValues => x_type x = parse_problem /\ about p x (fun d => exists t v, of_type d t /\ typed delim ws v /\
      x_text x = (if match e with EUnreadable => true | _ => false end then lit "Couldn't read argument value from string '" else lit "More than one valid value parsed from string '")
        ++ v ++ lit "'" /\ v <> [] /\ forall y, ~ reads t v y)
  | EConstraint => x_type x = line_problem /\ about p x (fun d => exists t v vs, of_type d t /\ typed delim ws v /\ d_allowed d = Some vs /\
      x_text x = lit "Value '" ++ v ++ lit "' does not meet constraint: " ++ barred (map shown_value vs) /\
      ((exists y, reads t v y /\ ~ In y vs) \/ (t = TInt /\ v = [])))
  | ENoMatch => x_type x = line_problem /\ x_text x = lit "Couldn't find match for argument" /\ exists w, In w ws /\ dimmed (p_args p) w (x_id x)
  | ERequiredMissing => x_type x = line_problem /\ x_text x = lit "One or more required arguments missing!" /\ x_id x = lit "undefined"
  | ETooManyArgs => x_type x = line_problem /\ x_text x = lit "Too many arguments!" /\ x_id x = lit "undefined"
  end.

(** * Helpers *)

Lemma called_is d : to_string d = called d.
Proof. unfold to_string, called. destruct (d_flag d); reflexivity. Qed.
Lemma letter_is d : flag_char d = letter d.
Proof. unfold flag_char, letter. now destruct (d_flag d). Qed.

Lemma barred_is vs : forall b, constraint_text b vs = (if b then match vs with [] => [] | _ => [124] end else []) ++ barred (map shown_value vs).
Proof.
  induction vs as [|v vs IH]; intros b; [now destruct b|]. cbn [constraint_text]. rewrite IH. change (val_text v) with (shown_value v).
  destruct vs as [|v' vs]; cbn [map barred].
  - rewrite !app_nil_r. now destruct b.
  - now destruct b.
Qed.

Lemma typed_more delim ws v w : typed delim ws v -> typed delim (w :: ws) v.
Proof. intros (u & I & J). exists u. split; [now right|exact J]. Qed.

Lemma about_more p x (P Q : decl -> Prop) : (forall d, P d -> Q d) -> about p x P -> about p x Q.
Proof. intros H (i & d & I & E & K). exists i, d. auto. Qed.

Lemma explains_more p delim ws e x w : explains p delim ws e x -> explains p delim (w :: ws) e x.
Proof.
  destruct e; cbn [explains].
  - intros (A & B & H). split; [exact A|split; [exact B|]]. revert H. apply about_more. intros d [(K & u & I & M)|(t & u & K & I & M)].
    + left. split; [exact K|]. exists u. split; [now right|exact M].
    + right. exists t, u. split; [exact K|]. split; [now right|exact M].
  - intros (A & B & D & H). split; [exact A|split; [exact B|split; [exact D|]]]. revert H. apply about_more. intros d (K & u & I & M).
    split; [exact K|]. exists u. split; [now right|exact M].
  - intros (A & B & D & H). split; [exact A|split; [exact B|split; [exact D|]]]. revert H. apply about_more. intros d (K & l & u & -> & M).
    split; [exact K|]. exists (w :: l), u. split; [reflexivity|exact M].
  - intros (A & H). split; [exact A|]. revert H. apply about_more. intros d (t & v & K & T & E). exists t, v. split; [exact K|split; [now apply typed_more|exact E]].
  - intros (A & H). split; [exact A|]. revert H. apply about_more. intros d (t & v & K & T & E). exists t, v. split; [exact K|split; [now apply typed_more|exact E]].
  - intros (A & H). split; [exact A|]. revert H. apply about_more. intros d (t & v & vs & K & T & E). exists t, v, vs. split; [exact K|split; [now apply typed_more|exact E]].
  - intros (A & B & u & I & D). split; [exact A|split; [exact B|]]. exists u. split; [now right|exact D].
  - auto.
  - auto.
Qed.

(** ** Dimmed words *)

Lemma dims_refl args w : Forall2 (dims args) w w.
Proof. induction w; constructor; auto. now left. Qed.

Lemma dims_star args w v : Forall2 (dims args) w v -> ~ In 42 v -> v = w.
Proof. induction 1 as [|a b w v D F IH]; auto. intros N. destruct D as [->|(-> & _)]; [|now destruct N; left]. f_equal. apply IH. intros J. apply N. now right. Qed.

Lemma dims_in args w v c : Forall2 (dims args) w v -> In c v -> In c w \/ c = 42.
Proof. induction 1 as [|a b w v D F IH]; [intros []|]. intros [<-|J]; [destruct D as [->|(-> & _)]; auto; left; now left|]. destruct (IH J); auto. left. now right. Qed.

Lemma dimmed_plain args w v : dimmed args w v -> has_blanks v = false -> v = w.
Proof.
  intros [F [->|(c & t & u & -> & C & ->)]] B; auto. cbn in B. apply has_false in B. inversion F; subst. f_equal. now apply (dims_star args).
Qed.

Lemma blank_first_dims args d i s s1 : In (i, d) args -> switchlike d -> blank_first (letter d) s = Some s1 -> Forall2 (dims args) s s1.
Proof.
  intros I K. revert s1. induction s as [|x s IH]; intros s1 E; [discriminate|]. cbn in E. destruct (Z.eqb_spec x (letter d)) as [->|N].
  - injection E as <-. constructor; [right; split; [reflexivity|eauto]|apply dims_refl].
  - destruct (blank_first (letter d) s) as [s2|]; [|discriminate]. injection E as <-. constructor; [now left|now apply IH].
Qed.

Lemma blank_all_dims args d i s : In (i, d) args -> switchlike d -> Forall2 (dims args) s (blank_all (letter d) s).
Proof.
  intros I K. induction s as [|x s IH]; [constructor|]. cbn. constructor; [|exact IH]. destruct (Z.eqb_spec x (letter d)) as [->|N]; [right; split; [reflexivity|eauto]|now left].
Qed.

Lemma dims_trans args w v u : Forall2 (dims args) w v -> Forall2 (dims args) v u -> Forall2 (dims args) w u.
Proof.
  intros F. revert u. induction F as [|a b w v D F IH]; intros u G; inversion G; subst; constructor; [|now apply IH].
  destruct D as [->|(-> & H)]; [assumption|]. match goal with H : dims args 42 _ |- _ => destruct H as [->|(-> & _)] end; right; auto.
Qed.

Lemma dimmed_step args w v u : dimmed args w v -> Forall2 (dims args) v u -> (exists c t s, v = 45 :: c :: t /\ c <> 45 /\ u = 45 :: s) -> dimmed args w u.
Proof.
  intros [F H] G (c & t & s & -> & C & ->). split; [now apply (dims_trans args w (45 :: c :: t))|]. right.
  destruct H as [<-|(c0 & t0 & u0 & -> & C0 & _)]; [now exists c, t, s|now exists c0, t0, s].
Qed.

Lemma combined_dashed d w w1 : combined_match d w = Some w1 -> exists c t s, w = 45 :: c :: t /\ c <> 45 /\ w1 = 45 :: s /\ blank_first (letter d) (c :: t) = Some s.
Proof.
  destruct w as [|a [|c t]]; cbn; [discriminate|destruct (a =? c_dash); discriminate|]. destruct (Z.eqb_spec a c_dash) as [->|]; [|discriminate]. cbn [negb].
  destruct (Z.eqb_spec c c_dash) as [|N]; [discriminate|]. rewrite letter_is. intros E. exists c, t.
  destruct (c =? letter d) eqn:Q.
  - injection E as <-. exists (c_star :: t). auto.
  - destruct (blank_first (letter d) t) as [s|]; [|discriminate]. injection E as <-. exists (c :: s). auto.
Qed.

Lemma visit_delim d g g' : visit d g = Some g' -> g_delim g' = g_delim g.
Proof. unfold visit. destruct (d_vis d); try discriminate; now intros [= <-]. Qed.

(** Going on to the next argument. *)
Lemma process_no args g i d a w0 w rest w1 a1 g1 : In (i, d) args -> dimmed args w0 w -> process g d a w rest = PNo w1 a1 g1 -> dimmed args w0 w1 /\ g_delim g1 = g_delim g.
Proof.
  intros I D. unfold process. destruct (d_kind d) eqn:K.
  - unfold switch_process. destruct (g_ignore g); [now intros [= <- <- <-]|]. destruct (arg_matches d w).
    { destruct (a_set a); [discriminate|]. destruct (visit d g); discriminate. }
    destruct (combined_match d w) as [w2|] eqn:C; [|now intros [= <- <- <-]]. destruct (a_set a || _); [discriminate|]. destruct (visit d g) as [g2|] eqn:V; [|discriminate].
    destruct (arg_matches d w2); [discriminate|]. intros [= <- <- <-]. split; [|now apply (visit_delim d)].
    destruct (combined_dashed _ _ _ C) as (c & t & s & -> & N & -> & B). apply (dimmed_step args w0 (45 :: c :: t)); auto; [|now exists c, t, s].
    constructor; [now left|]. apply (blank_first_dims args d i); auto. now left.
  - unfold multi_switch_process. destruct (g_ignore g); [now intros [= <- <- <-]|]. destruct (arg_matches d w).
    { destruct (in_int _); [|discriminate]. destruct (visit d g); discriminate. }
    destruct (combined_match d w) as [w2|] eqn:C; [|now intros [= <- <- <-]]. destruct (_ || _); [discriminate|]. destruct (visit d g) as [g2|] eqn:V; [|discriminate].
    intros [= <- <- <-]. split; [|now apply (visit_delim d)].
    destruct (combined_dashed _ _ _ C) as (c & t & s & -> & N & _ & _). apply (dimmed_step args w0 (45 :: c :: t)); auto; [|now exists c, t, (blank_all (flag_char d) (c :: t))].
    rewrite letter_is. constructor; [now left|]. apply (blank_all_dims args d i (c :: t)); auto. now right.
  - unfold labelled_process. destruct (g_ignore g); [now intros [= <- <- <-]|]. destruct (has_blanks w); [now intros [= <- <- <-]|]. destruct (trim_flag _ w) as [f v].
    destruct (arg_matches d f); [|now intros [= <- <- <-]]. destruct (_ && _); [discriminate|]. destruct (_ && _); [discriminate|]. destruct (seqb v []); [destruct rest; [discriminate|]|];
    destruct (value_extract _ _ _ _); try discriminate; destruct (visit d g); discriminate.
  - unfold labelled_process. destruct (g_ignore g); [now intros [= <- <- <-]|]. destruct (has_blanks w); [now intros [= <- <- <-]|]. destruct (trim_flag _ w) as [f v].
    destruct (arg_matches d f); [|now intros [= <- <- <-]]. cbn [negb andb]. destruct (_ && _); [discriminate|]. destruct (seqb v []); [destruct rest; [discriminate|]|];
    destruct (multi_extract _ _ _ _) as [[]|]; try discriminate; destruct (visit d g); discriminate.
  - unfold uvalue_process. destruct (a_set a); [now intros [= <- <- <-]|]. destruct (has_blanks w); [now intros [= <- <- <-]|]. destruct (value_extract _ _ _ _); discriminate.
  - unfold umulti_process. destruct (has_blanks w); [now intros [= <- <- <-]|]. destruct (multi_extract _ _ _ _) as [[]|]; discriminate.
Qed.

Lemma process_yes g d a w rest took a1 g1 : process g d a w rest = PYes took a1 g1 -> g_delim g1 = g_delim g.
Proof.
  unfold process. destruct (d_kind d) eqn:K.
  - unfold switch_process. destruct (g_ignore g); [discriminate|]. destruct (arg_matches d w).
    { destruct (a_set a); [discriminate|]. destruct (visit d g) eqn:V; [|discriminate]. intros [= _ _ <-]. now apply (visit_delim d). }
    destruct (combined_match d w) as [w2|]; [|discriminate]. destruct (a_set a || _); [discriminate|]. destruct (visit d g) as [g2|] eqn:V; [|discriminate].
    destruct (arg_matches d w2); [|discriminate]. intros [= _ _ <-]. now apply (visit_delim d).
  - unfold multi_switch_process. destruct (g_ignore g); [discriminate|]. destruct (arg_matches d w).
    { destruct (in_int _); [|discriminate]. destruct (visit d g) eqn:V; [|discriminate]. intros [= _ _ <-]. now apply (visit_delim d). }
    destruct (combined_match d w) as [w2|]; [|discriminate]. destruct (_ || _); [discriminate|]. destruct (visit d g); discriminate.
  - unfold labelled_process. destruct (g_ignore g); [discriminate|]. destruct (has_blanks w); [discriminate|]. destruct (trim_flag _ w) as [f v].
    destruct (arg_matches d f); [|discriminate]. destruct (_ && _); [discriminate|]. destruct (_ && _); [discriminate|]. destruct (seqb v []); [destruct rest; [discriminate|]|];
    (destruct (value_extract _ _ _ _); [discriminate|]; destruct (visit d g) eqn:V; [|discriminate]; intros [= _ _ <-]; now apply (visit_delim d)).
  - unfold labelled_process. destruct (g_ignore g); [discriminate|]. destruct (has_blanks w); [discriminate|]. destruct (trim_flag _ w) as [f v].
    destruct (arg_matches d f); [|discriminate]. cbn [negb andb]. destruct (_ && _); [discriminate|]. destruct (seqb v []); [destruct rest; [discriminate|]|];
    (destruct (multi_extract _ _ _ _) as [[]|]; [discriminate| |discriminate]; destruct (visit d g) eqn:V; [|discriminate]; intros [= _ _ <-]; now apply (visit_delim d)).
  - unfold uvalue_process. destruct (a_set a); [discriminate|]. destruct (has_blanks w); [discriminate|]. destruct (value_extract _ _ _ _); [discriminate|]. now intros [= _ _ <-].
  - unfold umulti_process. destruct (has_blanks w); [discriminate|]. destruct (multi_extract _ _ _ _) as [[]|]; [discriminate| |discriminate]. now intros [= _ _ <-].
Qed.

(** ** What is thrown *)

Lemma label_matches d s : arg_matches d s = true -> label d s.
Proof. intros M. apply arg_matches_iff in M. unfold label. tauto. Qed.

Lemma value_err t d a s e : value_extract t d a s = inl e ->
  match e with
  | EUnreadable => extract t s = XFail | ETooManyValues => extract t s = XMany
  | EConstraint => exists vs, d_allowed d = Some vs /\ ((exists y, reads t s y /\ ~ In y vs) \/ (t = TInt /\ s = []))
  | _ => False end.
Proof.
  unfold value_extract. destruct (extract t s) as [| |v] eqn:E; [now intros [= <-]..|]. destruct (forallb _ _) eqn:F; [discriminate|]. intros [= <-].
  destruct v as [v|].
  - cbn in F. rewrite andb_true_r in F. apply extract_some in E. unfold allowed in F. destruct (d_allowed d) as [vs|]; [|discriminate]. exists vs. split; [reflexivity|]. left. exists v. split; [exact E|].
    intros J. assert (X : existsb (veqb v) vs = true) by (apply existsb_exists; exists v; split; [exact J|now apply veqb_true]). congruence.
  - apply extract_none in E. destruct (d_allowed d) as [vs|] eqn:A; [exists vs; auto|]. exfalso.
    assert (X : forallb (allowed d) (a_vals a) = true) by (apply forallb_forall; intros x _; unfold allowed; now rewrite A). congruence.
Qed.

Lemma multi_err t d a s e : multi_extract t d a s = Some (inl e) ->
  match e with
  | EUnreadable => extract t s = XFail | ETooManyValues => extract t s = XMany
  | EConstraint => exists vs, d_allowed d = Some vs /\ ((exists y, reads t s y /\ ~ In y vs) \/ (t = TInt /\ s = []))
  | _ => False end.
Proof.
  unfold multi_extract. destruct (extract t s) as [| |[v|]] eqn:E; [now intros [= <-]..| |discriminate]. destruct (allowed d v) eqn:F; [discriminate|]. intros [= <-].
  apply extract_some in E. unfold allowed in F. destruct (d_allowed d) as [vs|]; [|discriminate]. exists vs. split; [reflexivity|]. left. exists v. split; [exact E|].
  intros J. assert (X : existsb (veqb v) vs = true) by (apply existsb_exists; exists v; split; [exact J|now apply veqb_true]). congruence.
Qed.

Lemma not_read t s : extract t s = XFail \/ extract t s = XMany -> s <> [] /\ forall y, ~ reads t s y.
Proof.
  intros H. split.
  - intros ->. destruct t; cbn in H; destruct H; discriminate.
  - intros y R. apply extract_some in R. destruct H; congruence.
Qed.

Lemma value_explains p delim ws i d t v e : In (i, d) (p_args p) -> of_type d t -> typed delim ws v ->
  match e with
  | EUnreadable => extract t v = XFail | ETooManyValues => extract t v = XMany
  | EConstraint => exists vs, d_allowed d = Some vs /\ ((exists y, reads t v y /\ ~ In y vs) \/ (t = TInt /\ v = []))
  | _ => False end -> exists x, arg_exn d v e = Some x /\ explains p delim ws e x.
Proof.
  intros I K T. destruct e; try (intros []; fail); intros H; (eexists; split; [reflexivity|]); cbn [explains].
  - split; [reflexivity|]. exists i, d. split; [exact I|split; [apply called_is|]]. exists t, v. split; [exact K|split; [exact T|split; [reflexivity|apply not_read; auto]]].
  - split; [reflexivity|]. exists i, d. split; [exact I|split; [apply called_is|]]. exists t, v. split; [exact K|split; [exact T|split; [reflexivity|apply not_read; auto]]].
  - destruct H as (vs & A & H). split; [reflexivity|]. exists i, d. split; [exact I|split; [apply called_is|]]. exists t, v, vs. split; [exact K|split; [exact T|split; [exact A|split; [|exact H]]]].
    unfold type_desc. rewrite A, barred_is. reflexivity.
Qed.

Lemma process_err p g i d a w0 w rest e : In (i, d) (p_args p) -> dimmed (p_args p) w0 w -> process g d a w rest = PErr e ->
  exists x, arg_exn d (value_text g d w rest) e = Some x /\ explains p (g_delim g) (w0 :: rest) e x.
Proof.
  intros I D. unfold process, value_text. destruct (d_kind d) eqn:K; cbn [unlabelled].
  - assert (M : arg_matches d w = true -> mentions d w0).
    { intros M. destruct D as [F [->|(c & t & u & -> & C & ->)]]; [left; now apply label_matches|]. right. exists (c :: t). split; [reflexivity|].
      apply label_matches in M. inversion F as [|? ? ? ? _ F1]; subst. destruct M as [([= ->] & N)|[= ->]].
      - unfold letter. destruct (d_flag d) as [|f fl]; [congruence|]. cbn [hd]. apply (dims_in (p_args p) (c :: t) (f :: fl)); auto. now left.
      - exfalso. inversion F1 as [|? ? ? ? Q _]; subst. destruct Q as [Q|(Q & _)]; [now apply C|discriminate]. }
    assert (M2 : forall w1, combined_match d w = Some w1 -> mentions d w0).
    { intros w1 C. destruct (combined_dashed _ _ _ C) as (c & t & s & -> & N & -> & B). right. destruct D as [F H].
      assert (exists t0, w0 = 45 :: t0) as (t0 & ->) by (destruct H as [<-|(? & ? & ? & -> & _)]; eauto). exists t0. split; [reflexivity|]. inversion F; subst.
      assert (J : In (letter d) (c :: t)).
      { clear - B. revert s B. induction (c :: t) as [|x l IH]; intros s B; [discriminate|]. cbn in B. destruct (Z.eqb_spec x (letter d)); [now left|].
        destruct (blank_first (letter d) l) eqn:E; [|discriminate]. right. now apply (IH _ eq_refl). }
      now apply (dims_in (p_args p) t0 (c :: t)). }
    assert (W : mentions d w0 -> e = EAlreadySet -> exists x, arg_exn d (let '(_, value) := trim_flag (g_delim g) w in if seqb value [] then hd [] rest else value) e = Some x /\ explains p (g_delim g) (w0 :: rest) e x).
    { intros X ->. eexists. split; [reflexivity|]. cbn [explains]. split; [reflexivity|split; [reflexivity|]]. exists i, d. split; [exact I|split; [apply called_is|]].
      left. split; [exact K|]. exists w0. split; [now left|exact X]. }
    unfold switch_process. destruct (g_ignore g); [discriminate|]. destruct (arg_matches d w) eqn:A.
    { destruct (a_set a); [|destruct (visit d g); discriminate]. intros [= <-]. auto. }
    destruct (combined_match d w) as [w2|] eqn:C; [|discriminate]. destruct (a_set a || _); [intros [= <-]; eauto|]. destruct (visit d g); [destruct (arg_matches d w2)|]; discriminate.
  - unfold multi_switch_process. destruct (g_ignore g); [discriminate|]. destruct (arg_matches d w).
    { destruct (in_int _); [|discriminate]. destruct (visit d g); discriminate. }
    destruct (combined_match d w) as [w2|]; [|discriminate]. destruct (_ || _); [discriminate|]. destruct (visit d g); discriminate.
  - unfold labelled_process. destruct (g_ignore g); [discriminate|]. destruct (has_blanks w) eqn:HB; [discriminate|]. rewrite (dimmed_plain _ _ _ D HB) in *. clear HB D.
    destruct (trim_flag (g_delim g) w0) as [f v] eqn:TF. apply trim_inv in TF. destruct (arg_matches d f) eqn:A; [|discriminate]. apply label_matches in A. cbn [negb andb].
    destruct (a_set a).
    { intros [= <-]. eexists. split; [reflexivity|]. split; [reflexivity|split; [reflexivity|]]. exists i, d. split; [exact I|split; [apply called_is|]]. right. exists t, w0. split; [exact K|].
      split; [now left|]. exists f. split; [exact A|]. destruct TF as [(-> & _)| ->]; eauto. }
    destruct (Z.eqb_spec (g_delim g) c_space) as [GD|GD]; cbn [negb andb].
    2: destruct (seqb v []) eqn:V.
    2: { intros [= <-]. apply seqb_true in V. subst v. eexists. split; [reflexivity|]. split; [reflexivity|split; [reflexivity|split; [exact GD|]]]. exists i, d.
         split; [exact I|split; [apply called_is|]]. split; [exists t; now left|]. exists w0. split; [now left|]. destruct TF as [(-> & _)| ->]; eauto. }
    + destruct (seqb v []) eqn:V.
      * apply seqb_true in V. subst v. destruct rest as [|s rest].
        { intros [= <-]. eexists. split; [reflexivity|]. split; [reflexivity|split; [reflexivity|split; [exact GD|]]]. exists i, d.
          split; [exact I|split; [apply called_is|]]. split; [exists t; now left|]. exists [], w0. split; [reflexivity|]. destruct TF as [(-> & _)| ->]; eauto. }
        destruct (value_extract t d a s) as [e'|] eqn:E; [|destruct (visit d g); discriminate]. intros [= <-]. cbn [hd].
        apply (value_explains p _ _ i d t); auto; [now left|exists s; split; [right; now left|now left]|now apply (value_err _ _ a)].
      * apply seqb_false in V. destruct TF as [(_ & ->)| ->]; [congruence|].
        destruct (value_extract t d a v) as [e'|] eqn:E; [|destruct (visit d g); discriminate]. intros [= <-].
        apply (value_explains p _ _ i d t); auto; [now left|exists (f ++ g_delim g :: v); split; [now left|right; now exists f]|now apply (value_err _ _ a)].
    + apply seqb_false in V. destruct TF as [(_ & ->)| ->]; [congruence|].
      destruct (value_extract t d a v) as [e'|] eqn:E; [|destruct (visit d g); discriminate]. intros [= <-].
      apply (value_explains p _ _ i d t); auto; [now left|exists (f ++ g_delim g :: v); split; [now left|right; now exists f]|now apply (value_err _ _ a)].
  - unfold labelled_process. destruct (g_ignore g); [discriminate|]. destruct (has_blanks w) eqn:HB; [discriminate|]. rewrite (dimmed_plain _ _ _ D HB) in *. clear HB D.
    destruct (trim_flag (g_delim g) w0) as [f v] eqn:TF. apply trim_inv in TF. destruct (arg_matches d f) eqn:A; [|discriminate]. apply label_matches in A. cbn [negb andb].
    destruct (Z.eqb_spec (g_delim g) c_space) as [GD|GD]; cbn [negb andb].
    2: destruct (seqb v []) eqn:V.
    2: { intros [= <-]. apply seqb_true in V. subst v. eexists. split; [reflexivity|]. split; [reflexivity|split; [reflexivity|split; [exact GD|]]]. exists i, d.
         split; [exact I|split; [apply called_is|]]. split; [exists t; now right|]. exists w0. split; [now left|]. destruct TF as [(-> & _)| ->]; eauto. }
    + destruct (seqb v []) eqn:V.
      * apply seqb_true in V. subst v. destruct rest as [|s rest].
        { intros [= <-]. eexists. split; [reflexivity|]. split; [reflexivity|split; [reflexivity|split; [exact GD|]]]. exists i, d.
          split; [exact I|split; [apply called_is|]]. split; [exists t; now right|]. exists [], w0. split; [reflexivity|]. destruct TF as [(-> & _)| ->]; eauto. }
        destruct (multi_extract t d a s) as [[e'|]|] eqn:E; [|destruct (visit d g); discriminate|discriminate]. intros [= <-]. cbn [hd].
        apply (value_explains p _ _ i d t); auto; [right; now left|exists s; split; [right; now left|now left]|now apply (multi_err _ _ a)].
      * apply seqb_false in V. destruct TF as [(_ & ->)| ->]; [congruence|].
        destruct (multi_extract t d a v) as [[e'|]|] eqn:E; [|destruct (visit d g); discriminate|discriminate]. intros [= <-].
        apply (value_explains p _ _ i d t); auto; [right; now left|exists (f ++ g_delim g :: v); split; [now left|right; now exists f]|now apply (multi_err _ _ a)].
    + apply seqb_false in V. destruct TF as [(_ & ->)| ->]; [congruence|].
      destruct (multi_extract t d a v) as [[e'|]|] eqn:E; [|destruct (visit d g); discriminate|discriminate]. intros [= <-].
      apply (value_explains p _ _ i d t); auto; [right; now left|exists (f ++ g_delim g :: v); split; [now left|right; now exists f]|now apply (multi_err _ _ a)].
  - unfold uvalue_process. destruct (a_set a); [discriminate|]. destruct (has_blanks w) eqn:HB; [discriminate|]. rewrite (dimmed_plain _ _ _ D HB) in *. destruct (value_extract t d a w0) eqn:E; [|discriminate].
    intros [= <-]. apply (value_explains p _ _ i d t); auto; [right; right; now left|exists w0; split; [now left|now left]|now apply (value_err _ _ a)].
  - unfold umulti_process. destruct (has_blanks w) eqn:HB; [discriminate|]. rewrite (dimmed_plain _ _ _ D HB) in *. destruct (multi_extract t d a w0) as [[]|] eqn:E; try discriminate.
    intros [= <-]. apply (value_explains p _ _ i d t); auto; [right; right; now right|exists w0; split; [now left|now left]|now apply (multi_err _ _ a)].
Qed.

Lemma scan_explains p w0 rest : forall l g h w, incl l (p_args p) -> dimmed (p_args p) w0 w ->
  match scan (p_xor p) l g h w rest with
  | SErr e => exists x, scan_exn l g h w rest = Some x /\ explains p (g_delim g) (w0 :: rest) e x
  | SNone w' _ g' => dimmed (p_args p) w0 w' /\ g_delim g' = g_delim g
  | SMatch _ _ g' _ => g_delim g' = g_delim g
  | _ => True
  end.
Proof.
  induction l as [|(i, d) l IH]; intros g h w L D; cbn [scan scan_exn]; [auto|].
  assert (I : In (i, d) (p_args p)) by (apply L; now left).
  destruct (process g d (h i) w rest) as [w' a' g'|took a' g'|e| |] eqn:P; auto.
  - destruct (process_no _ _ _ _ _ _ _ _ _ _ _ I D P) as (D' & G). rewrite <- G. apply IH; auto. intros y Y. apply L. now right.
  - destruct (xor_check (p_xor p) (hset h i a') i d). now apply (process_yes _ _ _ _ _ _ _ _ P).
  - now apply (process_err p g i d (h i) w0 w rest).
Qed.

Lemma scan_quiet_exn xs rest : forall l g h w, match scan xs l g h w rest with SErr _ => True | _ => scan_exn l g h w rest = None end.
Proof.
  induction l as [|(i, d) l IH]; intros g h w; cbn [scan scan_exn]; [auto|].
  destruct (process g d (h i) w rest) as [w' a' g'|took a' g'|e| |]; auto; [apply IH|now destruct (xor_check xs (hset h i a') i d)].
Qed.

Lemma loop_explains p : forall n ws g h k, (List.length ws <= n)%nat ->
  match parse_loop p g h k ws with
  | Failed e => exists x, parse_exn p g h k ws = Some x /\ explains p (g_delim g) ws e x
  | _ => parse_exn p g h k ws = None
  end.
Proof.
  induction n as [|n IH]; intros ws g h k L.
  - destruct ws; [|cbn in L; lia]. cbn [parse_loop parse_exn]. destruct (k <? p_num p); [|destruct (p_num p <? k)]; auto; eexists; split; try reflexivity; repeat split.
  - destruct ws as [|w rest].
    { cbn [parse_loop parse_exn]. destruct (k <? p_num p); [|destruct (p_num p <? k)]; auto; eexists; split; try reflexivity; repeat split. }
    cbn [parse_loop parse_exn]. cbn in L.
    pose proof (scan_explains p w rest (p_args p) g h w (incl_refl _) (conj (dims_refl _ _) (or_introl eq_refl))) as S.
    pose proof (scan_quiet_exn (p_xor p) rest (p_args p) g h w) as Q.
    assert (M : forall r k', (exists e x, k' = Some x /\ r = Failed e /\ explains p (g_delim g) rest e x) -> match r with Failed e => exists x, k' = Some x /\ explains p (g_delim g) (w :: rest) e x | _ => k' = None end).
    { intros r k' (e & x & -> & -> & X). exists x. split; [reflexivity|now apply explains_more]. }
    destruct (scan (p_xor p) (p_args p) g h w rest) as [took h' g' m|w' h' g'|e| |]; auto.
    + destruct took; [destruct rest as [|s rest]; [auto|]|].
      * cbn in L. specialize (IH rest g' h' (k + m) ltac:(lia)). rewrite S in IH. destruct (parse_loop p g' h' (k + m) rest); auto.
        destruct IH as (x & E & X). exists x. split; [exact E|]. now do 2 apply explains_more.
      * specialize (IH rest g' h' (k + m) ltac:(lia)). rewrite S in IH. destruct (parse_loop p g' h' (k + m) rest); auto.
        destruct IH as (x & E & X). exists x. split; [exact E|]. now apply explains_more.
    + destruct S as (D & G). specialize (IH rest g' h' k ltac:(lia)). rewrite G in IH.
      destruct (empty_combined w'); [|destruct (g_ignore g')]; cbn [orb].
      1, 2: destruct (parse_loop p g' h' k rest); auto; destruct IH as (x & E & X); exists x; split; [exact E|now apply explains_more].
      eexists. split; [reflexivity|]. split; [reflexivity|split; [reflexivity|]]. exists w. split; [now left|exact D].
Qed.
