(** Exclusive groups of command line arguments: an accepted command line picks exactly one member of every
    group. *)
From Coq Require Import ZArith List Bool Lia.
From Verif Require Import Base Numerals CmdModel CmdProofs.
Import ListNotations.
Local Open Scope Z_scope.

(** * The groups made by a sequence of declarations *)

Lemma ids_from_nodup n : forall i, NoDup (ids_from i n).
Proof.
  induction n as [|n IH]; intros i; cbn [ids_from]; constructor; auto.
  rewrite ids_from_in. lia.
Qed.

Lemma combine_ids (ds : list decl) : forall i k, In k (ids_from i (length ds)) ->
  exists d, In (k, d) (combine (ids_from i (length ds)) ds).
Proof.
  induction ds as [|d ds IH]; intros i k I; cbn [length ids_from combine In] in *; [easy|].
  destruct I as [<-|I]; [exists d; now left|]. destruct (IH _ _ I) as (d' & J). exists d'. now right.
Qed.

Lemma groups_spec cs : forall i grp, In grp (groups i cs) ->
  exists ds j, In (DXor ds) cs /\ grp = ids_from j (length ds) /\ i <= j
    /\ (forall x, In x (combine (ids_from j (length ds)) ds) -> In x (numbered i cs)).
Proof.
  induction cs as [|c cs IH]; intros i grp I; cbn [groups] in I; [easy|].
  apply in_app_iff in I as [I|I].
  - destruct c as [d|ds]; cbn [dcl_group] in I; [easy|]. destruct I as [<-|[]].
    exists ds, i. split; [now left|]. split; [easy|]. split; [lia|]. intros x J. cbn [numbered dcl_decls].
    apply in_app_iff. now left.
  - destruct (IH _ _ I) as (ds & j & A & B & C & D). exists ds, j. split; [now right|]. split; [auto|].
    pose proof (Zlen_nonneg (dcl_decls c)). split; [lia|]. intros x J. cbn [numbered]. apply in_app_iff. right. auto.
Qed.

Lemma groups_low cs : forall i grp k, In grp (groups i cs) -> In k grp -> i <= k.
Proof.
  intros i grp k I K. destruct (groups_spec _ _ _ I) as (ds & j & _ & -> & L & _). apply ids_from_in in K. lia.
Qed.

Lemma groups_disjoint cs : forall i grp grp' k, In grp (groups i cs) -> In grp' (groups i cs) ->
  In k grp -> In k grp' -> grp = grp'.
Proof.
  induction cs as [|c cs IH]; intros i grp grp' k I J K K'; cbn [groups] in *; [easy|].
  apply in_app_iff in I, J.
  assert (LO : forall gg, In gg (dcl_group i c) -> In k gg -> k < i + Zlen (dcl_decls c)).
  { intros gg G Q. destruct c as [d|ds]; cbn [dcl_group dcl_decls] in *; [easy|]. destruct G as [<-|[]].
    apply ids_from_in in Q. unfold Zlen. lia. }
  assert (HI : forall gg, In gg (groups (i + Zlen (dcl_decls c)) cs) -> In k gg -> i + Zlen (dcl_decls c) <= k).
  { intros gg G Q. eapply groups_low; eauto. }
  destruct I as [I|I], J as [J|J].
  - destruct c as [d|ds]; cbn [dcl_group] in *; [easy|]. destruct I as [<-|[]], J as [<-|[]]. easy.
  - specialize (LO _ I K). specialize (HI _ J K'). lia.
  - specialize (LO _ J K'). specialize (HI _ I K). lia.
  - eapply IH; eauto.
Qed.

(** * The invariant of a parse *)

Definition group_kind (k : kind) : Prop :=
  match k with KSwitch | KValue _ | KUValue _ => True | _ => False end.

(** What the parser must know about its groups. *)
Record groups_ok (p : parser) : Prop := mkGO {
  go_uniq : forall g1 g2 k, In g1 (p_xor p) -> In g2 (p_xor p) -> In k g1 -> In k g2 -> g1 = g2;
  go_nodup : forall g1, In g1 (p_xor p) -> NoDup g1;
  go_args : forall g1 k, In g1 (p_xor p) -> In k g1 -> exists d, In (k, d) (p_args p);
  go_kind : forall g1 k d, In g1 (p_xor p) -> In k g1 -> In (k, d) (p_args p) -> group_kind (d_kind d)
}.

Lemma grouped_true p i : grouped p i = true <-> exists g1, In g1 (p_xor p) /\ In i g1.
Proof.
  unfold grouped. rewrite existsb_exists. split; intros (g1 & A & B); exists g1; split; auto; now apply mem_true.
Qed.

Lemma build_groups g delim help cs g' p h : build g delim help cs = Ok (g', p, h) ->
  (forall ds d, In (DXor ds) cs -> In d ds -> group_kind (d_kind d)) -> groups_ok p.
Proof.
  intros B K. destruct (build_wf _ _ _ _ _ _ _ B) as (W & X & A & _).
  assert (DX : forall ds, In (DXor ds) (all_dcls help cs) -> In (DXor ds) cs).
  { intros ds I. unfold all_dcls in I. destruct help; cbn [app In] in I; intuition discriminate. }
  constructor; intros; rewrite X in *.
  - eapply groups_disjoint; eauto.
  - destruct (groups_spec _ _ _ H) as (ds & j & _ & -> & _). apply ids_from_nodup.
  - destruct (groups_spec _ _ _ H) as (ds & j & _ & -> & _ & Q). destruct (combine_ids _ _ _ H0) as (d & J).
    exists d. now apply A, Q.
  - destruct (groups_spec _ _ _ H) as (ds & j & I & -> & _ & Q). destruct (combine_ids _ _ _ H0) as (d' & J).
    assert (d = d') by (eapply in_split_uniq; [apply (wf_ids _ _ W)|eauto|now apply A, Q]). subst d'.
    apply in_combine_r in J. eapply K; eauto.
Qed.

Definition untouched (d : decl) (a : dyn) : Prop :=
  a_on a = d_on d /\ a_count a = d_count d /\ a_vals a = a_vals (fresh d).
Definition idle (d : decl) (a : dyn) : Prop := a_set a = false /\ a_xor a = false /\ untouched d a.
Definition barred (d : decl) (a : dyn) : Prop := a_set a = true /\ a_xor a = true /\ untouched d a.
Definition picked (a : dyn) : Prop := a_set a = true /\ a_xor a = false.

Definition have (d : decl) (a : dyn) : bool :=
  a_req (fresh d) && (if is_multi (d_kind d) then 0 <? Zlen (a_vals a) else a_set a).
Definition counted (p : parser) (h : heap) (x : Z * decl) : bool :=
  if grouped p (fst x) then a_set (h (fst x)) else have (snd x) (h (fst x)).
Definition total (p : parser) (h : heap) : Z := Zlen (filter (counted p h) (p_args p)).

Record inv (p : parser) (h : heap) (n : Z) : Prop := mkInv {
  in_req : forall i d, In (i, d) (p_args p) -> grouped p i = false -> a_req (h i) = a_req (fresh d);
  in_grp : forall g1, In g1 (p_xor p) ->
    (forall i d, In (i, d) (p_args p) -> In i g1 -> idle d (h i))
    \/ (exists k, In k g1 /\ picked (h k)
        /\ forall i d, In (i, d) (p_args p) -> In i g1 -> i <> k -> barred d (h i));
  in_num : n = total p h
}.

(** Words in which no switch of a group can be part of a combination. *)
Definition clear_word (p : parser) (w : str) : Prop :=
  ~ In 0 w /\ forall c t, w = 45 :: c :: t -> c <> 45 -> t <> [] ->
    forall i d f, In (i, d) (p_args p) -> grouped p i = true -> d_kind d = KSwitch -> In f (d_flag d) -> ~ In f (c :: t).

Lemma blank_first_sub c s s1 x : blank_first c s = Some s1 -> In x s1 -> x = 42 \/ In x s.
Proof.
  revert s1. induction s as [|y s IH]; intros s1 E I; cbn [blank_first] in E; [discriminate|].
  destruct (y =? c).
  - injection E as <-. destruct I as [<-|I]; [now left|]. right. now right.
  - destruct (blank_first c s) as [t|]; [|discriminate]. injection E as <-.
    destruct I as [<-|I]; [right; now left|]. destruct (IH _ eq_refl I); [auto|right; now right].
Qed.

(** In a word of two characters a combination is a match. *)
Lemma combined_short d c w' : c <> 0 -> ctor_ok (d_flag d) (d_name d) = true -> arg_matches d [45; c] = false ->
  combined_match d [45; c] = Some w' -> False.
Proof.
  intros N C M E. assert (Q : combined_match d [45; c] = None); [|congruence].
  destruct (Z.eq_dec c 45) as [->|]; [reflexivity|]. apply simple_no_comb; auto.
  intros [Q|[Q|[]]]; lia.
Qed.

Lemma clear_blank p d w w1 : clear_word p w -> ctor_ok (d_flag d) (d_name d) = true ->
  arg_matches d w = false -> combined_match d w = Some w1 ->
  (forall i d f, In (i, d) (p_args p) -> grouped p i = true -> d_kind d = KSwitch -> In f (d_flag d) -> f <> 42) ->
  clear_word p w1 /\ clear_word p (c_dash :: blank_all (flag_char d) (tl w)).
Proof.
  intros (N0 & CL) C M E F42.
  assert (S : exists c t, w = 45 :: c :: t /\ c <> 45 /\ t <> []).
  { unfold combined_match, c_dash in E. destruct w as [|c0 t]; [discriminate|]. destruct (Z.eqb_spec c0 45); [|discriminate].
    subst c0. cbn [negb] in E. destruct t as [|c t]; [discriminate|]. destruct (Z.eqb_spec c 45); [discriminate|].
    exists c, t. split; [auto|]. split; [auto|]. intros ->.
    apply (combined_short d c w1); auto. { intros ->. apply N0. right. now left. }
    unfold combined_match, c_dash. cbn [negb Z.eqb Pos.eqb]. destruct (Z.eqb_spec c 45); [lia|]. exact E. }
  destruct S as (c & t & -> & NC & NT).
  assert (GEN : forall u, (forall x, In x u -> x = 42 \/ In x (c :: t)) -> clear_word p (45 :: u)).
  { intros u U. split.
    - intros [Q|Q]; [lia|]. apply U in Q as [Q|Q]; [lia|]. apply N0. now right.
    - intros c' t' Q _ _ i d' f I G K J Z. injection Q as ->. apply U in Z as [Z|Z].
      + subst f. eapply F42; eauto.
      + eapply (CL c t eq_refl NC NT); eauto. }
  split.
  - unfold combined_match, c_dash in E. change (negb (45 =? 45)) with false in E. cbn iota in E.
    destruct (Z.eqb_spec c 45); [lia|]. destruct (blank_first (flag_char d) (c :: t)) as [u|] eqn:B; [|discriminate].
    injection E as <-. apply GEN. intros x J. eapply blank_first_sub; eauto.
  - apply GEN. intros x J. unfold blank_all in J. cbn [tl] in J. apply in_map_iff in J as (y & Q & J).
    destruct (y =? flag_char d); [left; now symmetry|right; now subst].
Qed.

(** ** Words that no argument accepts as a whole *)

Lemma no_case p h0 n g h w rest i d w' a g' : wf p h0 -> groups_ok p ->
  (forall i d f, In (i, d) (p_args p) -> grouped p i = true -> d_kind d = KSwitch -> In f (d_flag d) -> f <> 42) ->
  inv p h n -> clear_word p w -> In (i, d) (p_args p) ->
  process g d (h i) w rest = PNo w' a g' -> inv p (hset h i a) n /\ clear_word p w'.
Proof.
  intros W GO F42 IV CW I P.
  destruct (wf_ctor _ _ W _ _ I) as [C _].
  assert (SAME : w' = w -> a = h i -> inv p (hset h i a) n /\ clear_word p w').
  { intros -> ->. split; auto. assert (HE : forall j, hset h i (h i) j = h j).
    { intros j. destruct (Z.eq_dec j i) as [->|]; [apply hset_same|now apply hset_other]. }
    destruct IV as [A B D]. constructor.
    - intros j d' J G. rewrite HE. auto.
    - intros g1 J. destruct (B g1 J) as [Q|(k & K1 & K2 & K3)]; [left|right].
      + intros j d' JJ K. rewrite HE. auto.
      + exists k. rewrite HE. split; [auto|]. split; [auto|]. intros j d' JJ K NK. rewrite HE. auto.
    - rewrite D. unfold total. apply Zlen_filter_ext. intros [j d'] J. unfold counted. cbn [fst snd]. now rewrite HE. }
  assert (CHG : is_switch (d_kind d) = true -> grouped p i = false -> a_req a = a_req (h i) ->
     inv p (hset h i a) n).
  { intros S G R. destruct IV as [A B D]. constructor.
    - intros j d' J GJ. destruct (Z.eq_dec j i) as [->|NJ]; [|rewrite hset_other by auto; auto].
      rewrite hset_same, R. auto.
    - assert (NG : forall g1 j, In g1 (p_xor p) -> In j g1 -> j <> i).
      { intros g1 j J K ->. assert (grouped p i = true) by (apply grouped_true; eauto). congruence. }
      intros g1 J. destruct (B g1 J) as [Q|(k & K1 & K2 & K3)]; [left|right].
      + intros j d' JJ K. rewrite hset_other by eauto. auto.
      + exists k. rewrite hset_other by eauto. split; [auto|]. split; [auto|]. intros j d' JJ K NK. rewrite hset_other by eauto. auto.
    - rewrite D. unfold total. apply Zlen_filter_ext. intros [j d'] J. unfold counted. cbn [fst snd].
      destruct (Z.eq_dec j i) as [->|NJ]; [|now rewrite hset_other by auto].
      rewrite G, hset_same. assert (d' = d) by (eapply in_split_uniq; eauto; apply (wf_ids _ _ W)). subst d'.
      unfold have. assert (a_req (fresh d) = false) as -> by (unfold fresh; cbn [a_req]; destruct (d_kind d); try discriminate; easy).
      reflexivity. }
  unfold process in P. destruct (d_kind d) eqn:K.
  - unfold switch_process in P. destruct (g_ignore g); [injection P as <- <- <-; auto|].
    destruct (arg_matches d w) eqn:M. { destruct (a_set (h i)); [discriminate|]. destruct (visit d g); discriminate. }
    destruct (combined_match d w) as [w1|] eqn:E; [|injection P as <- <- <-; auto].
    destruct (clear_blank p d w w1 CW C M E F42) as [CW1 _].
    destruct (a_set (h i) || _); [discriminate|]. destruct (visit d g) as [g1|]; [|discriminate].
    destruct (arg_matches d w1); [discriminate|]. injection P as <- <- <-. split; auto. apply CHG; auto.
    destruct (grouped p i) eqn:G; auto. exfalso.
    unfold combined_match, c_dash in E. destruct w as [|c0 t]; [discriminate|]. destruct (Z.eqb_spec c0 45); [|discriminate].
    subst c0. cbn [negb] in E. destruct t as [|c t]; [discriminate|]. destruct (Z.eqb_spec c 45); [discriminate|].
    destruct (blank_first (flag_char d) (c :: t)) as [u|] eqn:B; [|discriminate].
    assert (JF : In (flag_char d) (c :: t)).
    { destruct (in_dec Z.eq_dec (flag_char d) (c :: t)); auto. rewrite blank_first_none in B by auto. discriminate. }
    destruct CW as [N0 CL]. unfold flag_char in JF. destruct (d_flag d) as [|f fl] eqn:F; [apply N0; now right|].
    destruct t as [|c' t].
    + destruct JF as [->|[]]. apply arg_matches_false in M. apply M. left. unfold flag_word. rewrite F.
      destruct (flag_one f fl C) as (x & X) || destruct (flag_one _ _ C) as (x & X); [discriminate|].
      try rewrite F in X. injection X as -> ->. split; [reflexivity|discriminate].
    + eapply (CL c (c' :: t) eq_refl ltac:(auto) ltac:(discriminate) i d f); eauto. rewrite F. now left.
  - assert (G : grouped p i = false).
    { destruct (grouped p i) eqn:G; auto. apply grouped_true in G as (g1 & A & B).
      pose proof (go_kind _ GO _ _ _ A B I) as Q. rewrite K in Q. destruct Q. }
    unfold multi_switch_process in P. destruct (g_ignore g); [injection P as <- <- <-; auto|].
    destruct (arg_matches d w) eqn:M. { destruct (in_int _); [|discriminate]. destruct (visit d g); discriminate. }
    destruct (combined_match d w) as [w1|] eqn:E; [|injection P as <- <- <-; auto].
    destruct (clear_blank p d w w1 CW C M E F42) as [_ CW1].
    destruct (_ || _); [discriminate|]. destruct (visit d g); [|discriminate]. injection P as <- <- <-. split; auto.
  - unfold labelled_process in P. destruct (g_ignore g); [injection P as <- <- <-; auto|].
    destruct (has_blanks w); [injection P as <- <- <-; auto|]. destruct (trim_flag (g_delim g) w) as [f v].
    destruct (arg_matches d f); [|injection P as <- <- <-; auto]. cbn [negb andb] in P.
    destruct (a_set (h i)); [discriminate|]. destruct (negb _ && _); [discriminate|].
    destruct (seqb v []); [destruct rest; [discriminate|]|]; destruct (value_extract t d (h i) _); try discriminate; destruct (visit d g); discriminate.
  - unfold labelled_process in P. destruct (g_ignore g); [injection P as <- <- <-; auto|].
    destruct (has_blanks w); [injection P as <- <- <-; auto|]. destruct (trim_flag (g_delim g) w) as [f v].
    destruct (arg_matches d f); [|injection P as <- <- <-; auto]. cbn [negb andb] in P.
    destruct (negb _ && _); [discriminate|].
    destruct (seqb v []); [destruct rest; [discriminate|]|]; destruct (multi_extract t d (h i) _) as [[|]|]; try discriminate; destruct (visit d g); discriminate.
  - unfold uvalue_process in P. destruct (a_set (h i)); [injection P as <- <- <-; auto|].
    destruct (has_blanks w); [injection P as <- <- <-; auto|]. destruct (value_extract t d (h i) w); discriminate.
  - unfold umulti_process in P. destruct (has_blanks w); [injection P as <- <- <-; auto|].
    destruct (multi_extract t d (h i) w) as [[|]|]; discriminate.
Qed.

(** ** Words that an argument accepts *)

(** What an accepted word does to the argument's own state. *)
Lemma yes_change p g d a w rest took a' g' i : In (i, d) (p_args p) -> ctor_ok (d_flag d) (d_name d) = true -> clear_word p w ->
  process g d a w rest = PYes took a' g' ->
  a_set a' = true /\ a_xor a' = a_xor a /\ a_req a' = a_req a
  /\ (group_kind (d_kind d) -> grouped p i = true -> a_set a = false)
  /\ (is_switch (d_kind d) = false -> is_multi (d_kind d) = false -> a_set a = false)
  /\ (is_multi (d_kind d) = true -> exists v, a_vals a' = a_vals a ++ [v]).
Proof.
  intros I C CW P. unfold process in P.
  assert (VE : forall t s x, value_extract t d a s = inr x -> a_set x = true /\ a_xor x = a_xor a /\ a_req x = a_req a).
  { intros t s x E. unfold value_extract in E. destruct (extract t s); try discriminate. destruct (forallb _ _); [|discriminate].
    injection E as <-. auto. }
  assert (ME : forall t s x, multi_extract t d a s = Some (inr x) -> a_set x = true /\ a_xor x = a_xor a /\ a_req x = a_req a
     /\ exists v, a_vals x = a_vals a ++ [v]).
  { intros t s x E. unfold multi_extract in E. destruct (extract t s) as [| |[v|]]; try discriminate. destruct (allowed d v); [|discriminate].
    injection E as <-. split; [auto|]. split; [auto|]. split; [auto|]. exists v. auto. }
  destruct (d_kind d) eqn:K; cbn [group_kind is_switch is_multi].
  - unfold switch_process in P. destruct (g_ignore g); [discriminate|]. destruct (arg_matches d w) eqn:M.
    + destruct (a_set a) eqn:AS; [discriminate|]. destruct (visit d g); [|discriminate]. injection P as <- <- <-.
      repeat split; auto; discriminate.
    + destruct (combined_match d w) as [w1|] eqn:E; [|discriminate]. destruct (a_set a || _) eqn:Q; [discriminate|]. apply orb_false_iff in Q as [Q _].
      destruct (visit d g); [|discriminate]. destruct (arg_matches d w1); [|discriminate]. injection P as <- <- <-.
      repeat split; auto; discriminate.
  - unfold multi_switch_process in P. destruct (g_ignore g); [discriminate|]. destruct (arg_matches d w) eqn:M.
    + destruct (in_int _); [|discriminate]. destruct (visit d g); [|discriminate]. injection P as <- <- <-.
      repeat split; auto; try discriminate. intros [].
    + destruct (combined_match d w) as [w1|] eqn:E; [|discriminate]. destruct (_ || _); [discriminate|]. destruct (visit d g); discriminate.
  - unfold labelled_process in P. destruct (g_ignore g); [discriminate|]. destruct (has_blanks w); [discriminate|].
    destruct (trim_flag (g_delim g) w) as [f v]. destruct (arg_matches d f); [|discriminate]. cbn [negb andb] in P.
    destruct (a_set a) eqn:AS; [discriminate|]. destruct (negb _ && _); [discriminate|].
    assert (Q : exists s, value_extract t d a s = inr a').
    { destruct (seqb v []); [destruct rest as [|s rest]; [discriminate|]|].
      - destruct (value_extract t d a s) as [|x] eqn:E; [discriminate|]. destruct (visit d g); [|discriminate]. injection P as <- <- <-. eauto.
      - destruct (value_extract t d a v) as [|x] eqn:E; [discriminate|]. destruct (visit d g); [|discriminate]. injection P as <- <- <-. eauto. }
    destruct Q as (s & Q). apply VE in Q as (? & ? & ?). repeat split; auto; discriminate.
  - unfold labelled_process in P. destruct (g_ignore g); [discriminate|]. destruct (has_blanks w); [discriminate|].
    destruct (trim_flag (g_delim g) w) as [f v]. destruct (arg_matches d f); [|discriminate]. cbn [negb andb] in P.
    destruct (negb _ && _); [discriminate|].
    assert (Q : exists s, multi_extract t d a s = Some (inr a')).
    { destruct (seqb v []); [destruct rest as [|s rest]; [discriminate|]|].
      - destruct (multi_extract t d a s) as [[|x]|] eqn:E; try discriminate. destruct (visit d g); [|discriminate]. injection P as <- <- <-. eauto.
      - destruct (multi_extract t d a v) as [[|x]|] eqn:E; try discriminate. destruct (visit d g); [|discriminate]. injection P as <- <- <-. eauto. }
    destruct Q as (s & Q). apply ME in Q as (? & ? & ? & ?). repeat split; auto; try discriminate. intros [].
  - unfold uvalue_process in P. destruct (a_set a) eqn:AS; [discriminate|]. destruct (has_blanks w); [discriminate|].
    destruct (value_extract t d a w) as [|x] eqn:E; [discriminate|]. injection P as <- <- <-.
    apply VE in E as (? & ? & ?). repeat split; auto; discriminate.
  - unfold umulti_process in P. destruct (has_blanks w); [discriminate|].
    destruct (multi_extract t d a w) as [[|x]|] eqn:E; try discriminate. injection P as <- <- <-.
    apply ME in E as (? & ? & ? & ?). repeat split; auto; try discriminate. intros [].
Qed.

Lemma members_count (args : list (Z * decl)) grp : NoDup (map fst args) -> NoDup grp ->
  (forall k, In k grp -> exists d, In (k, d) args) ->
  Zlen (filter (fun x => existsb (Z.eqb (fst x)) grp) args) = Zlen grp.
Proof.
  intros N. induction grp as [|k grp IH]; intros NG A.
  - assert (E : filter (fun x : Z * decl => existsb (Z.eqb (fst x)) []) args = []); [|now rewrite E].
    clear. induction args; auto.
  - inversion NG as [|? ? NK NG']; subst. rewrite Zlen_cons, <- IH by (auto; intros; apply A; now right). clear IH.
    destruct (A k ltac:(now left)) as (d & I). clear A NG.
    induction args as [|[j d'] args IH]; [easy|]. cbn [map fst] in N. inversion N as [|? ? N1 N2]; subst.
    cbn [filter existsb fst]. destruct I as [E|I].
    + injection E as -> ->. rewrite Z.eqb_refl. cbn [orb].
      assert (existsb (Z.eqb k) grp = false) as -> by now apply mem_false. rewrite Zlen_cons.
      assert (Q : Zlen (filter (fun x => (fst x =? k) || existsb (Z.eqb (fst x)) grp) args)
                  = Zlen (filter (fun x => existsb (Z.eqb (fst x)) grp) args)).
      { apply Zlen_filter_ext. intros [j d'] J. cbn [fst]. destruct (Z.eqb_spec j k); [|easy]. subst. elim N1.
        change k with (fst (k, d')). now apply in_map. }
      lia.
    + assert (JK : j <> k). { intros ->. apply N1. change k with (fst (k, d)). now apply in_map. }
      destruct (Z.eqb_spec j k); [lia|]. cbn [orb]. specialize (IH N2 I). cbn [existsb] in IH.
      destruct (existsb (Z.eqb j) grp); rewrite ?Zlen_cons; lia.
Qed.

Lemma count_or {A} (f m : A -> bool) l : (forall x, In x l -> m x = true -> f x = false) ->
  Zlen (filter (fun x => f x || m x) l) = Zlen (filter f l) + Zlen (filter m l).
Proof.
  induction l as [|x l IH]; intros D; [easy|]. cbn [filter]. specialize (IH (fun y I => D y (or_intror I))).
  specialize (D x ltac:(now left)). destruct (m x) eqn:M; [rewrite D by auto|]; destruct (f x); cbn [orb]; rewrite ?Zlen_cons; try lia.
Qed.

Lemma yes_case p h0 n g h h1 w rest took a g' i d h2 k : wf p h0 -> groups_ok p ->
  inv p h n -> clear_word p w -> In (i, d) (p_args p) -> (forall j, h1 j = h j) ->
  process g d (h i) w rest = PYes took a g' ->
  xor_check (p_xor p) (hset h1 i a) i d = (h2, k) -> inv p h2 (n + k).
Proof.
  intros W GO IV CW I HE P XC.
  destruct (wf_ctor _ _ W _ _ I) as [C _].
  destruct (yes_change p _ _ _ _ _ _ _ _ i I C CW P) as (A1 & A2 & A3 & A4 & A5 & A6).
  unfold xor_check in XC.
  destruct (find (existsb (Z.eqb i)) (p_xor p)) as [grp|] eqn:FD.
  - apply find_some in FD as [GI M]. apply mem_true in M.
    assert (G : grouped p i = true) by (apply grouped_true; eauto).
    assert (GK := go_kind _ GO _ _ _ GI M I).
    assert (NM : is_multi (d_kind d) = false) by (destruct (d_kind d); easy).
    specialize (A4 GK G).
    unfold allow_more in XC. rewrite NM in XC. injection XC as <- <-.
    destruct IV as [B1 B2 B3].
    assert (ID : forall j d', In (j, d') (p_args p) -> In j grp -> idle d' (h j)).
    { destruct (B2 grp GI) as [Q|(kk & K1 & [K2 K2'] & K3)]; auto. exfalso.
      destruct (Z.eq_dec i kk) as [->|NK]; [congruence|]. destruct (K3 i d I M NK) as [Q _]. congruence. }
    set (hh := hset _ i _).
    assert (HI : hh i = a).
    { unfold hh. rewrite hset_same. rewrite Z.eqb_refl, andb_false_r. now rewrite hset_same. }
    assert (HG : forall j, In j grp -> j <> i -> hh j = xor_set (h j)).
    { intros j J NJ. unfold hh. rewrite hset_other by auto. assert (existsb (Z.eqb j) grp = true) as -> by now apply mem_true.
      destruct (Z.eqb_spec j i); [lia|]. cbn [andb negb]. now rewrite hset_other, HE by auto. }
    assert (HO : forall j, ~ In j grp -> hh j = h j).
    { intros j J. assert (j <> i) by (intros ->; auto). unfold hh. rewrite hset_other by auto.
      assert (existsb (Z.eqb j) grp = false) as -> by now apply mem_false. cbn [andb]. now rewrite hset_other, HE by auto. }
    constructor.
    + intros j d' J GJ. rewrite HO; auto. intros Q. assert (grouped p j = true) by (apply grouped_true; eauto). congruence.
    + intros g1 J. destruct (list_eq_dec Z.eq_dec g1 grp) as [->|NG].
      * right. exists i. split; [auto|]. split.
        -- rewrite HI. split; [auto|]. rewrite A2. apply (ID i d); auto.
        -- intros j d' JJ JG NJ. rewrite HG by auto. destruct (ID j d' JJ JG) as (? & ? & U). repeat split; auto; apply U.
      * assert (DJ : forall j, In j g1 -> ~ In j grp).
        { intros j J1 J2. apply NG. eapply (go_uniq _ GO); eauto. }
        destruct (B2 g1 J) as [Q|(kk & K1 & K2 & K3)]; [left|right].
        -- intros j d' JJ K. rewrite HO by auto. auto.
        -- exists kk. rewrite HO by auto. split; [auto|]. split; [auto|]. intros j d' JJ K NK. rewrite HO by auto. auto.
    + rewrite B3. rewrite <- (members_count (p_args p) grp (wf_ids _ _ W) (go_nodup _ GO _ GI) (fun k K => go_args _ GO _ _ GI K)).
      unfold total. rewrite <- count_or.
      * apply Zlen_filter_ext. intros [j d'] J. unfold counted. cbn [fst snd].
        destruct (existsb (Z.eqb j) grp) eqn:MJ.
        -- apply mem_true in MJ. assert (grouped p j = true) as -> by (apply grouped_true; eauto).
           rewrite orb_true_r. symmetry. destruct (Z.eq_dec j i) as [->|NJ]; [now rewrite HI|]. now rewrite HG.
        -- apply mem_false in MJ. now rewrite HO, orb_false_r.
      * intros [j d'] J MJ. cbn [fst] in MJ. apply mem_true in MJ. unfold counted. cbn [fst snd].
        assert (grouped p j = true) as -> by (apply grouped_true; eauto). apply (ID j d'); auto.
  - assert (G : grouped p i = false).
    { destruct (grouped p i) eqn:G; auto. apply grouped_true in G as (g1 & Q1 & Q2).
      apply find_none with (x := g1) in FD; auto. apply mem_false in FD. tauto. }
    injection XC as <- <-. rewrite hset_same. destruct IV as [B1 B2 B3].
    assert (HO : forall j, j <> i -> hset h1 i a j = h j) by (intros; now rewrite hset_other, HE by auto).
    constructor.
    + intros j d' J GJ. destruct (Z.eq_dec j i) as [->|NJ]; [|rewrite HO by auto; auto].
      rewrite hset_same, A3. auto.
    + assert (NG : forall g1 j, In g1 (p_xor p) -> In j g1 -> j <> i).
      { intros g1 j J K ->. assert (grouped p i = true) by (apply grouped_true; eauto). congruence. }
      intros g1 J. destruct (B2 g1 J) as [Q|(kk & K1 & K2 & K3)]; [left|right].
      * intros j d' JJ K. rewrite HO by eauto. auto.
      * exists kk. rewrite HO by eauto. split; [auto|]. split; [auto|]. intros j d' JJ K NK. rewrite HO by eauto. auto.
    + rewrite B3. pose proof (B1 i d I G) as RQ.
      set (m := fun x : Z * decl => (fst x =? i) && is_required d a).
      assert (ML : Zlen (filter m (p_args p)) = if is_required d a then 1 else 0).
      { unfold m. destruct (is_required d a).
        - transitivity (Zlen (filter (fun x : Z * decl => existsb (Z.eqb (fst x)) [i]) (p_args p))).
          { apply Zlen_filter_ext. intros x _. cbn [existsb]. now rewrite orb_false_r, andb_true_r. }
          rewrite members_count; [reflexivity|apply (wf_ids _ _ W)|constructor; [easy|constructor]|].
          intros kk [<-|[]]. eauto.
        - assert (E : filter (fun x : Z * decl => (fst x =? i) && false) (p_args p) = []); [|now rewrite E].
          clear. induction (p_args p); cbn [filter]; auto. now rewrite andb_false_r. }
      assert (ON : counted p h (i, d) || is_required d a = counted p (hset h1 i a) (i, d)
                   /\ (is_required d a = true -> counted p h (i, d) = false)).
      { unfold counted. cbn [fst snd]. rewrite G, hset_same. unfold is_required, have. rewrite A3, RQ.
        destruct (a_req (fresh d)) eqn:RF; cbn [andb orb].
        2:{ destruct (is_multi (d_kind d)); split; auto. }
        destruct (is_multi (d_kind d)) eqn:MU.
        - destruct (A6 eq_refl) as (v & ->). rewrite Zlen_app, Zlen_cons. znil. pose proof (Zlen_nonneg (a_vals (h i))). split; lia.
        - assert (S : is_switch (d_kind d) = false).
          { unfold fresh in RF. cbn [a_req] in RF. destruct (d_kind d); try discriminate; easy. }
          rewrite (A5 S eq_refl), A1. auto. }
      rewrite <- ML. unfold total. rewrite <- count_or.
      * apply Zlen_filter_ext. intros [j d'] J. unfold m. cbn [fst].
        destruct (Z.eqb_spec j i) as [->|NJ]; cbn [andb].
        -- assert (d' = d) by (eapply in_split_uniq; eauto; apply (wf_ids _ _ W)). subst d'. apply ON.
        -- rewrite orb_false_r. unfold counted. cbn [fst snd]. now rewrite HO.
      * intros [j d'] J Q. unfold m in Q. cbn [fst] in Q. bsplit. apply Z.eqb_eq in H. subst j.
        assert (d' = d) by (eapply in_split_uniq; eauto; apply (wf_ids _ _ W)). subst d'. now apply ON.
Qed.

Lemma scan_inv p h0 n rest : wf p h0 -> groups_ok p ->
  (forall i d f, In (i, d) (p_args p) -> grouped p i = true -> d_kind d = KSwitch -> In f (d_flag d) -> f <> 42) ->
  forall l g h w, (forall x, In x l -> In x (p_args p)) -> inv p h n -> clear_word p w ->
  match scan (p_xor p) l g h w rest with
  | SMatch took h' g' k => inv p h' (n + k)
  | SNone w' h' g' => inv p h' n
  | _ => True
  end.
Proof.
  intros W GO F42. induction l as [|[i d] l IH]; intros g h w IL IV CW; cbn [scan]; [auto|].
  assert (I : In (i, d) (p_args p)) by (apply IL; now left).
  destruct (process g d (h i) w rest) as [w' a g'|took a g'|e| |] eqn:P; auto.
  - destruct (no_case p h0 n g h w rest i d w' a g' W GO F42 IV CW I P) as [IV' CW'].
    apply IH; auto. intros; apply IL; now right.
  - destruct (xor_check (p_xor p) (hset h i a) i d) as [h2 k] eqn:XC.
    eapply yes_case with (h := h) (h1 := h); eauto.
Qed.

Lemma loop_inv p h0 : wf p h0 -> groups_ok p ->
  (forall i d f, In (i, d) (p_args p) -> grouped p i = true -> d_kind d = KSwitch -> In f (d_flag d) -> f <> 42) ->
  forall m ws g h n h' g', (length ws < m)%nat -> (forall w, In w ws -> clear_word p w) -> inv p h n ->
  parse_loop p g h n ws = Done h' g' -> inv p h' (p_num p).
Proof.
  intros W GO F42. induction m as [|m IH]; intros ws g h n h' g' L CW IV E; [lia|].
  destruct ws as [|w rest]; cbn [parse_loop] in E.
  - destruct (Z.ltb_spec n (p_num p)); [discriminate|]. destruct (Z.ltb_spec (p_num p) n); [discriminate|].
    injection E as <- <-. assert (n = p_num p) by lia. now subst.
  - cbn [length] in L. assert (CWr : forall v, In v rest -> clear_word p v) by (intros; apply CW; now right).
    pose proof (scan_inv p h0 n rest W GO F42 (p_args p) g h w (fun x I => I) IV (CW w ltac:(now left))) as SC.
    destruct (scan (p_xor p) (p_args p) g h w rest) as [took hh gg k|w' hh gg| | |]; try discriminate.
    + destruct took.
      * destruct rest as [|s rest]; [discriminate|]. cbn [length] in L. apply (IH rest gg hh (n + k) h' g'); auto; [lia|]. intros; apply CWr; now right.
      * apply (IH rest gg hh (n + k) h' g'); auto. lia.
    + destruct (empty_combined w'); [apply (IH rest gg hh n h' g'); auto; lia|].
      destruct (g_ignore gg); [apply (IH rest gg hh n h' g'); auto; lia|discriminate].
Qed.

Lemma inv_fresh p h : wf p h -> inv p h 0.
Proof.
  intros W. constructor.
  - intros i d I G. now rewrite (wf_state _ _ W _ _ I), G.
  - intros g1 J. left. intros i d I K. rewrite (wf_state _ _ W _ _ I).
    destruct (grouped p i); repeat split; auto.
  - unfold total. assert (E : filter (counted p h) (p_args p) = []); [|now rewrite E].
    assert (Q : forall x, In x (p_args p) -> counted p h x = false).
    { intros [i d] I. unfold counted, have. cbn [fst snd]. rewrite (wf_state _ _ W _ _ I). destruct (grouped p i); [reflexivity|].
      destruct (is_multi (d_kind d)) eqn:M; cbn [fresh a_set a_vals]; [|now rewrite andb_false_r].
      destruct (d_kind d); try discriminate; cbn; now rewrite andb_false_r. }
    revert Q. generalize (p_args p). clear. induction l as [|x l IH]; intros Q; [easy|]. cbn [filter].
    rewrite Q by now left. apply IH. intros; apply Q; now right.
Qed.

Lemma filter_full {A} (f g : A -> bool) l : (forall x, In x l -> f x = true -> g x = true) ->
  Zlen (filter f l) = Zlen (filter g l) -> forall x, In x l -> g x = true -> f x = true.
Proof.
  intros S. assert (LE : forall m, (forall x, In x m -> f x = true -> g x = true) -> Zlen (filter f m) <= Zlen (filter g m)).
  { induction m as [|y m IH]; intros Q; [easy|]. cbn [filter]. specialize (IH (fun x I => Q x (or_intror I))).
    specialize (Q y ltac:(now left)). destruct (f y); [rewrite Q by auto; rewrite !Zlen_cons; lia|]. destruct (g y); rewrite ?Zlen_cons; lia. }
  revert S. induction l as [|y l IH]; intros S E x I G; [easy|]. cbn [filter] in E.
  assert (LL := LE l (fun x I => S x (or_intror I))).
  destruct I as [->|I].
  - rewrite G in E. destruct (f x); auto. rewrite Zlen_cons in E. lia.
  - apply IH; auto; [intros; apply S; auto; now right|]. specialize (S y ltac:(now left)).
    destruct (f y); [rewrite S in E by auto; rewrite !Zlen_cons in E; lia|]. destruct (g y); rewrite ?Zlen_cons in E; lia.
Qed.

(** Exactly one member of every group is picked, the others keep their initial values. *)
Lemma exactly_one p h g ws h' g' : wf p h -> groups_ok p ->
  (forall i d f, In (i, d) (p_args p) -> grouped p i = true -> d_kind d = KSwitch -> In f (d_flag d) -> f <> 42) ->
  (forall w, In w ws -> clear_word p w) ->
  parse p g h ws = Done h' g' ->
  forall grp, In grp (p_xor p) -> grp <> [] ->
  exists k, In k grp /\ is_set (h' k) = true
    /\ forall i d, In (i, d) (p_args p) -> In i grp -> i <> k -> is_set (h' i) = false /\ untouched d (h' i).
Proof.
  intros W GO F42 CW E grp GI NE.
  assert (IV := loop_inv p h W GO F42 (S (length ws)) ws g h 0 h' g' ltac:(lia) CW (inv_fresh _ _ W) E).
  destruct IV as [B1 B2 B3].
  destruct grp as [|k0 grp]; [congruence|].
  destruct (go_args _ GO (k0 :: grp) k0 GI ltac:(now left)) as (d0 & I0).
  assert (G0 : grouped p k0 = true) by (apply grouped_true; exists (k0 :: grp); split; [auto|now left]).
  assert (ST : a_set (h' k0) = true).
  { assert (Q : counted p h' (k0, d0) = true).
    { rewrite (wf_num _ _ W) in B3. unfold total in B3. symmetry in B3. eapply filter_full; [|exact B3|exact I0|].
      - intros [i d] I Q. unfold counted in Q. cbn [fst snd] in *. rewrite (wf_state _ _ W _ _ I).
        destruct (grouped p i) eqn:G.
        + apply grouped_true in G as (g1 & J1 & J2). pose proof (go_kind _ GO _ _ _ J1 J2 I) as GK.
          unfold is_required. destruct (d_kind d); try easy.
        + unfold have in Q. bsplit. unfold is_required. rewrite H. destruct (is_multi (d_kind d)) eqn:M; auto.
          assert (a_vals (fresh d) = []) as -> by (unfold fresh; cbn [a_vals]; destruct (d_kind d); easy). reflexivity.
      - cbn [fst snd]. rewrite (wf_state _ _ W _ _ I0), G0. pose proof (go_kind _ GO (k0 :: grp) k0 d0 GI ltac:(now left) I0) as GK.
        unfold is_required. destruct (d_kind d0); easy. }
    unfold counted in Q. cbn [fst] in Q. now rewrite G0 in Q. }
  destruct (B2 _ GI) as [Q|(k & K1 & [K2 K2'] & K3)].
  - destruct (Q k0 d0 I0 ltac:(now left)) as [Q1 _]. congruence.
  - exists k. split; [auto|]. split; [unfold is_set; now rewrite K2, K2'|].
    intros i d I J N. destruct (K3 i d I J N) as (S1 & S2 & U). split; auto. unfold is_set. now rewrite S1, S2.
Qed.
