(** C259-C262: what a command line prints about itself. *)
From Coq Require Import String Ascii.
From Verif Require Import Base Numerals CmdModel CmdProofs CmdWrap UsageModel CmdProperties.
Open Scope Z_scope.

(** * C259: the one-line synopsis *)

(** A text without its blanks. *)
Definition dense (s : list Z) : list Z := filter (fun c => negb (c =? 32)) s.
(** Whether an argument is a member of a group. *)
Definition grouped (xs : list (list shown)) (x : shown) : bool := existsb (fun g => existsb (fun y => sh_obj x =? sh_obj y) g) xs.
(** Texts separated by bars. *)
Fixpoint bars (l : list (list Z)) : list Z := match l with [] => [] | [x] => x | x :: tl => x ++ [124] ++ bars tl end.
(** A group in braces. A group without members shows as "}". *)
Definition braces (g : list shown) : list Z :=
  match g with [] => [125] | _ => [123] ++ bars (map (fun x => dense (sh_short x)) g) ++ [125] end.

Lemma dense_app a b : dense (a ++ b) = dense a ++ dense b.
Proof. apply filter_app. Qed.
Lemma removelast_firstn_len {A} (s : list A) x : firstn (List.length (s ++ [x]) - 1) (s ++ [x]) = s.
Proof. rewrite app_length. cbn. replace (List.length s + 1 - 1)%nat with (List.length s) by lia. rewrite firstn_app, Nat.sub_diag, firstn_all. cbn. apply app_nil_r. Qed.
Lemma bars_cons x y l : bars (x :: y :: l) = x ++ [124] ++ bars (y :: l).
Proof. reflexivity. Qed.
Lemma flat_bars g : g <> [] -> flat_map (fun x => sh_short x ++ lit "|") g = bars (map sh_short g) ++ [124].
Proof.
  induction g as [|x g IH]; [easy|intros _]. destruct g as [|y g].
  - cbn. now rewrite app_nil_r.
  - change (flat_map (fun x0 => sh_short x0 ++ lit "|") (x :: y :: g)) with ((sh_short x ++ lit "|") ++ flat_map (fun x0 => sh_short x0 ++ lit "|") (y :: g)).
    rewrite IH by easy. change (map sh_short (x :: y :: g)) with (sh_short x :: sh_short y :: map sh_short g). rewrite bars_cons.
    change (map sh_short (y :: g)) with (sh_short y :: map sh_short g). now rewrite <- !app_assoc.
Qed.
Lemma dense_bars l : dense (bars l) = bars (map dense l).
Proof. induction l as [|x [|y l] IH]; auto. change (map dense (x :: y :: l)) with (dense x :: dense y :: map dense l). rewrite !bars_cons, !dense_app, IH. reflexivity. Qed.
Lemma add_group_eq s g : add_group s g = s ++ [32] ++ match g with [] => [125] | _ => [123] ++ bars (map sh_short g) ++ [125] end.
Proof.
  unfold add_group, close_group. destruct g as [|x g].
  - cbn [flat_map]. rewrite app_nil_r. change (lit " {") with ([32] ++ [123]). rewrite (app_assoc s), removelast_firstn_len, <- app_assoc. reflexivity.
  - rewrite flat_bars by easy. rewrite !app_assoc, removelast_firstn_len, <- !app_assoc. reflexivity.
Qed.
Lemma dense_groups gs : forall s, dense (fold_left add_group gs s) = dense s ++ flat_map braces gs.
Proof.
  induction gs as [|g gs IH]; intros s; cbn [fold_left flat_map].
  - now rewrite app_nil_r.
  - rewrite IH, add_group_eq, !dense_app, <- !app_assoc. f_equal. cbn [dense filter]. rewrite app_nil_l. f_equal.
    destruct g as [|x g]; [reflexivity|]. unfold braces. rewrite !dense_app, dense_bars, map_map. reflexivity.
Qed.
Lemma prefix_groups gs : forall s, exists r, fold_left add_group gs s = s ++ r.
Proof. induction gs as [|g gs IH]; intros s; cbn; [exists []; now rewrite app_nil_r|]. destruct (IH (add_group s g)) as (r & ->). rewrite add_group_eq, <- app_assoc. eauto. Qed.
Lemma dense_rest xs l : dense (flat_map (fun x => if grouped xs x then [] else lit " " ++ sh_short x) l)
  = flat_map (fun x => dense (sh_short x)) (filter (fun x => negb (grouped xs x)) l).
Proof. induction l as [|x l IH]; auto. cbn [flat_map filter]. rewrite dense_app, IH. now destruct (grouped xs x). Qed.

(** For a program name of at most 72 characters the synopsis is printed without failure, no line is wider than 75 columns, and apart from
    blanks the lines hold the program's name, every group in braces with its members separated by bars, and then every other argument, in
    order: nothing is lost in wrapping. *)
Theorem C259_synopsis : forall c, Zlen (k_prog c) <= 72 ->
  exists ls, short_usage c = Ok ls
    /\ (forall ind line, In (ind, line) ls -> 3 <= ind /\ ind + Zlen line <= 75)
    /\ dense (concat (map snd ls)) = dense (k_prog c) ++ flat_map braces (k_xor c)
         ++ flat_map (fun x => dense (sh_short x)) (filter (fun x => negb (grouped (k_xor c) x)) (k_args c)).
Proof.
  intros c P. pose proof (Zlen_nonneg (k_prog c)). unfold short_usage. set (o := if 75 / 2 <? _ then _ else _).
  assert (O : 0 <= o <= 37) by (unfold o; destruct (Z.ltb_spec (75 / 2) (Zlen (k_prog c) + 2)); change (75/2) with 37 in *; lia).
  destruct (C122_usage_wrapping_keeps_text_and_width (short_text c) 3 o) as (ls & E & W & D); try lia.
  - right. unfold short_text. destruct (prefix_groups (k_xor c) (k_prog c ++ lit " ")) as (r & ->).
    exists (Zlen (k_prog c)), 32. split; [lia|split; [|now left]]. unfold zget, Zlen. destruct (Z.ltb_spec (Z.of_nat (List.length (k_prog c))) 0); [lia|].
    rewrite Nat2Z.id, <- !app_assoc, nth_error_app2 by lia. now rewrite Nat.sub_diag.
  - exists ls. split; [exact E|]. split; [exact W|]. unfold dense at 1. rewrite D. fold (dense (short_text c)).
    unfold short_text. rewrite dense_app, dense_groups, dense_app. change (dense (lit " ")) with (@nil Z). rewrite app_nil_r, <- app_assoc. f_equal. f_equal.
    apply dense_rest.
Qed.
Print Assumptions C259_synopsis.

(** A longer name without a place to break makes the program read outside the string, whatever its arguments. *)
Theorem C259_long_name_refuted : forall c, 72 < Zlen (k_prog c) -> (forall x, In x (k_prog c) -> x <> 32 /\ x <> 44 /\ x <> 124) -> short_usage c = UB.
Proof.
  intros c L N. unfold short_usage. apply C123_usage_of_long_names_refuted_for_all; [lia| |].
  - unfold short_text. destruct (prefix_groups (k_xor c) (k_prog c ++ lit " ")) as (r & ->). unfold Zlen in *. rewrite !app_length. lia.
  - intros k ch K G. unfold short_text in G. destruct (prefix_groups (k_xor c) (k_prog c ++ lit " ")) as (r & E). rewrite E in G.
    unfold zget in G. destruct (Z.ltb_spec k 0); [lia|]. unfold Zlen in L. rewrite <- !app_assoc, nth_error_app1 in G by lia.
    apply nth_error_In in G. apply N in G. unfold sep, c_space, c_comma, c_bar. lia.
Qed.
Print Assumptions C259_long_name_refuted.

(** ** Where the arguments stand *)

Definition standard : list (Z * decl) := [(2, d_ignore); (1, d_version); (0, d_help)].
Definition placed (p : parser) (h : heap) : Prop :=
  (exists front back, p_args p = front ++ standard ++ back
     /\ (forall i d, In (i, d) front -> unlabelled (d_kind d) = false) /\ (forall i d, In (i, d) back -> unlabelled (d_kind d) = true))
  /\ (forall g i, In g (p_xor p) -> In i g -> 3 <= i) /\ 3 <= p_next p
  /\ a_req (h 0) = false /\ a_req (h 1) = false /\ a_req (h 2) = false.
Lemma hset_low h i a j : 3 <= i -> j < 3 -> hset h i a j = h j.
Proof. intros. unfold hset. destruct (Z.eqb_spec j i); [lia|easy]. Qed.
Lemma add_placed p h i d p' : placed p h -> add p h i d = Ok p' -> placed p' h /\ p_next p' = p_next p.
Proof.
  unfold add. destruct (existsb _ _); [easy|]. intros ((f & b & E & F & B) & X & N & H) [= <-]. split; [|easy]. split; [|split; [exact X|split; [exact N|exact H]]].
  cbn. rewrite E. destruct (unlabelled (d_kind d)) eqn:U.
  - exists f, (b ++ [(i, d)]). rewrite <- !app_assoc. split; [easy|split; [exact F|]]. intros j e J. apply in_app_iff in J. destruct J as [J|[[= <- <-]|[]]]; eauto.
  - exists ((i, d) :: f), b. split; [easy|split; [|exact B]]. intros j e [[= <- <-]|J]; eauto.
Qed.
Lemma placed_heap p h h' : (forall j, j < 3 -> h' j = h j) -> placed p h -> placed p h'.
Proof. intros E (A & X & N & H). split; [exact A|split; [exact X|split; [exact N|]]]. rewrite !E by lia. exact H. Qed.
Lemma construct_all_low : forall ds g h i g' h', 3 <= i -> construct_all g h i ds = Ok (g', h') -> forall j, j < 3 -> h' j = h j.
Proof.
  induction ds as [|d ds IH]; cbn; intros g h i g' h' I E j J.
  - now injection E as <- <-.
  - destruct (construct g d) as [g1| |]; try discriminate. cbn in E. apply IH with (j := j) in E; [|lia|exact J]. rewrite E. now apply hset_low.
Qed.
Lemma add_all_placed : forall ds p h i p' h', 3 <= i -> placed p h -> add_all p h i ds = Ok (p', h') -> placed p' h' /\ p_next p' = p_next p.
Proof.
  induction ds as [|d ds IH]; cbn [add_all]; intros p h i p' h' I P E.
  - now injection E as <- <-.
  - assert (P1 : placed p (hset h i (force_required (h i)))) by (eapply placed_heap; [|exact P]; intros; now apply hset_low).
    destruct (add p (hset h i (force_required (h i))) i d) as [p1| |] eqn:A; try discriminate. cbn [bind] in E.
    destruct (add_placed _ _ _ _ _ P1 A) as (P2 & N). apply IH in E; [|lia|exact P2]. destruct E as (Q & M). split; [exact Q|congruence].
Qed.
Lemma ids_from_low : forall n i j, In j (ids_from i n) -> i <= j.
Proof. induction n; cbn; [easy|]. intros i j [<-|J]; [lia|]. apply IHn in J. lia. Qed.
Lemma declare_placed g p h c g' p' h' : placed p h -> declare g p h c = Ok (g', p', h') -> placed p' h'.
Proof.
  intros P E. assert (N : 3 <= p_next p) by apply P. destruct c as [d|ds]; cbn [declare] in E.
  - destruct (construct g d) as [g1| |]; try discriminate. cbn [bind] in E.
    assert (P1 : placed p (hset h (p_next p) (fresh d))) by (eapply placed_heap; [|exact P]; intros; now apply hset_low).
    destruct (add p (hset h (p_next p) (fresh d)) (p_next p) d) as [p1| |] eqn:A; try discriminate. cbn [bind] in E. injection E as <- <- <-.
    destruct (add_placed _ _ _ _ _ P1 A) as ((F & X & M & H) & Q). split; [exact F|split; [exact X|split; [cbn; lia|exact H]]].
  - destruct (construct_all g h (p_next p) ds) as [[g1 h1]| |] eqn:C; try discriminate. cbn [bind] in E.
    assert (P1 : placed (mkP (p_args p) (p_xor p ++ [ids_from (p_next p) (List.length ds)]) (p_num p) (p_next p)) h1).
    { apply placed_heap with h; [exact (construct_all_low _ _ _ _ _ _ N C)|]. destruct P as (F & X & M & H).
      split; [exact F|split; [|split; [exact M|exact H]]]. cbn. intros gr i G I. apply in_app_iff in G. destruct G as [G|[<-|[]]]; [eauto|].
      apply ids_from_low in I. lia. }
    destruct (add_all _ h1 (p_next p) ds) as [[p1 h2]| |] eqn:A; try discriminate. cbn [bind] in E. injection E as <- <- <-.
    destruct (add_all_placed _ _ _ _ _ _ N P1 A) as ((F & X & M & H) & Q). cbn in Q.
    split; [exact F|split; [exact X|split; [cbn; pose proof (Zlen_nonneg ds); lia|exact H]]].
Qed.
Lemma declare_all_placed : forall cs g p h g' p' h', placed p h -> declare_all g p h cs = Ok (g', p', h') -> placed p' h'.
Proof.
  induction cs as [|c cs IH]; cbn; intros g p h g' p' h' P E; [now injection E as <- <- <-|].
  destruct (declare g p h c) as [[[g1 p1] h1]| |] eqn:D; try discriminate. cbn in E. eapply IH; [|exact E]. eapply declare_placed; eauto.
Qed.
Lemma build_placed g delim cs g' p h : build g delim true cs = Ok (g', p, h) -> placed p h.
Proof.
  unfold build. set (g0 := mkG _ _ _). cbn [app]. intros E.
  change (declare_all g0 (mkP [] [] 0 0) (fun _ => fresh d_ignore) (DOne d_help :: DOne d_version :: DOne d_ignore :: cs))
    with (r <- declare g0 (mkP [] [] 0 0) (fun _ => fresh d_ignore) (DOne d_help) ;; let '(g, p, h) := r in
          r <- declare g p h (DOne d_version) ;; let '(g, p, h) := r in r <- declare g p h (DOne d_ignore) ;; let '(g, p, h) := r in declare_all g p h cs) in E.
  eapply declare_all_placed; [|exact E]. split; [exists [], []; repeat split; easy|]. repeat split; easy.
Qed.
Lemma group_objs xs (l : list shown) y : In y (flat_map (find_arg l) xs) -> In (sh_obj y) xs.
Proof. intros H. apply in_flat_map in H. destruct H as (i & I & F). apply filter_In in F. destruct F as (_ & E). apply Z.eqb_eq in E. now rewrite E. Qed.
Lemma std_free xs l x : (forall g i, In g xs -> In i g -> 3 <= i) -> sh_obj x < 3 -> grouped (map (flat_map (find_arg l)) xs) x = false.
Proof.
  intros H L. apply not_true_is_false. intros T. apply existsb_exists in T. destruct T as (g & G & T). apply in_map_iff in G. destruct G as (xg & <- & G).
  apply existsb_exists in T. destruct T as (y & Y & E). apply Z.eqb_eq in E. apply group_objs in Y. specialize (H _ _ G Y). lia.
Qed.

(** However a program declares its arguments, its list is: labelled arguments, "--", "--version", "-h", unlabelled arguments; and the synopsis
    shows the three built-in switches as optional, in that order, between the labelled arguments and the unlabelled ones. *)
Theorem C259_builtin : forall g delim cs g' p h prog version message given,
  build g delim true cs = Ok (g', p, h) ->
  exists front back, p_args p = front ++ [(2, d_ignore); (1, d_version); (0, d_help)] ++ back
    /\ (forall i d, In (i, d) front -> unlabelled (d_kind d) = false) /\ (forall i d, In (i, d) back -> unlabelled (d_kind d) = true)
    /\ let c := cmd_of prog version message delim given true p h in
       exists before after, short_text c = prog ++ before ++ lit " [--] [--version] [-h]" ++ after
         /\ (back = [] -> after = []).
Proof.
  intros g delim cs g' p h prog version message given E. apply build_placed in E. destruct E as ((f & b & E & F & B) & X & _ & H0 & H1 & H2).
  exists f, b. split; [exact E|split; [exact F|split; [exact B|]]]. cbv zeta. unfold short_text.
  set (c := cmd_of _ _ _ _ _ _ _ _). destruct (prefix_groups (k_xor c) (k_prog c ++ lit " ")) as (r & ->).
  assert (G : forall x, sh_obj x < 3 -> in_group c x = false) by (intros x L; apply (std_free (p_xor p) _ x X L)).
  set (sh := flat_map _ (k_args c)).
  assert (K : k_args c = map (show_arg delim given (p_xor p) h) (p_args p)) by reflexivity.
  unfold sh. rewrite K, E, !map_app, !flat_map_app.
  exists (lit " " ++ r ++ flat_map (fun x => if in_group c x then [] else lit " " ++ sh_short x) (map (show_arg delim given (p_xor p) h) f)),
    (flat_map (fun x => if in_group c x then [] else lit " " ++ sh_short x) (map (show_arg delim given (p_xor p) h) b)).
  split; [|now intros ->].
  assert (T : flat_map (fun x => if in_group c x then [] else lit " " ++ sh_short x) (map (show_arg delim given (p_xor p) h) standard)
              = lit " [--] [--version] [-h]").
  { unfold standard. cbn [map flat_map]. rewrite !G by (cbn; lia). cbn [show_arg sh_short]. unfold short_id, arg_short. cbn [d_ignore d_version d_help d_kind].
    rewrite H0, H1, H2. reflexivity. }
  rewrite T. change (k_prog c) with prog. now rewrite <- !app_assoc.
Qed.
Print Assumptions C259_builtin.

Definition dv (f n : string) (r : bool) : decl := mkD (KValue TInt) (lit f) (lit n) (lit "Some text.") r None NoVis false 0 (VInt 0).
Definition du (n : string) : decl := mkD (KUValue TStr) [] (lit n) (lit "Other text.") true None NoVis false 0 (VStr []).
Definition demo_decls : list dcl := [DOne (dv "n" "number" true); DXor [dv "" "first" false; dv "s" "second" false]; DOne (du "file")].
Definition demo_text : option (list Z) :=
  match build glob0 32 true demo_decls with
  | Ok (_, p, h) => Some (short_text (cmd_of (lit "prog") (lit "1.0") (lit "A message.") 32 (fun _ => lit "int") true p h))
  | _ => None
  end.
Example C259_demo : demo_text = Some (lit "prog  {--first <int>|-s <int>} -n <int> [--] [--version] [-h] <int>").
Proof. vm_compute. reflexivity. Qed.

(** * C260: how an argument is named *)

(** The word before any blank, and what follows. *)
Fixpoint upto_blank (s : list Z) : list Z * list Z :=
  match s with [] => ([], []) | c :: tl => if c =? 32 then ([], s) else let '(a, b) := upto_blank tl in (c :: a, b) end.

(** The name shown in the synopsis, behind "[" if and only if the argument may be left out, is a word that the argument accepts. *)
Theorem C260_shown_word_is_accepted : forall delim d a t, unlabelled (d_kind d) = false ->
  exists w rest, short_id delim d a t = (if a_req a then [] else [91]) ++ w ++ rest /\ arg_matches d w = true
    /\ w = (match d_flag d with [] => [45; 45] ++ d_name d | f => [45] ++ f end).
Proof.
  intros delim d a t U. exists (match d_flag d with [] => [45; 45] ++ d_name d | f => [45] ++ f end).
  assert (M : arg_matches d (match d_flag d with [] => [45; 45] ++ d_name d | f => [45] ++ f end) = true).
  { unfold arg_matches. assert (R : forall s, seqb s s = true) by (intros s; apply seqb_refl). destruct (d_flag d) as [|c f] eqn:F.
    - apply orb_true_iff. right. apply R.
    - apply orb_true_iff. left. apply andb_true_iff. split; [apply R|reflexivity]. }
  assert (A : forall v u, exists rest, arg_short delim v d a u = (if a_req a then [] else [91]) ++ (match d_flag d with [] => [45; 45] ++ d_name d | f => [45] ++ f end) ++ rest).
  { intros v u. unfold arg_short. destruct (d_flag d) as [|c f] eqn:F; cbn [seqb]; destruct v, (a_req a);
      eexists; cbn [lit app Z.of_nat nat_of_ascii]; rewrite <- ?app_assoc; try reflexivity; rewrite ?app_nil_l; try (rewrite app_nil_r; reflexivity); reflexivity. }
  unfold short_id. destruct (d_kind d); try discriminate.
  - destruct (A false (lit "val")) as (r & ->). eauto.
  - destruct (A false (lit "val")) as (r & ->). exists (r ++ lit " ... " ++ lit "val"). rewrite <- !app_assoc. auto.
  - destruct (A true t) as (r & ->). eauto.
  - destruct (A true t) as (r & ->). exists (r ++ lit " ... "). rewrite <- !app_assoc. auto.
Qed.
Print Assumptions C260_shown_word_is_accepted.

Lemma upto_app w r : ~ In 32 w -> (r = [] \/ exists x, r = 32 :: x) -> upto_blank (w ++ r) = (w, r).
Proof.
  induction w as [|c w IH]; intros N R; cbn.
  - now destruct R as [->|(x & ->)].
  - destruct (Z.eqb_spec c 32); [subst; exfalso; apply N; now left|]. rewrite IH; auto. intros J. apply N. now right.
Qed.
(** What stands after the word: the closing bracket or a value. *)
Definition tail_ok (req : bool) (e r : list Z) : Prop :=
  (e = [] /\ ((req = true /\ (r = [] \/ exists x, r = 32 :: x)) \/ exists x, r = 32 :: 60 :: x)) \/ (req = false /\ e = [93] /\ (r = [] \/ exists x, r = 32 :: 46 :: x)).
Lemma short_shape d a t : unlabelled (d_kind d) = false -> exists e r, tail_ok (a_req a) e r /\
  short_id 32 d a t = (if a_req a then [] else [91]) ++ (match d_flag d with [] => [45; 45] ++ d_name d | f => [45] ++ f end) ++ e ++ r.
Proof.
  intros U.
  assert (A : forall v u more, (more = [] \/ exists x, more = 32 :: 46 :: x) -> exists e r, tail_ok (a_req a) e r /\
     arg_short 32 v d a u ++ more = (if a_req a then [] else [91]) ++ (match d_flag d with [] => [45; 45] ++ d_name d | f => [45] ++ f end) ++ e ++ r).
  { intros v u more M. unfold arg_short, tail_ok. destruct (a_req a) eqn:Q, v.
    - exists [], ([32; 60] ++ u ++ [62] ++ more). split; [left; split; [easy|right; eexists; reflexivity]|].
      destruct (d_flag d); cbn; repeat (rewrite <- ?app_assoc; cbn); reflexivity.
    - exists [], more. split; [left; split; [easy|left; split; [easy|destruct M as [->|(x & ->)]; eauto]]|].
      destruct (d_flag d); cbn; repeat (rewrite <- ?app_assoc; cbn); reflexivity.
    - exists [], ([32; 60] ++ u ++ [62; 93] ++ more). split; [left; split; [easy|right; eexists; reflexivity]|].
      destruct (d_flag d); cbn; repeat (rewrite <- ?app_assoc; cbn); reflexivity.
    - exists [93], more. split; [right; repeat split; auto|].
      destruct (d_flag d); cbn; repeat (rewrite <- ?app_assoc; cbn); reflexivity. }
  unfold short_id. destruct (d_kind d); try discriminate.
  - destruct (A false (lit "val") [] (or_introl eq_refl)) as (e & r & T & E). rewrite app_nil_r in E. eauto.
  - apply A. right. eexists. reflexivity.
  - destruct (A true t [] (or_introl eq_refl)) as (e & r & T & E). rewrite app_nil_r in E. eauto.
  - apply A. right. eexists. reflexivity.
Qed.
Lemma has_false c s : has c s = false -> ~ In c s.
Proof. unfold has. intros H I. assert (E : existsb (Z.eqb c) s = true) by (apply existsb_exists; exists c; split; [exact I|apply Z.eqb_refl]). congruence. Qed.

(** Two labelled arguments that are shown alike are equally required and have the same flag and, without a flag, the same name: arguments that a
    command line accepts together never look the same. (The delimiter is the blank; the "--" switch is left out.) *)
Theorem C260_shown_alike : forall d a t d' a' t',
  unlabelled (d_kind d) = false -> unlabelled (d_kind d') = false -> ctor_ok (d_flag d) (d_name d) = true -> ctor_ok (d_flag d') (d_name d') = true ->
  d_flag d <> [45] -> d_flag d' <> [45] -> short_id 32 d a t = short_id 32 d' a' t' ->
  a_req a = a_req a' /\ d_flag d = d_flag d' /\ (d_flag d = [] -> d_name d = d_name d').
Proof.
  intros d a t d' a' t' U U' C C' F F' E.
  destruct (short_shape d a t U) as (e & r & T & S1). destruct (short_shape d' a' t' U') as (e' & r' & T' & S2). rewrite S1, S2 in E.
  assert (Q : a_req a = a_req a').
  { destruct (a_req a), (a_req a'); try easy; exfalso; destruct (d_flag d), (d_flag d'); cbn in E; discriminate. }
  split; [exact Q|]. rewrite <- Q in E, T'. clear S1 S2.
  assert (E1 : (match d_flag d with [] => [45; 45] ++ d_name d | f => [45] ++ f end) ++ e ++ r = (match d_flag d' with [] => [45; 45] ++ d_name d' | f => [45] ++ f end) ++ e' ++ r')
    by (destruct (a_req a); [exact E|now injection E]).
  clear E. unfold ctor_ok in C, C'. rewrite !andb_true_iff in C, C'. destruct C as ((L & _) & N), C' as ((L' & _) & N'). apply Z.leb_le in L, L'.
  apply negb_true_iff, orb_false_iff in N, N'. destruct N as (_ & N), N' as (_ & N'). apply has_false in N, N'. unfold c_space in *.
  destruct (d_flag d) as [|c [|]], (d_flag d') as [|c' [|]]; unfold Zlen in *; cbn [List.length app] in *; try lia; try (exfalso; injection E1; congruence).
  - split; [easy|intros _]. injection E1 as E1.
    assert (NE : forall req ee rr, tail_ok req ee rr -> ~ In 32 ee /\ (rr = [] \/ exists x, rr = 32 :: x)).
    { intros req ee rr [(-> & [(_ & R)|(x & ->)])|(_ & -> & [->|(x & ->)])]; split; eauto; try easy; intros [J|[]]; discriminate. }
    destruct (NE _ _ _ T) as (J & R), (NE _ _ _ T') as (J' & R').
    assert (P : upto_blank (d_name d ++ e ++ r) = (d_name d ++ e, r)) by (rewrite app_assoc; apply upto_app; [rewrite in_app_iff; tauto|exact R]).
    assert (P' : upto_blank (d_name d' ++ e' ++ r') = (d_name d' ++ e', r')) by (rewrite app_assoc; apply upto_app; [rewrite in_app_iff; tauto|exact R']).
    rewrite E1, P' in P. injection P as P ->.
    destruct T as [(-> & T)|(Qr & -> & T)], T' as [(-> & T')|(Qr' & -> & T')].
    + now rewrite !app_nil_r in P.
    + exfalso. destruct T as [(T & _)|(x & ->)]; [congruence|]. destruct T' as [T'|(y & T')]; discriminate.
    + exfalso. destruct T' as [(T' & _)|(x & ->)]; [congruence|]. destruct T as [T|(y & T)]; discriminate.
    + now apply app_inj_tail in P as (-> & _).
  - injection E1 as -> _. split; easy.
Qed.
Print Assumptions C260_shown_alike.

Example C260_case : short_id 32 (dv "n" "number" true) (fresh (dv "n" "number" true)) (lit "int") = lit "-n <int>"
  /\ short_id 32 (dv "" "number" false) (fresh (dv "" "number" false)) (lit "int") = lit "[--number <int>]".
Proof. split; reflexivity. Qed.

(** The name in an error message determines the argument. *)
Theorem C260_error_name : forall d d', ctor_ok (d_flag d) (d_name d) = true -> ctor_ok (d_flag d') (d_name d') = true ->
  to_string d = to_string d' -> d_flag d = d_flag d' /\ d_name d = d_name d'.
Proof.
  intros d d' C C' E. unfold ctor_ok in C, C'. rewrite !andb_true_iff in C, C'. destruct C as ((L & _) & _), C' as ((L' & _) & _). apply Z.leb_le in L, L'.
  unfold to_string in E.
  destruct (d_flag d) as [|c [|]], (d_flag d') as [|c' [|]]; unfold Zlen in *; cbn [List.length seqb lit app] in *; try lia; try discriminate.
  - split; [easy|]. injection E as E. now apply app_inj_tail in E as (-> & _).
  - injection E as -> E. split; [easy|]. now apply app_inj_tail in E as (-> & _).
Qed.
Print Assumptions C260_error_name.

(** Unlabelled arguments carry no brackets: an optional one looks exactly like a required one. *)
Theorem C260_optional_unlabelled_refuted : forall ty n ds al v t,
  exists d d', d_kind d = KUValue ty /\ d_kind d' = KUValue ty /\ d_name d = n /\ d_name d' = n
    /\ a_req (fresh d) = true /\ a_req (fresh d') = false /\ short_id 32 d (fresh d) t = short_id 32 d' (fresh d') t
    /\ ds = d_desc d /\ ds = d_desc d' /\ al = d_allowed d /\ al = d_allowed d' /\ v = d_default d /\ v = d_default d'.
Proof.
  intros ty n ds al v t. exists (mkD (KUValue ty) [] n ds true al NoVis false 0 v), (mkD (KUValue ty) [] n ds false al NoVis false 0 v). repeat split; reflexivity.
Qed.
Print Assumptions C260_optional_unlabelled_refuted.

(** A switch that may be repeated takes no value, yet the word "val" is shown behind it. *)
Theorem C260_repeated_switch_refuted : forall delim d a t, d_kind d = KMultiSwitch ->
  exists s, short_id delim d a t = s ++ lit " ... val" /\ forall g w rest, process g d a w rest <> PErr EMissingValue.
Proof.
  intros delim d a t K. unfold short_id. rewrite K. eexists. split; [reflexivity|]. intros g w rest. unfold process. rewrite K. unfold multi_switch_process.
  repeat match goal with |- context [if ?b then _ else _] => destruct b | |- context [match visit ?x ?y with _ => _ end] => destruct (visit x y)
    | |- context [match combined_match ?x ?y with _ => _ end] => destruct (combined_match x y) end; discriminate.
Qed.
Print Assumptions C260_repeated_switch_refuted.

(** * C261: the complete usage *)

(** A text that the wrapping can break in its first line, or need not break. *)
Definition breaks (s : list Z) (indent : Z) : Prop :=
  Zlen s <= 75 - indent \/ exists k c, 0 <= k <= 75 - indent /\ zget s k = Some c /\ (c = 32 \/ c = 44 \/ c = 124).
Definition printable (x : shown) : Prop := breaks (sh_long x) 3 /\ breaks (sh_desc x) 5.
(** One argument: its long form and its description; a group: its members with "--OR--" between them. *)
Definition entry (x : shown) : list Z := dense (sh_long x) ++ dense (sh_desc x).
Fixpoint choices (g : list shown) : list Z :=
  match g with [] => [] | [x] => entry x | x :: tl => entry x ++ [45; 45; 79; 82; 45; 45] ++ choices tl end.
(** [m] prints, within 75 columns, the characters [t]. *)
Definition prints (m : res (list (Z * str))) (t : list Z) : Prop :=
  exists ls, m = Ok ls /\ (forall ind line, In (ind, line) ls -> 0 <= ind /\ ind + Zlen line <= 75) /\ dense (concat (map snd ls)) = t.

Lemma prints_then m k t u : prints m t -> prints k u -> prints (then_print m k) (t ++ u).
Proof.
  intros (l1 & -> & W1 & <-) (l2 & -> & W2 & <-). exists (l1 ++ l2). split; [reflexivity|split].
  - intros ind line J. apply in_app_iff in J. destruct J; eauto.
  - now rewrite map_app, concat_app, dense_app.
Qed.
Lemma prints_blank : prints (Ok newline) []. Proof. exists newline. split; [easy|split; [|reflexivity]]. intros ind line [[= <- <-]|[]]. unfold Zlen; cbn; lia. Qed.
Lemma prints_nothing : prints (Ok []) []. Proof. exists []. repeat split; easy. Qed.
Lemma prints_space s indent offset : 0 <= indent -> 0 <= offset -> indent + offset < 75 -> breaks s indent -> prints (space_print s indent offset) (dense s).
Proof.
  intros I O B H. destruct (C122_usage_wrapping_keeps_text_and_width s indent offset I O B H) as (ls & E & W & D). exists ls. split; [exact E|split; [|exact D]].
  intros ind line J. apply W in J. lia.
Qed.
Lemma prints_one x : printable x -> prints (long_one x) (entry x).
Proof. intros (A & B). apply prints_then; apply prints_space; auto; lia. Qed.
Lemma prints_group g : Forall printable g -> prints (long_group g) (choices g).
Proof.
  induction g as [|x [|y g] IH]; intros F; inversion F; subst.
  - apply prints_nothing.
  - now apply prints_one.
  - change (prints (then_print (long_one x) (then_print (space_print (lit "-- OR --") 9 0) (long_group (y :: g)))) (entry x ++ [45; 45; 79; 82; 45; 45] ++ choices (y :: g))).
    apply prints_then; [now apply prints_one|]. apply prints_then; [|now apply IH].
    apply (prints_space (lit "-- OR --") 9 0); try lia. left. unfold Zlen; cbn; lia.
Qed.
Lemma prints_all {A} (f : A -> res (list (Z * str))) t l : (forall x, In x l -> prints (f x) (t x)) -> prints (print_all f l) (flat_map t l).
Proof. induction l as [|x l IH]; intros H; [apply prints_nothing|]. cbn. apply prints_then; [apply H; now left|]. apply IH. intros y J. apply H. now right. Qed.

(** If every long form, every description and the message can be broken in their first line, the list of arguments is printed without failure
    within 75 columns, and its characters are, blanks apart, every group's members, every other argument with its description, and the message:
    each argument's text appears, and in order. *)
Theorem C261_long_usage_partial : forall c,
  Forall (Forall printable) (k_xor c) -> Forall printable (k_args c) -> breaks (k_message c) 3 ->
  exists ls, long_usage c = Ok ls /\ (forall ind line, In (ind, line) ls -> 0 <= ind /\ ind + Zlen line <= 75)
    /\ dense (concat (map snd ls)) = flat_map choices (k_xor c) ++ flat_map entry (filter (fun x => negb (grouped (k_xor c) x)) (k_args c)) ++ dense (k_message c).
Proof.
  intros c X A M.
  assert (P : prints (long_usage c) (flat_map choices (k_xor c) ++ flat_map (fun x => if in_group c x then [] else entry x) (k_args c) ++ dense (k_message c))).
  { apply prints_then; [|apply prints_then].
    - apply prints_all. intros g J. rewrite <- (app_nil_r (choices g)). apply prints_then; [apply prints_group; now apply (proj1 (Forall_forall _ _) X)|].
      exists (newline ++ newline). split; [easy|split; [|reflexivity]]. intros ind line [[= <- <-]|[[= <- <-]|[]]]; unfold Zlen; cbn; lia.
    - apply prints_all. intros x J. destruct (in_group c x); [apply prints_nothing|]. rewrite <- (app_nil_r (entry x)).
      apply prints_then; [apply prints_one; now apply (proj1 (Forall_forall _ _) A)|apply prints_blank].
    - rewrite <- (app_nil_l (dense (k_message c))). apply prints_then; [apply prints_blank|]. apply prints_space; auto; lia. }
  destruct P as (ls & E & W & D). exists ls. split; [exact E|split; [exact W|]]. rewrite D. f_equal. f_equal. clear.
  change (in_group c) with (grouped (k_xor c)). induction (k_args c) as [|x l IH]; auto. cbn. rewrite IH. now destruct (grouped (k_xor c) x).
Qed.
Print Assumptions C261_long_usage_partial.

(** A message of 73 letters makes the complete usage fail, whatever the arguments. *)
Theorem C261_message_refuted : exists m, Zlen m = 73 /\ forall c, k_message c = m -> (forall ls, long_usage c <> Ok ls) /\ (forall ls, usage c <> Ok ls).
Proof.
  exists (repeat 97 73). split; [reflexivity|]. intros c M. assert (U : space_print (k_message c) 3 0 = UB) by (rewrite M; reflexivity).
  assert (L : forall ls, long_usage c <> Ok ls).
  { intros ls. unfold long_usage. destruct (print_all _ (k_xor c)); cbn; try discriminate. destruct (print_all _ (k_args c)); cbn; try discriminate. rewrite U. discriminate. }
  split; [exact L|]. intros ls. unfold usage. cbn. destruct (short_usage c); cbn; try discriminate. destruct (long_usage c) as [ll| |] eqn:E; cbn; try discriminate. now destruct (L ll).
Qed.
Print Assumptions C261_message_refuted.

(** A failure: whatever is printed starts with the argument and the error, each on its own line. With help and version arguments the
    short usage follows and a hint to type "<program> --help"; without them the complete usage. Nothing else decides. *)
Theorem C261_failure : forall c i e, exists first, map snd first = [lit "PARSE ERROR: " ++ i; lit "             " ++ e; []] /\ (k_help c = true -> match short_usage c with
     | Ok ls => exists last, failure c i e = Ok (first ++ [(0, lit "Brief USAGE: ")] ++ ls ++ last) /\ dense (concat (map snd last)) = dense (lit "ForcompleteUSAGEandHELPtype:" ++ k_prog c ++ lit "--help")
     | _ => forall ls, failure c i e <> Ok ls end) /\ (k_help c = false -> forall ls, (failure c i e = Ok ls <-> (exists u, usage c = Ok u /\ ls = first ++ u))).
Proof.
  intros c i e. exists [(0, lit "PARSE ERROR: " ++ i); (0, lit "             " ++ e); (0, [])]. split; [reflexivity|split]; intros H; unfold failure; rewrite H.
  - destruct (short_usage c) as [ls| |]; [|intros ls E; discriminate E..]. exists (newline ++ [(0, lit "For complete USAGE and HELP type: "); (0, lit "   " ++ k_prog c ++ lit " --help")] ++ newline).
    split; [unfold then_print; cbn [bind]; now rewrite <- !app_assoc|].
    unfold newline. change (dense (lit "For complete USAGE and HELP type: " ++ (lit "   " ++ k_prog c ++ lit " --help") ++ []) = dense (lit "ForcompleteUSAGEandHELPtype:" ++ k_prog c ++ lit "--help")).
    rewrite app_nil_r. rewrite !(dense_app (lit _)), !(dense_app (k_prog c)).
    replace (dense (lit "For complete USAGE and HELP type: ")) with (dense (lit "ForcompleteUSAGEandHELPtype:")) by (vm_compute; reflexivity).
    replace (dense (lit "   ")) with (@nil Z) by (vm_compute; reflexivity). replace (dense (lit " --help")) with (dense (lit "--help")) by (vm_compute; reflexivity).
    rewrite app_nil_l. reflexivity.
  - intros ls. destruct (usage c) as [u| |].
    + split; [intros [= <-]; now exists u|]. intros (u' & [= ->] & ->). reflexivity.
    + split; [discriminate|]. now intros (u' & E & _).
    + split; [discriminate|]. now intros (u' & E & _).
Qed.
Print Assumptions C261_failure.
(** The version text: blanks apart, the name, "version:" and the version. *)
Theorem C261_version : forall c, dense (concat (map snd (version c))) = dense (k_prog c ++ lit "version:" ++ k_version c).
Proof. intros c. unfold version, newline. cbn [map snd concat List.app].
  change (dense ((k_prog c ++ lit "  version: " ++ k_version c) ++ []) = dense (k_prog c ++ lit "version:" ++ k_version c)).
  rewrite app_nil_r, !(dense_app (k_prog c)), !(dense_app (lit _)).
  replace (dense (lit "  version: ")) with (dense (lit "version:")) by (vm_compute; reflexivity). reflexivity. Qed.
Print Assumptions C261_version.

(** The built-in help switch always prints: a switch with a flag can always be broken behind the flag. *)
Theorem C261_flag_breaks : forall d t, unlabelled (d_kind d) = false -> Zlen (d_flag d) = 1 -> breaks (long_id d t) 3.
Proof.
  intros d t U L. right.
  assert (B : forall v u more, exists c, (c = 32 \/ c = 44) /\ zget (arg_long v d u ++ more) 2 = Some c).
  { intros v u more. unfold arg_long. destruct (d_flag d) as [|f [|]]; unfold Zlen in L; cbn [List.length] in L; try lia. destruct v; eexists; (split; [|reflexivity]); cbn; tauto. }
  unfold long_id. exists 2. destruct (d_kind d); try discriminate.
  - destruct (B false (lit "val") []) as (c & C & E). rewrite app_nil_r in E. exists c. split; [lia|split; [exact E|tauto]].
  - destruct (B false (lit "val") (lit "  (accepted multiple times) " ++ lit "val")) as (c & C & E). exists c. split; [lia|split; [exact E|tauto]].
  - destruct (B true t []) as (c & C & E). rewrite app_nil_r in E. exists c. split; [lia|split; [exact E|tauto]].
  - destruct (B true t (lit "  (accepted multiple times)")) as (c & C & E). exists c. split; [lia|split; [exact E|tauto]].
Qed.
Print Assumptions C261_flag_breaks.

Definition demo_long : option (list (Z * str)) :=
  match build glob0 32 false [DXor [dv "" "first" false; dv "s" "second" false]] with
  | Ok (_, p, h) => match long_usage (cmd_of (lit "prog") (lit "1.0") (lit "A message.") 32 (fun _ => lit "int") false p h) with Ok l => Some l | _ => None end
  | _ => None
  end.
Example C261_demo : demo_long = Some
  [(3, lit "--first <int>"); (5, lit "(OR required)  Some text."); (9, lit "-- OR --"); (3, lit "-s <int>,  --second <int>"); (5, lit "(OR required)  Some text.");
   (0, []); (0, []); (3, lit "--,  --ignore_rest"); (5, [3]); (0, []); (0, []); (3, lit "A message.")].
Proof. vm_compute. reflexivity. Qed.

(** * C262: the description of allowed values *)

(** Cut a text at its bars. *)
Fixpoint cut_bars (s : list Z) : list (list Z) :=
  match s with
  | [] => [[]]
  | c :: tl => if c =? 124 then [] :: cut_bars tl else match cut_bars tl with x :: r => (c :: x) :: r | [] => [[c]] end
  end.
Definition text_of (v : val) : list Z := match v with VStr s => s | VInt z => num_str z end.

Lemma cut_bars_nobar s : ~ In 124 s -> cut_bars s = [s].
Proof. induction s as [|c s IH]; intros N; auto. cbn. destruct (Z.eqb_spec c 124); [subst; exfalso; apply N; now left|]. rewrite IH; auto. intros J; apply N; now right. Qed.
Lemma cut_bars_app s r : ~ In 124 s -> cut_bars (s ++ 124 :: r) = s :: cut_bars r.
Proof.
  induction s as [|c s IH]; intros N; [reflexivity|]. cbn [app cut_bars]. destruct (Z.eqb_spec c 124); [subst; exfalso; apply N; now left|].
  rewrite IH; auto. intros J; apply N; now right.
Qed.

(** The type shown for an argument with a list of allowed values is those values in order, separated by bars: cut at the bars it gives back every
    one of them, if no value itself holds a bar. *)
Theorem C262_allowed_values : forall given d v vs, d_allowed d = Some (v :: vs) -> (forall x, In x (v :: vs) -> ~ In 124 (text_of x)) ->
  cut_bars (type_desc given d) = map text_of (v :: vs).
Proof.
  intros given d v vs E. unfold type_desc. rewrite E. clear E. revert v. induction vs as [|w vs IH]; intros v N.
  - cbn. rewrite app_nil_r. apply cut_bars_nobar, N. now left.
  - assert (N2 : forall x, In x (w :: vs) -> ~ In 124 (text_of x)) by (intros x J; apply N; now right). specialize (IH w N2).
    change (constraint_text false (v :: w :: vs)) with (text_of v ++ 124 :: constraint_text false (w :: vs)).
    rewrite cut_bars_app by (apply N; now left). rewrite IH. reflexivity.
Qed.
Print Assumptions C262_allowed_values.

(** Without that condition two different lists look the same. *)
Theorem C262_bar_refuted : exists d d' : decl, forall given, d_allowed d = Some [VStr [97; 124; 98]] /\ d_allowed d' = Some [VStr [97]; VStr [98]] /\ type_desc given d = type_desc given d'.
Proof.
  exists (mkD (KValue TStr) [] (lit "n") [] true (Some [VStr [97; 124; 98]]) NoVis false 0 (VStr [])), (mkD (KValue TStr) [] (lit "n") [] true (Some [VStr [97]; VStr [98]]) NoVis false 0 (VStr [])).
  intros; repeat split; reflexivity.
Qed.
Print Assumptions C262_bar_refuted.

Example C262_case : type_desc [] (mkD (KValue TInt) [] (lit "n") [] true (Some [VInt 1; VInt (-20); VInt 3]) NoVis false 0 (VInt 1)) = lit "1|-20|3".
Proof. reflexivity. Qed.

(** * Indentation *)
Lemma wrap_loop_later s offset fuel : forall start al indent, 0 < start <= Zlen s -> 1 <= al ->
  exists ts, Zlen s - start <= Z.of_nat fuel -> wrap_loop fuel s start al indent offset = Ok (map (pair indent) ts).
Proof.
  induction fuel as [|fuel IH]; intros start al indent L A; cbn [wrap_loop].
  - exists []. intros F. destruct (Z.ltb_spec start (Zlen s)); [lia|reflexivity].
  - destruct (Z.ltb_spec start (Zlen s)).
    + destruct (wrap_step_ok s start al ltac:(lia) A ltac:(lia)) as (line & start' & -> & L' & LL & S1). cbn [bind].
      destruct (Z.eqb_spec start 0); [lia|]. destruct (IH start' al indent ltac:(lia) A) as (ts & E). exists (line :: ts). intros F.
      rewrite E by lia. reflexivity.
    + exists []. reflexivity.
Qed.

(** A text is printed with its first line at one column and all others at another. *)
Theorem C122_indentation : forall s indent offset,
  0 <= indent -> 0 <= offset -> indent + offset < 75 ->
  (Zlen s <= 75 - indent \/ exists k c, 0 <= k <= 75 - indent /\ zget s k = Some c /\ (c = 32 \/ c = 44 \/ c = 124)) ->
  exists first rest, space_print s indent offset = Ok ((indent, first) :: map (fun t => (indent + offset, t)) rest).
Proof.
  intros s indent offset I O B H. unfold space_print. destruct (Z.ltb_spec 75 (Zlen s + indent)).
  - destruct H as [H|(k & c & K & G & Q)]; [lia|]. pose proof (Zlen_nonneg s).
    assert (exists f, List.length s = S f) as (f & F) by (destruct s; [unfold Zlen in *; cbn in *; lia|eexists; reflexivity]).
    rewrite F. cbn [wrap_loop]. destruct (Z.ltb_spec 0 (Zlen s)); [|lia].
    destruct (wrap_step_ok s 0 (75 - indent) ltac:(lia) ltac:(lia)) as (line & start' & -> & L' & LL & S1).
    { right; right. exists k, c. split; [lia|]. split; [exact G|]. unfold sep, c_space, c_comma, c_bar. lia. }
    cbn [bind Z.eqb]. destruct (wrap_loop_later s offset f start' (75 - indent - offset) (indent + offset) ltac:(lia) ltac:(lia)) as (ts & E).
    exists line, ts. rewrite E by (unfold Zlen in *; lia). reflexivity.
  - exists s, []. reflexivity.
Qed.
Print Assumptions C122_indentation.

(** How an argument is laid out: its names from column 3, what does not fit from column 6, then its description at column 5. *)
Theorem C261_layout : forall x, printable x ->
  exists name names desc descs, long_one x = Ok ((3, name) :: map (fun t => (6, t)) names ++ (5, desc) :: map (fun t => (5, t)) descs).
Proof.
  intros x (L & D). unfold long_one.
  destruct (C122_indentation (sh_long x) 3 3 ltac:(lia) ltac:(lia) ltac:(lia) L) as (a & b & ->).
  destruct (C122_indentation (sh_desc x) 5 0 ltac:(lia) ltac:(lia) ltac:(lia) D) as (c & d & ->).
  exists a, b, c, d. reflexivity.
Qed.
Print Assumptions C261_layout.

(** The headings and the version start at the left. *)
Theorem C261_headings : forall c,
  (forall ind line, In (ind, line) (version c) -> ind = 0)
  /\ forall ls ss ll, short_usage c = Ok ss -> long_usage c = Ok ll -> usage c = Ok ls ->
       ls = [(0, []); (0, lit "USAGE: "); (0, [])] ++ ss ++ [(0, []); (0, []); (0, lit "Where: "); (0, [])] ++ ll ++ [(0, [])].
Proof.
  intros c. split.
  - intros ind line [E|[E|[E|[]]]]; now injection E.
  - intros ls ss ll S1 L1 U. unfold usage, then_print in U. rewrite S1, L1 in U. cbn [bind] in U. injection U as <-. reflexivity.
Qed.
Print Assumptions C261_headings.

(** The long form of a labelled argument: every label is followed by the type if and only if the argument takes a value. *)
Theorem C261_long_names : forall d t, unlabelled (d_kind d) = false ->
  exists v more, long_id d t = (match d_flag d with [] => [] | f => lit "-" ++ f ++ v ++ lit ",  " end) ++ lit "--" ++ d_name d ++ v ++ more
    /\ match d_kind d with KValue _ | KMulti _ => v = lit " <" ++ t ++ lit ">" | _ => v = [] end.
Proof.
  intros d t U. unfold long_id, arg_long.
  exists (match d_kind d with KValue _ | KMulti _ => lit " <" ++ t ++ lit ">" | _ => [] end),
    (match d_kind d with KMultiSwitch => lit "  (accepted multiple times) val" | KMulti _ => lit "  (accepted multiple times)" | _ => [] end).
  assert (S0 : seqb [] [] = true) by reflexivity. assert (S1 : forall c f, seqb (c :: f) [] = false) by reflexivity.
  destruct (d_kind d); try discriminate; (split; [|reflexivity]); destruct (d_flag d) as [|c f];
    rewrite ?S0, ?S1; rewrite <- ?app_assoc; cbn [List.app]; rewrite ?app_nil_r, <- ?app_assoc; reflexivity.
Qed.
Print Assumptions C261_long_names.

(** C123, exactly: a text is printed if and only if it fits or can be broken in its first line; otherwise its first character is read past the front. *)
Lemma breaks_dec s indent : {breaks s indent} + {75 - indent < Zlen s /\ forall k c, 0 <= k <= 75 - indent -> zget s k = Some c -> sep c = false}.
Proof.
  unfold breaks. destruct (Z_le_gt_dec (Zlen s) (75 - indent)) as [|G]; [left; now left|].
  destruct (existsb sep (firstn (Z.to_nat (75 - indent + 1)) s)) eqn:E.
  - left. right. apply existsb_exists in E as (c & I & C). apply In_nth_error in I as (n & N).
    assert (L : (n < Z.to_nat (75 - indent + 1))%nat).
    { assert (n < List.length (firstn (Z.to_nat (75 - indent + 1)) s))%nat by (apply nth_error_Some; congruence). rewrite firstn_length in *. lia. }
    exists (Z.of_nat n), c. split; [lia|]. split.
    + unfold zget. destruct (Z.ltb_spec (Z.of_nat n) 0); [lia|]. rewrite Nat2Z.id. rewrite <- (firstn_skipn (Z.to_nat (75 - indent + 1)) s).
      rewrite nth_error_app1; [exact N|]. apply nth_error_Some. congruence.
    + unfold sep, c_space, c_comma, c_bar in C. lia.
  - right. split; [lia|]. intros k c K Z1. destruct (sep c) eqn:C; [|reflexivity]. exfalso.
    assert (X : existsb sep (firstn (Z.to_nat (75 - indent + 1)) s) = true); [|congruence].
    apply existsb_exists. exists c. split; [|exact C]. unfold zget in Z1. destruct (Z.ltb_spec k 0); [lia|].
    rewrite <- (firstn_skipn (Z.to_nat (75 - indent + 1)) s) in Z1.
    destruct (lt_dec (Z.to_nat k) (List.length (firstn (Z.to_nat (75 - indent + 1)) s))) as [L|L].
    + rewrite nth_error_app1 in Z1 by exact L. eapply nth_error_In; exact Z1.
    + exfalso. assert (Z.to_nat k < List.length (firstn (Z.to_nat (75 - indent + 1)) s ++ skipn (Z.to_nat (75 - indent + 1)) s))%nat by (apply nth_error_Some; congruence).
      rewrite firstn_skipn in *. rewrite firstn_length in L. lia.
Qed.
Theorem C123_exactly : forall s indent offset, 0 <= indent -> 0 <= offset -> indent + offset < 75 ->
  (breaks s indent <-> exists ls, space_print s indent offset = Ok ls) /\ (~ breaks s indent <-> space_print s indent offset = UB).
Proof.
  intros s indent offset I O B. destruct (breaks_dec s indent) as [H|(G & H)].
  - destruct (C122_indentation s indent offset I O B H) as (f & r & E). rewrite E. split; split; try (intros _; eauto; fail); try discriminate; intros N; contradiction.
  - assert (U : space_print s indent offset = UB) by (apply C123_usage_of_long_names_refuted_for_all; [lia|exact G|exact H]). rewrite U.
    assert (N : ~ breaks s indent).
    { intros [X|(k & c & K & Z1 & C)]; [lia|]. specialize (H k c K Z1). unfold sep, c_space, c_comma, c_bar in H. lia. }
    split; split; auto; [intros X; contradiction|intros (? & ?); discriminate].
Qed.
Print Assumptions C123_exactly.

(** C261, exactly: the list of arguments can be printed if and only if every text in it can be broken in its first line. *)
Definition done {A} (m : res A) : Prop := exists v, m = Ok v.
Lemma done_then {A} (m k : res (list A)) : done (then_print m k) <-> done m /\ done k.
Proof.
  unfold done, then_print. destruct m as [a| |], k as [b| |]; cbn [bind]; split; intros H; try (destruct H as [? H]; discriminate); try (destruct H as [[? H] [? H']]; discriminate); eauto.
Qed.
Lemma done_space s indent offset : 0 <= indent -> 0 <= offset -> indent + offset < 75 -> (done (space_print s indent offset) <-> breaks s indent).
Proof. intros I O B. symmetry. apply (C123_exactly s indent offset I O B). Qed.
Lemma done_one x : done (long_one x) <-> printable x.
Proof. unfold long_one, printable. rewrite done_then, !done_space by lia. reflexivity. Qed.
Lemma done_ok {A} (v : A) : done (Ok v) <-> True.
Proof. split; [auto|]. intros _. eexists; reflexivity. Qed.
Lemma done_group g : done (long_group g) <-> Forall printable g.
Proof.
  induction g as [|x [|y g] IH].
  - split; [constructor|]. intros _. apply done_ok. exact I.
  - change (long_group [x]) with (long_one x). rewrite done_one. split; [intros H; constructor; [exact H|constructor]|intros H; now apply Forall_inv in H].
  - change (long_group (x :: y :: g)) with (then_print (long_one x) (then_print (space_print (lit "-- OR --") 9 0) (long_group (y :: g)))).
    rewrite !done_then, done_one, IH. rewrite done_space by lia. rewrite (Forall_cons_iff _ x). split; [tauto|].
    intros [H1 H2]. split; [exact H1|]. split; [|exact H2]. left. unfold Zlen; cbn; lia.
Qed.
Lemma done_all {A} (f : A -> res (list (Z * str))) l : done (print_all f l) <-> Forall (fun x => done (f x)) l.
Proof.
  induction l as [|x l IH]; cbn [print_all]; [split; [constructor|intros _; apply done_ok; exact I]|]. rewrite done_then, IH, Forall_cons_iff. reflexivity.
Qed.
Theorem C261_usage_exactly : forall c, 
  (exists ls, long_usage c = Ok ls) <->
  Forall (Forall printable) (k_xor c) /\ Forall printable (filter (fun x => negb (grouped (k_xor c) x)) (k_args c)) /\ breaks (k_message c) 3.
Proof.
  intros c. change (done (long_usage c) <-> Forall (Forall printable) (k_xor c) /\ Forall printable (filter (fun x => negb (grouped (k_xor c) x)) (k_args c)) /\ breaks (k_message c) 3).
  unfold long_usage. rewrite !done_then, !done_all, done_space by lia. rewrite done_ok.
  assert (X : Forall (fun g => done (then_print (long_group g) (Ok (newline ++ newline)))) (k_xor c) <-> Forall (Forall printable) (k_xor c)).
  { split; intros H; eapply Forall_impl; try exact H; cbn beta; intros g; rewrite done_then, done_group, done_ok; tauto. }
  assert (Y : Forall (fun x => done (if in_group c x then Ok [] else then_print (long_one x) (Ok newline))) (k_args c)
              <-> Forall printable (filter (fun x => negb (grouped (k_xor c) x)) (k_args c))).
  { rewrite !Forall_forall. assert (G : forall x, in_group c x = grouped (k_xor c) x) by reflexivity. split.
    - intros H x I1. apply filter_In in I1 as (I1 & N). specialize (H x I1). rewrite G in H. destruct (grouped (k_xor c) x); [discriminate|].
      rewrite done_then, done_one in H. tauto.
    - intros H x I1. rewrite G. destruct (grouped (k_xor c) x) eqn:E; [apply done_ok; exact I|]. rewrite done_then, done_one, done_ok. split; [|exact I].
      apply H. apply filter_In. rewrite E. auto. }
  rewrite X, Y. tauto.
Qed.
Print Assumptions C261_usage_exactly.
(** C261: the description of every argument is announced with "(required)", or "(OR required)" in an exclusive group, if and only if it is required. *)
Theorem C261_descriptions : forall prog version message delim given help p h i d, In (i, d) (p_args p) ->
  exists x, In x (k_args (cmd_of prog version message delim given help p h)) /\ sh_obj x = i /\
    sh_desc x = (if a_req (h i) then (if existsb (existsb (Z.eqb i)) (p_xor p) then lit "(OR required)  " else lit "(required)  ") else []) ++ d_desc d.
Proof.
  intros prog version message delim given help p h i d I. exists (show_arg delim given (p_xor p) h (i, d)). split; [apply in_map_iff; eauto|]. split; [reflexivity|].
  cbn [show_arg sh_desc]. unfold get_description, label_of. destruct (a_req (h i)); [|reflexivity]. destruct (existsb _ (p_xor p)); reflexivity.
Qed.
Print Assumptions C261_descriptions.
