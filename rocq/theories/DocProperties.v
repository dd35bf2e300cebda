(** Properties of the DocBook description of a command line (C242, C243). *)
From Coq Require Import String.
From Verif Require Import Base DocModel.
Local Notation length := List.length.

(** * C242: the texts in the document are the texts of the program *)

(** What is to become of a character: < and > are written as entities; an ID also loses its brackets. *)
Definition shown_desc (c : Z) : list Z := if c =? 60 then [38; 108; 116; 59] else if c =? 62 then [38; 103; 116; 59] else [c].
Definition shown_id (c : Z) : list Z := if (c =? 91) || (c =? 93) then [] else shown_desc c.
(** A reader of XML: the entities &lt; and &gt; stand for < and >. *)
Fixpoint xml_read (fuel : nat) (s : list Z) : list Z :=
  match fuel with
  | O => []
  | S k =>
    match s with
    | [] => []
    | 38 :: 108 :: 116 :: 59 :: tl => 60 :: xml_read k tl
    | 38 :: 103 :: 116 :: 59 :: tl => 62 :: xml_read k tl
    | c :: tl => c :: xml_read k tl
    end
  end.
Definition reads (s : list Z) : list Z := xml_read (length s) s.

Fixpoint occ (r : Z) (s : list Z) : nat := match s with [] => 0 | c :: tl => (if c =? r then 1 else 0) + occ r tl end.
Lemma occ_app r a b : occ r (a ++ b) = (occ r a + occ r b)%nat.
Proof. induction a as [|c a IH]; cbn; [reflexivity|]. rewrite IH. lia. Qed.
Lemma occ_zero r s : ~ In r s -> occ r s = 0%nat.
Proof.
  induction s as [|c s IH]; intros H; [reflexivity|]. cbn. destruct (Z.eqb_spec c r) as [->|]; [destruct H; left; reflexivity|].
  rewrite IH; [reflexivity|]. intros HI; apply H; right; exact HI.
Qed.
Lemma occ_len r s : (occ r s <= length s)%nat.
Proof. induction s as [|c s IH]; cbn; [lia|]. destruct (c =? r); lia. Qed.
Definition replaced (r : Z) (x s : list Z) : list Z := flat_map (fun c => if c =? r then x else [c]) s.
Lemma replaced_none r x s : ~ In r s -> replaced r x s = s.
Proof.
  induction s as [|c s IH]; intros H; [reflexivity|]. unfold replaced in *. cbn. destruct (Z.eqb_spec c r) as [->|]; [destruct H; left; reflexivity|].
  cbn. rewrite IH; [reflexivity|]. intros HI; apply H; right; exact HI.
Qed.
Lemma split_some r s a b : split_at r s = Some (a, b) -> s = a ++ r :: b /\ ~ In r a.
Proof.
  revert a b. induction s as [|c s IH]; intros a b H; [discriminate|]. cbn in H. destruct (Z.eqb_spec c r) as [->|Hc].
  - injection H as <- <-. split; [reflexivity|intros []].
  - destruct (split_at r s) as [[a1 b1]|]; [|discriminate]. injection H as <- <-. destruct (IH a1 b1 eq_refl) as [-> HN].
    split; [reflexivity|]. intros [HI|HI]; [congruence|exact (HN HI)].
Qed.
Lemma split_none r s : split_at r s = None -> ~ In r s.
Proof.
  induction s as [|c s IH]; intros H; [intros []|]. cbn in H. destruct (Z.eqb_spec c r) as [->|Hc]; [discriminate|].
  destruct (split_at r s) as [[a b]|]; [discriminate|]. intros [HI|HI]; [congruence|exact (IH eq_refl HI)].
Qed.
Lemma substitute_ok r x fuel s : ~ In r x -> (occ r s < fuel)%nat -> substitute fuel r x s = Some (replaced r x s).
Proof.
  intros HX. revert s. induction fuel as [|k IH]; intros s H; [lia|]. cbn [substitute]. destruct (split_at r s) as [[a b]|] eqn:E.
  - destruct (split_some _ _ _ _ E) as [-> HN]. rewrite occ_app in H. cbn in H. rewrite Z.eqb_refl in H.
    rewrite IH by (rewrite !occ_app, (occ_zero r x HX); lia).
    f_equal. unfold replaced. rewrite !flat_map_app. f_equal. cbn. rewrite Z.eqb_refl. f_equal. exact (replaced_none r x x HX).
  - rewrite replaced_none by (apply split_none; exact E). reflexivity.
Qed.
Lemma then_sub_ok r x s : ~ In r x -> then_sub r x (Some s) = Some (replaced r x s).
Proof. intros H. unfold then_sub, loops. apply substitute_ok; [exact H|]. pose proof (occ_len r s). lia. Qed.
Lemma replaced_flat r x (f : Z -> list Z) s : replaced r x (flat_map f s) = flat_map (fun c => replaced r x (f c)) s.
Proof. unfold replaced. induction s as [|c s IH]; [reflexivity|]. cbn. rewrite flat_map_app, IH. reflexivity. Qed.
Lemma flat_map_eq (f g : Z -> list Z) s : (forall c, f c = g c) -> flat_map f s = flat_map g s.
Proof. intros H. induction s as [|c s IH]; [reflexivity|]. cbn. rewrite H, IH. reflexivity. Qed.

Lemma desc_step s : replaced 62 gt_txt (replaced 60 lt_txt s) = flat_map shown_desc s.
Proof.
  unfold replaced at 2. rewrite replaced_flat. apply flat_map_eq. intros c. unfold shown_desc.
  destruct (Z.eqb_spec c 60) as [->|]; [reflexivity|]. unfold replaced. cbn. destruct (c =? 62); reflexivity.
Qed.
Lemma desc_text_ok s : desc_text s = Some (flat_map shown_desc s).
Proof.
  unfold desc_text. rewrite (then_sub_ok 60) by (cbn; intuition discriminate). rewrite (then_sub_ok 62) by (cbn; intuition discriminate).
  rewrite desc_step. reflexivity.
Qed.
Lemma id_text_ok s : id_text s = Some (flat_map shown_id s).
Proof.
  unfold id_text. change (then_sub 62 gt_txt (then_sub 60 lt_txt (Some s))) with (desc_text s). rewrite desc_text_ok.
  rewrite (then_sub_ok 91) by (intros []). rewrite (then_sub_ok 93) by (intros []). f_equal. rewrite !replaced_flat.
  apply flat_map_eq. intros c. unfold shown_id, shown_desc.
  destruct (Z.eqb_spec c 60) as [->|]; [reflexivity|]. destruct (Z.eqb_spec c 62) as [->|]; [reflexivity|].
  unfold replaced. cbn. destruct (Z.eqb_spec c 91) as [->|]; [reflexivity|]. cbn. destruct (c =? 93); reflexivity.
Qed.

(** The two loops end for every text, and do this. *)
Theorem C242_escaped : forall s, id_text s = Some (flat_map shown_id s) /\ desc_text s = Some (flat_map shown_desc s) /\
  ~ In 60 (flat_map shown_desc s) /\ ~ In 62 (flat_map shown_desc s) /\ ~ In 60 (flat_map shown_id s) /\ ~ In 62 (flat_map shown_id s).
Proof.
  intros s. split; [apply id_text_ok|]. split; [apply desc_text_ok|].
  assert (D : forall d c, (d = 60 \/ d = 62) -> ~ In d (shown_desc c)).
  { intros d c Hd. unfold shown_desc. destruct (Z.eqb_spec c 60); [cbn; intuition congruence|]. destruct (Z.eqb_spec c 62); cbn; intuition congruence. }
  assert (I : forall d c, (d = 60 \/ d = 62) -> ~ In d (shown_id c)).
  { intros d c Hd. unfold shown_id. destruct ((c =? 91) || (c =? 93)); [intros []|apply D; exact Hd]. }
  repeat split; intros H; apply in_flat_map in H; destruct H as (c & _ & H).
  - exact (D 60 c (or_introl eq_refl) H).
  - exact (D 62 c (or_intror eq_refl) H).
  - exact (I 60 c (or_introl eq_refl) H).
  - exact (I 62 c (or_intror eq_refl) H).
Qed.
Print Assumptions C242_escaped.

Lemma xml_read_desc s : ~ In 38 s -> forall k, (length (flat_map shown_desc s) <= k)%nat -> xml_read k (flat_map shown_desc s) = s.
Proof.
  induction s as [|c s IH]; intros HN k Hk; [destruct k; reflexivity|].
  assert (HN1 : ~ In 38 s) by (intros HI; apply HN; right; exact HI).
  assert (Hc : c <> 38) by (intros ->; apply HN; left; reflexivity).
  cbn [flat_map] in *. unfold shown_desc at 1. unfold shown_desc at 1 in Hk. destruct (Z.eqb_spec c 60) as [->|].
  - rewrite app_length in Hk. destruct k as [|k]; cbn in Hk; [lia|]. cbn [app xml_read]. f_equal. apply IH; [exact HN1|lia].
  - destruct (Z.eqb_spec c 62) as [->|].
    + rewrite app_length in Hk. destruct k as [|k]; cbn in Hk; [lia|]. cbn [app xml_read]. f_equal. apply IH; [exact HN1|lia].
    + cbn [app]. cbn in Hk. destruct k as [|k]; [lia|].
      assert (E : xml_read (S k) (c :: flat_map shown_desc s) = c :: xml_read k (flat_map shown_desc s)).
      { cbn [xml_read]. destruct c as [|p|p]; try reflexivity. do 6 (destruct p as [p|p|]; try reflexivity). congruence. }
      rewrite E. f_equal. apply IH; [exact HN1|lia].
Qed.
(** A text without & is read back as it was; an ID without its brackets. *)
Theorem C242_read_back_partial : forall s, ~ In 38 s ->
  (exists t, desc_text s = Some t /\ reads t = s) /\
  (exists t, id_text s = Some t /\ reads t = filter (fun c => negb ((c =? 91) || (c =? 93))) s).
Proof.
  intros s HN. split.
  - exists (flat_map shown_desc s). split; [apply desc_text_ok|]. apply xml_read_desc; [exact HN|lia].
  - exists (flat_map shown_id s). split; [apply id_text_ok|].
    assert (E : flat_map shown_id s = flat_map shown_desc (filter (fun c => negb ((c =? 91) || (c =? 93))) s)).
    { clear. induction s as [|c s IH]; [reflexivity|]. cbn [flat_map filter]. unfold shown_id at 1. destruct ((c =? 91) || (c =? 93)); cbn [negb flat_map app]; rewrite IH; reflexivity. }
    rewrite E. unfold reads. apply xml_read_desc; [|lia]. intros HI. apply filter_In in HI. apply HN, HI.
Qed.
Print Assumptions C242_read_back_partial.
(** An & is not escaped: a description that speaks of &lt; is read as speaking of <. *)
Theorem C242_ampersand_refuted : exists s t, desc_text s = Some t /\ reads t <> s.
Proof. exists [38; 108; 116; 59]. eexists. split; [apply desc_text_ok|]. cbn. discriminate. Qed.
Print Assumptions C242_ampersand_refuted.
(** The program's name, message and version are not escaped at all. *)
Theorem C242_message_refuted : exists c out, usage c = Some out /\ In (Data [60; 62]) out.
Proof. exists (mkC [] [] [60; 62] [] []). eexists. split; [reflexivity|]. cbn. tauto. Qed.
Print Assumptions C242_message_refuted.
Example C242_case : desc_text [97; 60; 98] = Some [97; 38; 108; 116; 59; 98] /\ id_text [45; 112; 32; 60; 91; 120; 93; 62] = Some [45; 112; 32; 38; 108; 116; 59; 120; 38; 103; 116; 59].
Proof. split; reflexivity. Qed.

(** * C243: the document is well formed *)

(** Every tag that is opened is closed, in the right order. *)
Inductive tag := T (s : string) | TArg.
Definition tag_eqb (a b : tag) : bool := match a, b with T x, T y => String.eqb x y | TArg, TArg => true | _, _ => false end.
Fixpoint balanced (stack : list tag) (l : list piece) : option (list tag) :=
  match l with
  | [] => Some stack
  | Open t :: tl => balanced (T t :: stack) tl
  | ArgOpen _ _ :: tl => balanced (TArg :: stack) tl
  | Close t :: tl => match stack with x :: st => if tag_eqb x (T t) then balanced st tl else None | [] => None end
  | ArgClose :: tl => match stack with x :: st => if tag_eqb x TArg then balanced st tl else None | [] => None end
  | _ :: tl => balanced stack tl
  end.
Lemma balanced_app l1 : forall st l2, balanced st (l1 ++ l2) = match balanced st l1 with Some st1 => balanced st1 l2 | None => None end.
Proof.
  induction l1 as [|p l1 IH]; intros st l2; [reflexivity|]. destruct p; cbn [app balanced]; try apply IH.
  - destruct st as [|x st]; [reflexivity|]. destruct (tag_eqb x (T t)); [apply IH|reflexivity].
  - destruct st as [|x st]; [reflexivity|]. destruct (tag_eqb x TArg); [apply IH|reflexivity].
Qed.
(** A part of the document that leaves the stack as it was. *)
Definition neutral (o : option (list piece)) : Prop := exists l, o = Some l /\ forall st, balanced st l = Some st.
Lemma neutral_short a : neutral (short_arg a).
Proof. unfold short_arg. rewrite id_text_ok. eexists. split; [reflexivity|]. intros st. reflexivity. Qed.
Lemma neutral_long a : neutral (long_arg a).
Proof. unfold long_arg. rewrite id_text_ok, desc_text_ok. eexists. split; [reflexivity|]. intros st. reflexivity. Qed.
Lemma neutral_all f l : (forall a, neutral (f a)) -> neutral (all f l).
Proof.
  intros H. induction l as [|a l (y & Ey & Hy)]; [exists []; split; reflexivity|]. destruct (H a) as (x & Ex & Hx).
  cbn. rewrite Ex, Ey. eexists. split; [reflexivity|]. intros st. rewrite balanced_app, Hx. apply Hy.
Qed.
Lemma neutral_group_short g : neutral (group_short g).
Proof.
  unfold group_short. destruct (neutral_all short_arg g neutral_short) as (l & -> & H). eexists. split; [reflexivity|].
  intros st. cbn [balanced]. rewrite balanced_app, H. reflexivity.
Qed.
Lemma neutral_with_or n g : forall k, neutral (with_or n k g).
Proof.
  induction g as [|a g IH]; intros k; [exists []; split; reflexivity|]. cbn [with_or]. destruct (neutral_long a) as (x & -> & Hx). destruct (IH (S k)) as (y & -> & Hy).
  eexists. split; [reflexivity|]. intros st. rewrite balanced_app, Hx. destruct (Nat.ltb k n); [cbn; apply Hy|apply Hy].
Qed.
Lemma neutral_group_long n g : neutral (group_long n g).
Proof.
  unfold group_long. destruct (neutral_with_or (n - 1) g 0) as (l & -> & H). eexists. split; [reflexivity|].
  intros st. cbn [balanced]. rewrite balanced_app, H. reflexivity.
Qed.
Lemma concat_opt_app {A} (l1 l2 : list (option (list A))) :
  concat_opt (l1 ++ l2) = match concat_opt l1, concat_opt l2 with Some a, Some b => Some (a ++ b) | _, _ => None end.
Proof.
  induction l1 as [|x l1 IH]; cbn; [destruct (concat_opt l2); reflexivity|]. rewrite IH. destruct x as [x|]; [|reflexivity].
  destruct (concat_opt l1); [|reflexivity]. destruct (concat_opt l2); [|reflexivity]. rewrite app_assoc. reflexivity.
Qed.
Lemma neutral_map {X} (f : X -> option (list piece)) l : (forall x, neutral (f x)) -> neutral (concat_opt (map f l)).
Proof.
  intros H. induction l as [|a l (y & Ey & Hy)]; [exists []; split; reflexivity|]. destruct (H a) as (x & Ex & Hx).
  cbn. rewrite Ex, Ey. eexists. split; [reflexivity|]. intros st. rewrite balanced_app, Hx. apply Hy.
Qed.
Theorem C243_balanced : forall c, exists out, usage c = Some out /\ balanced [] out = Some [].
Proof.
  intros c. unfold usage. rewrite !concat_opt_app.
  destruct (neutral_map group_short (c_xor c) neutral_group_short) as (g1 & -> & H1).
  destruct (neutral_map (group_long (length (c_xor c))) (c_xor c) (neutral_group_long _)) as (g2 & -> & H2).
  destruct (neutral_all short_arg (rest_args c) neutral_short) as (r1 & E1 & H3).
  destruct (neutral_all long_arg (rest_args c) neutral_long) as (r2 & E2 & H4).
  cbn [concat_opt]. rewrite E1, E2. eexists. split; [reflexivity|]. rewrite !app_nil_r.
  cbn [app balanced tag_eqb]. simpl String.eqb. cbv iota.
  rewrite balanced_app, H1. cbv iota beta. rewrite balanced_app, H3. cbv iota beta. cbn [app balanced tag_eqb]. simpl String.eqb. cbv iota.
  rewrite balanced_app, H2. cbv iota beta. rewrite balanced_app, H4. reflexivity.
Qed.
Print Assumptions C243_balanced.

(** Every argument is listed once in the synopsis: those of groups in their groups, the others after them. *)
Fixpoint args_listed (l : list piece) : list (bool * bool * list Z) :=
  match l with
  | ArgOpen r m :: tl => match tl with Data s :: _ => (r, m, s) :: args_listed tl | _ => args_listed tl end
  | _ :: tl => args_listed tl
  | [] => []
  end.

Definition listed (a : darg) : bool * bool * list Z := (d_req a, d_multi a, flat_map shown_id (d_short a)).
(** The arguments that are in no group. *)
Definition alone (c : dcmd) (a : darg) : bool := forallb (forallb (fun b => negb (Nat.eqb (d_obj a) (d_obj b)))) (c_xor c).
Lemma alone_rest c : rest_args c = filter (alone c) (c_args c).
Proof.
  unfold rest_args. apply filter_ext. intros a. unfold in_xor, alone. induction (c_xor c) as [|g l IH]; [reflexivity|]. cbn. rewrite negb_orb, IH.
  f_equal. induction g as [|b g IHg]; [reflexivity|]. cbn. rewrite negb_orb, IHg. reflexivity.
Qed.
Lemma args_shorts l p tl : all short_arg l = Some p -> args_listed (p ++ tl) = map listed l ++ args_listed tl.
Proof.
  revert p. induction l as [|a l IH]; intros p H; [injection H as <-; reflexivity|].
  cbn [all] in H. unfold short_arg at 1 in H. rewrite id_text_ok in H. destruct (all short_arg l) as [y|]; [|discriminate]. injection H as <-.
  cbn [app args_listed map]. rewrite (IH y eq_refl). reflexivity.
Qed.
Lemma args_groups l p tl : concat_opt (map group_short l) = Some p -> args_listed (p ++ tl) = map listed (concat l) ++ args_listed tl.
Proof.
  revert p. induction l as [|g l IH]; intros p H; [injection H as <-; reflexivity|].
  cbn [map concat_opt] in H. unfold group_short at 1 in H. destruct (all short_arg g) as [x|] eqn:E; [|discriminate].
  destruct (concat_opt (map group_short l)) as [y|]; [|discriminate]. injection H as <-.
  cbn [app args_listed concat]. rewrite <- app_assoc, <- app_assoc. rewrite (args_shorts g x _ E). cbn [app args_listed]. rewrite (IH y eq_refl).
  rewrite map_app, app_assoc. reflexivity.
Qed.
Lemma args_longs_or x g : forall k p tl, with_or x k g = Some p -> args_listed (p ++ tl) = args_listed tl.
Proof.
  induction g as [|a g IH]; intros k p tl H; [injection H as <-; reflexivity|].
  cbn [with_or] in H. unfold long_arg in H. rewrite id_text_ok, desc_text_ok in H. destruct (with_or x (S k) g) as [y|] eqn:E; [|discriminate].
  injection H as <-. cbn [app args_listed]. destruct (Nat.ltb k x); cbn [app args_listed]; exact (IH (S k) y tl E).
Qed.
Lemma args_glongs n l p tl : concat_opt (map (group_long n) l) = Some p -> args_listed (p ++ tl) = args_listed tl.
Proof.
  revert p. induction l as [|g l IH]; intros p H; [injection H as <-; reflexivity|].
  cbn [map concat_opt] in H. unfold group_long at 1 in H. destruct (with_or (n - 1) 0 g) as [x|] eqn:E; [|discriminate].
  destruct (concat_opt (map (group_long n) l)) as [y|]; [|discriminate]. injection H as <-.
  cbn [app args_listed]. rewrite <- !app_assoc. rewrite (args_longs_or _ _ _ _ _ E). cbn [app args_listed]. exact (IH y eq_refl).
Qed.
Lemma args_longs l p tl : all long_arg l = Some p -> args_listed (p ++ tl) = args_listed tl.
Proof.
  revert p. induction l as [|a l IH]; intros p H; [injection H as <-; reflexivity|].
  cbn [all] in H. unfold long_arg at 1 in H. rewrite id_text_ok, desc_text_ok in H. destruct (all long_arg l) as [y|]; [|discriminate]. injection H as <-.
  cbn [app args_listed]. exact (IH y eq_refl).
Qed.
Theorem C243_listed : forall c out, usage c = Some out -> args_listed out = map listed (concat (c_xor c)) ++ map listed (filter (alone c) (c_args c)).
Proof.
  intros c out H. unfold usage in H. rewrite !concat_opt_app in H.
  destruct (neutral_map group_short (c_xor c) neutral_group_short) as (g1 & E1 & _).
  destruct (neutral_map (group_long (length (c_xor c))) (c_xor c) (neutral_group_long _)) as (g2 & E2 & _).
  destruct (neutral_all short_arg (rest_args c) neutral_short) as (r1 & E3 & _).
  destruct (neutral_all long_arg (rest_args c) neutral_long) as (r2 & E4 & _).
  rewrite E1, E2 in H. cbn [concat_opt] in H. rewrite E3, E4 in H. rewrite !app_nil_r in H. injection H as <-.
  cbn [app args_listed]. rewrite (args_groups _ _ _ E1), (args_shorts _ _ _ E3). cbn [app args_listed].
  rewrite (args_glongs _ _ _ _ E2), (args_longs _ _ _ E4). cbn [args_listed]. rewrite app_nil_r, alone_rest. reflexivity.
Qed.
Print Assumptions C243_listed.

(** Every argument is described once, with its ID and its description. *)
Definition first_entry (l : list piece) : list (list Z * list Z) :=
  match l with Open _ :: Data i :: Close _ :: Open _ :: Data d :: _ => [(i, d)] | _ => [] end.
Fixpoint described (l : list piece) : list (list Z * list Z) :=
  match l with
  | Open t :: tl => (if String.eqb t "simplelist" then first_entry tl else []) ++ described tl
  | _ :: tl => described tl
  | [] => []
  end.
Definition entry (a : darg) : list Z * list Z := (flat_map shown_id (d_long a), flat_map shown_desc (d_desc a)).
Lemma desc_shorts l p tl : all short_arg l = Some p -> described (p ++ tl) = described tl.
Proof.
  revert p. induction l as [|a l IH]; intros p H; [injection H as <-; reflexivity|].
  cbn [all] in H. unfold short_arg at 1 in H. rewrite id_text_ok in H. destruct (all short_arg l) as [y|]; [|discriminate]. injection H as <-.
  cbn [app described]. exact (IH y eq_refl).
Qed.
Lemma desc_groups l p tl : concat_opt (map group_short l) = Some p -> described (p ++ tl) = described tl.
Proof.
  revert p. induction l as [|g l IH]; intros p H; [injection H as <-; reflexivity|].
  cbn [map concat_opt] in H. unfold group_short at 1 in H. destruct (all short_arg g) as [x|] eqn:E; [|discriminate].
  destruct (concat_opt (map group_short l)) as [y|]; [|discriminate]. injection H as <-.
  cbn [app described]. cbn [String.eqb Ascii.eqb Bool.eqb app first_entry]. rewrite <- app_assoc, <- app_assoc. rewrite (desc_shorts g x _ E). cbn [app described]. exact (IH y eq_refl).
Qed.
Lemma desc_longs_or x g : forall k p tl, with_or x k g = Some p -> described (p ++ tl) = map entry g ++ described tl.
Proof.
  induction g as [|a g IH]; intros k p tl H; [injection H as <-; reflexivity|].
  cbn [with_or] in H. unfold long_arg in H. rewrite id_text_ok, desc_text_ok in H. destruct (with_or x (S k) g) as [y|] eqn:E; [|discriminate].
  injection H as <-. cbn [app described map]. cbn [String.eqb Ascii.eqb Bool.eqb app first_entry].
  assert (HI := IH (S k) y tl E). destruct (Nat.ltb k x); cbn [app described]; cbn [String.eqb Ascii.eqb Bool.eqb app first_entry]; rewrite HI; reflexivity.
Qed.
Lemma desc_glongs n l p tl : concat_opt (map (group_long n) l) = Some p -> described (p ++ tl) = map entry (concat l) ++ described tl.
Proof.
  revert p. induction l as [|g l IH]; intros p H; [injection H as <-; reflexivity|].
  cbn [map concat_opt] in H. unfold group_long at 1 in H. destruct (with_or (n - 1) 0 g) as [x|] eqn:E; [|discriminate].
  destruct (concat_opt (map (group_long n) l)) as [y|]; [|discriminate]. injection H as <-.
  cbn [app described concat]. cbn [String.eqb Ascii.eqb Bool.eqb app first_entry]. rewrite <- !app_assoc. rewrite (desc_longs_or _ _ _ _ _ E). cbn [app described].
  rewrite (IH y eq_refl), map_app, app_assoc. reflexivity.
Qed.
Lemma desc_longs l p tl : all long_arg l = Some p -> described (p ++ tl) = map entry l ++ described tl.
Proof.
  revert p. induction l as [|a l IH]; intros p H; [injection H as <-; reflexivity|].
  cbn [all] in H. unfold long_arg at 1 in H. rewrite id_text_ok, desc_text_ok in H. destruct (all long_arg l) as [y|]; [|discriminate]. injection H as <-.
  cbn [app described map]. cbn [String.eqb Ascii.eqb Bool.eqb app first_entry]. rewrite (IH y eq_refl). reflexivity.
Qed.
Theorem C243_described : forall c out, usage c = Some out -> described out = map entry (concat (c_xor c)) ++ map entry (filter (alone c) (c_args c)).
Proof.
  intros c out H. unfold usage in H. rewrite !concat_opt_app in H.
  destruct (neutral_map group_short (c_xor c) neutral_group_short) as (g1 & E1 & _).
  destruct (neutral_map (group_long (length (c_xor c))) (c_xor c) (neutral_group_long _)) as (g2 & E2 & _).
  destruct (neutral_all short_arg (rest_args c) neutral_short) as (r1 & E3 & _).
  destruct (neutral_all long_arg (rest_args c) neutral_long) as (r2 & E4 & _).
  rewrite E1, E2 in H. cbn [concat_opt] in H. rewrite E3, E4 in H. rewrite !app_nil_r in H. injection H as <-.
  cbn [app described]. cbn [String.eqb Ascii.eqb Bool.eqb app first_entry]. rewrite (desc_groups _ _ _ E1), (desc_shorts _ _ _ E3). cbn [app described]. cbn [String.eqb Ascii.eqb Bool.eqb app first_entry].
  rewrite (desc_glongs _ _ _ _ E2), (desc_longs _ _ _ E4). cbn [described]. cbn [String.eqb Ascii.eqb Bool.eqb app first_entry]. rewrite app_nil_r, alone_rest. reflexivity.
Qed.
Print Assumptions C243_described.

(** Between the members of a group there is an OR, and nowhere else. *)
Fixpoint alternatives (n : nat) : list bool := match n with O => [] | S O => [false] | S k => true :: alternatives k end.
(** Whether the arguments that are described are followed by an OR. *)
Definition or_next (l : list piece) : bool := match l with Open u :: _ => String.eqb u "listitem" | _ => false end.
Fixpoint members (l : list piece) : list bool :=
  match l with
  | Close t :: tl => (if String.eqb t "simplelist" then [or_next tl] else []) ++ members tl
  | _ :: tl => members tl
  | [] => []
  end.
Lemma members_app p tl : or_next tl = false -> members (p ++ tl) = members p ++ members tl.
Proof.
  intros H. induction p as [|x p IH]; [reflexivity|]. destruct x; cbn [app members]; try exact IH.
  rewrite IH, app_assoc. f_equal. f_equal. destruct (String.eqb t "simplelist"); [|reflexivity]. f_equal.
  destruct p; [cbn; rewrite H|]; reflexivity.
Qed.
Lemma with_or_cons x k a g p : with_or x k (a :: g) = Some p -> exists y, with_or x (S k) g = Some y /\
  p = [Open "simplelist"; Open "member"; Data (flat_map shown_id (d_long a)); Close "member"; Open "member"; Data (flat_map shown_desc (d_desc a)); Close "member"; Close "simplelist"]
      ++ (if Nat.ltb k x then [Open "listitem"; Word "OR"; Close "listitem"] else []) ++ y.
Proof.
  cbn [with_or]. unfold long_arg. rewrite id_text_ok, desc_text_ok. destruct (with_or x (S k) g) as [y|]; [|discriminate].
  intros H. injection H as <-. exists y. split; reflexivity.
Qed.
Lemma starts x k g p : with_or x k g = Some p -> or_next p = false.
Proof.
  destruct g as [|a g]; [intros H; injection H as <-; reflexivity|]. intros H. destruct (with_or_cons _ _ _ _ _ H) as (y & _ & ->). reflexivity.
Qed.
Lemma members_with_or x g : forall k p, with_or x k g = Some p -> members p = map (fun i => Nat.ltb i x) (seq k (length g)).
Proof.
  induction g as [|a g IH]; intros k p H; [injection H as <-; reflexivity|].
  destruct (with_or_cons _ _ _ _ _ H) as (y & Hy & ->). cbn [length seq map].
  rewrite <- (IH (S k) y Hy). destruct (Nat.ltb k x).
  - reflexivity.
  - pose proof (starts _ _ _ _ Hy) as HS. cbn [app members String.eqb Ascii.eqb Bool.eqb]. rewrite HS. reflexivity.
Qed.
Definition or_of (n : nat) (g : list darg) : list bool := map (fun i => Nat.ltb i (n - 1)) (seq 0 (length g)).
Lemma members_glongs n l p : concat_opt (map (group_long n) l) = Some p -> or_next p = false /\ members p = flat_map (or_of n) l.
Proof.
  revert p. induction l as [|g l IH]; intros p H; [injection H as <-; split; reflexivity|].
  cbn [map concat_opt] in H. unfold group_long at 1 in H. destruct (with_or (n - 1) 0 g) as [x|] eqn:E; [|discriminate].
  destruct (concat_opt (map (group_long n) l)) as [y|]; [|discriminate]. injection H as <-. destruct (IH y eq_refl) as [HN HM].
  split; [reflexivity|]. cbn [app members flat_map]. rewrite <- app_assoc. cbn [app]. rewrite members_app by reflexivity.
  cbn [members String.eqb Ascii.eqb Bool.eqb app]. rewrite HM. rewrite (members_with_or _ _ _ _ E). reflexivity.
Qed.
Lemma members_longs l p : all long_arg l = Some p -> or_next p = false /\ members p = repeat false (length l).
Proof.
  revert p. induction l as [|a l IH]; intros p H; [injection H as <-; split; reflexivity|].
  cbn [all] in H. unfold long_arg at 1 in H. rewrite id_text_ok, desc_text_ok in H. destruct (all long_arg l) as [y|]; [|discriminate]. injection H as <-.
  destruct (IH y eq_refl) as [HN HM]. split; [reflexivity|]. cbn [app members String.eqb Ascii.eqb Bool.eqb length repeat]. rewrite HN, HM. reflexivity.
Qed.
Lemma members_shorts l p : all short_arg l = Some p -> or_next p = false /\ members p = [].
Proof.
  revert p. induction l as [|a l IH]; intros p H; [injection H as <-; split; reflexivity|].
  cbn [all] in H. unfold short_arg at 1 in H. rewrite id_text_ok in H. destruct (all short_arg l) as [y|]; [|discriminate]. injection H as <-.
  destruct (IH y eq_refl) as [HN HM]. split; [reflexivity|]. exact HM.
Qed.
Lemma members_groups l p : concat_opt (map group_short l) = Some p -> or_next p = false /\ members p = [].
Proof.
  revert p. induction l as [|g l IH]; intros p H; [injection H as <-; split; reflexivity|].
  cbn [map concat_opt] in H. unfold group_short at 1 in H. destruct (all short_arg g) as [x|] eqn:E; [|discriminate].
  destruct (concat_opt (map group_short l)) as [y|]; [|discriminate]. injection H as <-. destruct (IH y eq_refl) as [HN HM].
  split; [reflexivity|]. cbn [app members]. rewrite <- app_assoc. cbn [app]. rewrite members_app by reflexivity.
  rewrite (proj2 (members_shorts _ _ E)). cbn [members String.eqb Ascii.eqb Bool.eqb app]. exact HM.
Qed.
Lemma alternatives_all n : or_of n (repeat (mkD 0 [] [] [] false false) n) = alternatives n.
Proof.
  unfold or_of. rewrite repeat_length. destruct n as [|n]; [reflexivity|]. replace (S n - 1)%nat with n by lia.
  assert (G : forall m k, map (fun i => Nat.ltb i (k + m)) (seq k (S m)) = alternatives (S m)).
  { induction m as [|m IH]; intros k; [cbn [seq map]; rewrite Nat.add_0_r, Nat.ltb_irrefl; reflexivity|].
    change (alternatives (S (S m))) with (true :: alternatives (S m)). rewrite <- (IH (S k)).
    cbn [seq map]. f_equal; [apply Nat.ltb_lt; lia|].
    replace (S k + m)%nat with (k + S m)%nat by lia. reflexivity. }
  exact (G n 0%nat).
Qed.
Lemma or_of_length n g : length g = n -> or_of n g = alternatives n.
Proof. intros H. rewrite <- alternatives_all. unfold or_of. rewrite repeat_length, H. reflexivity. Qed.
Lemma or_general c out : usage c = Some out ->
  members out = flat_map (or_of (length (c_xor c))) (c_xor c) ++ repeat false (length (filter (alone c) (c_args c))).
Proof.
  intros H. unfold usage in H. rewrite !concat_opt_app in H.
  destruct (neutral_map group_short (c_xor c) neutral_group_short) as (g1 & E1 & _).
  destruct (neutral_map (group_long (length (c_xor c))) (c_xor c) (neutral_group_long _)) as (g2 & E2 & _).
  destruct (neutral_all short_arg (rest_args c) neutral_short) as (r1 & E3 & _).
  destruct (neutral_all long_arg (rest_args c) neutral_long) as (r2 & E4 & _).
  rewrite E1, E2 in H. cbn [concat_opt] in H. rewrite E3, E4 in H. rewrite !app_nil_r in H. injection H as <-.
  destruct (members_groups _ _ E1) as [N1 M1]. destruct (members_glongs _ _ _ E2) as [N2 M2].
  destruct (members_shorts _ _ E3) as [N3 M3]. destruct (members_longs _ _ E4) as [N4 M4]. rewrite alone_rest in M4.
  cbn [app members String.eqb Ascii.eqb Bool.eqb].
  assert (K : forall (u : list piece) v, or_next u = false -> or_next v = false -> or_next (u ++ v) = false).
  { intros u v Hu Hv. destruct u; [exact Hv|exact Hu]. }
  rewrite members_app by (apply K; [exact N3|reflexivity]). rewrite M1. cbn [app].
  rewrite members_app by reflexivity. rewrite M3. cbn [app members String.eqb Ascii.eqb Bool.eqb].
  rewrite members_app by (apply K; [exact N4|reflexivity]). rewrite M2. f_equal.
  rewrite members_app by reflexivity. rewrite M4. cbn [members String.eqb Ascii.eqb Bool.eqb app]. rewrite app_nil_r. reflexivity.
Qed.
(** If each group has as many members as there are groups, the separators are right. *)
Theorem C243_or_partial : forall c out, usage c = Some out -> Forall (fun g => length g = length (c_xor c)) (c_xor c) ->
  members out = flat_map (fun g => alternatives (length g)) (c_xor c) ++ repeat false (length (filter (alone c) (c_args c))).
Proof.
  intros c out H HF. rewrite (or_general c out H). f_equal. revert HF. generalize (length (c_xor c)). intros n HF.
  induction HF as [|g l Hg HF IH]; [reflexivity|]. cbn [flat_map]. rewrite IH, (or_of_length n g Hg), Hg. reflexivity.
Qed.
Print Assumptions C243_or_partial.
(** In general the first n-1 members of each of the n groups are followed by OR: the number of groups is taken for the number of members. *)
Theorem C243_or_counted : forall c out, usage c = Some out ->
  members out = flat_map (fun g => map (fun i => Nat.ltb i (length (c_xor c) - 1)) (seq 0 (length g))) (c_xor c) ++
                repeat false (length (filter (alone c) (c_args c))).
Proof. exact or_general. Qed.
Print Assumptions C243_or_counted.
(** One group of two alternatives has no OR, and of two groups each ends in OR if it has one member. *)
Theorem C243_or_refuted : exists a b,
  (exists out, usage (mkC [] [] [] [a; b] [[a; b]]) = Some out /\ members out = [false; false]) /\
  (exists out, usage (mkC [] [] [] [a; b] [[a]; [b]]) = Some out /\ members out = [true; true]).
Proof.
  exists (mkD 0 [] [] [] false false), (mkD 1 [] [] [] false false). split; eexists; split; reflexivity.
Qed.
Print Assumptions C243_or_refuted.
Example C243_groups : let a := mkD 0 [] [] [] false false in
  Forall (fun g => length g = length [[a; a]; [a; a]]) [[a; a]; [a; a]] /\ alternatives 2 = [true; false].
Proof. repeat constructor. Qed.
Example C243_case : exists out, usage (mkC [112] [49] [109] [mkD 0 [45] [45] [97] true false; mkD 1 [45] [45] [98] true false] [[mkD 0 [45] [45] [97] true false]]) = Some out /\
  args_listed out = [(true, false, [45]); (true, false, [45])].
Proof. eexists. split; reflexivity. Qed.
