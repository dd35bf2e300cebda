(** Specifications and proofs for the exceptions. *)
From Verif Require Import Base ExcModel.
From Coq Require Import Strings.String.
Open Scope string_scope.
Open Scope list_scope.
Open Scope Z_scope.

(** The exception that leaves the outermost of the levels [ls] (innermost first). *)
Definition rethrown (ft : err -> list Z) (ls : list (list Z)) (e : exc) : exc := fold_left (fun e l => exc_again ft l e) ls e.

(** Specification: lines of the report. *)
Definition no_char (c : Z) (s : list Z) : Prop := ~ In c s.
Fixpoint join (l : list (list Z)) : list Z :=
  match l with [] => [] | [a] => a | a :: r => a ++ [10] ++ [32;32;32;32;32;32;32;32;32;58;32] ++ join r end.

Lemma join_cons a b r : join (a :: b :: r) = a ++ sep ++ join (b :: r).
Proof. reflexivity. Qed.
Lemma rethrown_fields ft : forall ls e, eflag (rethrown ft ls e) = eflag e /\ edetail (rethrown ft ls e) = edetail e /\ edata (rethrown ft ls e) = edata e.
Proof. induction ls as [|l ls IH]; intros e; [auto|]. cbn [rethrown fold_left]. destruct (IH (exc_again ft l e)) as (H1 & H2 & H3). auto. Qed.
Lemma rethrown_loc ft : forall ls e p, eloc e = join p -> p <> [] -> eloc (rethrown ft ls e) = join (rev ls ++ p).
Proof.
  induction ls as [|l ls IH]; intros e p H Hp; [exact H|]. cbn [rethrown fold_left]. cbn [rev]. rewrite <- app_assoc. apply IH; [|discriminate].
  cbn [exc_again eloc]. rewrite H. destruct p as [|b p]; [congruence|]. cbn [app]. rewrite join_cons. reflexivity.
Qed.
Lemma rethrown_combined ft : forall ls e, ecombined e = combine ft (eloc e) (eflag e) (edetail e) (edata e) ->
  ecombined (rethrown ft ls e) = combine ft (eloc (rethrown ft ls e)) (eflag e) (edetail e) (edata e).
Proof.
  induction ls as [|l ls IH]; intros e H; [exact H|]. cbn [rethrown fold_left]. specialize (IH (exc_again ft l e) eq_refl). exact IH.
Qed.

Lemma c_text_id l : no_char 0 l -> c_text l = l.
Proof.
  induction l as [|c l IH]; intros H; [reflexivity|]. cbn [c_text]. replace (c =? 0) with false by (symmetry; apply Z.eqb_neq; intros ->; apply H; left; reflexivity).
  f_equal. apply IH. intros F. apply H. right. exact F.
Qed.
Lemma no_char_app c a b : no_char c (a ++ b) <-> no_char c a /\ no_char c b.
Proof. unfold no_char. rewrite in_app_iff. tauto. Qed.
Lemma no_char_lit c l : forallb (fun x => negb (x =? c)) l = true -> no_char c l.
Proof. intros H F. rewrite forallb_forall in H. specialize (H c F). rewrite Z.eqb_refl in H. discriminate. Qed.
Lemma no_char_join c p : c <> 10 -> c <> 32 -> c <> 58 -> Forall (no_char c) p -> no_char c (join p).
Proof.
  intros H1 H2 H3. induction p as [|a [|b p] IH]; intros HF; [intros []|inversion HF; assumption|].
  rewrite join_cons. inversion HF as [|? ? F1 F2]; subst. rewrite !no_char_app. split; [exact F1|]. split; [|apply IH; exact F2].
  change sep with (10 :: [32;32;32;32;32;32;32;32;32;58;32]). intros F. cbn [In] in F. repeat (destruct F as [F|F]; [lia|]). exact F.
Qed.

Lemma split_nl a x : forall b y, no_char 10 a -> no_char 10 b -> a ++ 10 :: x = b ++ 10 :: y -> a = b /\ x = y.
Proof.
  induction a as [|c a IH]; intros [|d b] y Ha Hb H; cbn in H.
  - injection H as H. auto.
  - injection H as H1 H2. exfalso. apply Hb. left. auto.
  - injection H as H1 H2. exfalso. apply Ha. left. auto.
  - injection H as -> H. destruct (IH b y) as [-> ->]; auto.
    + intros F. apply Ha. right. exact F.
    + intros F. apply Hb. right. exact F.
Qed.

(** The text determines the list of locations. *)
Lemma join_inj p : forall q x y, p <> [] -> q <> [] -> Forall (no_char 10) p -> Forall (no_char 10) q ->
  join p ++ 10 :: 70 :: x = join q ++ 10 :: 70 :: y -> p = q /\ x = y.
Proof.
  induction p as [|a p IH]; intros q x y Hp Hq HP HQ H; [congruence|]. destruct q as [|b q]; [congruence|].
  inversion HP as [|? ? P1 P2]; subst. inversion HQ as [|? ? Q1 Q2]; subst.
  destruct p as [|a2 p], q as [|b2 q]; rewrite ?join_cons in H.
  - cbn [join] in H. destruct (split_nl _ _ _ _ P1 Q1 H) as [-> H2]. injection H2 as ->. auto.
  - exfalso. cbn [join] in H. change sep with (10 :: [32;32;32;32;32;32;32;32;32;58;32]) in H. rewrite <- !app_assoc in H. cbn [app] in H.
    destruct (split_nl _ _ _ _ P1 Q1 H) as [_ H2]. discriminate.
  - exfalso. cbn [join] in H. change sep with (10 :: [32;32;32;32;32;32;32;32;32;58;32]) in H. rewrite <- !app_assoc in H. cbn [app] in H.
    destruct (split_nl _ _ _ _ P1 Q1 H) as [_ H2]. discriminate.
  - change sep with (10 :: [32;32;32;32;32;32;32;32;32;58;32]) in H. rewrite <- !app_assoc in H. cbn [app] in H.
    destruct (split_nl _ _ _ _ P1 Q1 H) as [-> H2]. injection H2 as H2. destruct (IH (b2 :: q) x y) as [-> ->]; auto; discriminate.
Qed.

Lemma combine_shape ft loc f d data : combine ft loc f d data =
  loc_head ++ loc ++ 10 :: 70 :: (codes "lag     : " ++ ft f ++ 10 :: (if 0 <? Zlen d then detail_head ++ d ++ [10] else []) ++
  match data with Some x => data_head ++ x ++ [10] | None => [] end).
Proof. unfold combine. cbn. rewrite <- ?app_assoc. reflexivity. Qed.

Lemma rethrow_text ft l0 f msg data ls : let e := rethrown ft ls (exc_new ft l0 f msg data) in
  eflag e = f /\ edetail e = msg /\ edata e = data /\
  ecombined e = [10] ++ codes "Location : " ++ join (rev ls ++ [l0]) ++ [10] ++ codes "Flag     : " ++ ft f ++ [10] ++
    (if 0 <? Zlen msg then codes "Detail   : " ++ msg ++ [10] else []) ++
    match data with Some d => codes "Data     : " ++ d ++ [10] | None => [] end.
Proof.
  intros e. destruct (rethrown_fields ft ls (exc_new ft l0 f msg data)) as (H1 & H2 & H3). unfold e. rewrite H1, H2, H3. split; [reflexivity|]. split; [reflexivity|].
  split; [reflexivity|]. rewrite rethrown_combined by reflexivity. rewrite (rethrown_loc ft ls _ [l0]) by (try reflexivity; discriminate). reflexivity.
Qed.

Lemma app_same_tail {A} (a b c : list A) : a ++ c = b ++ c -> a = b.
Proof. apply app_inv_tail. Qed.

Lemma report_inj ft l0 f msg ls l0' f' msg' ls' :
  (forall x, no_char 10 (ft x)) -> Forall (no_char 10) (l0 :: ls) -> Forall (no_char 10) (l0' :: ls') ->
  ecombined (rethrown ft ls (exc_new ft l0 f msg None)) = ecombined (rethrown ft ls' (exc_new ft l0' f' msg' None)) ->
  l0 = l0' /\ ls = ls' /\ ft f = ft f' /\ msg = msg'.
Proof.
  intros Hf HL HL' H. rewrite !rethrown_combined in H by reflexivity. rewrite (rethrown_loc ft ls _ [l0]), (rethrown_loc ft ls' _ [l0']) in H by (try reflexivity; discriminate).
  cbn [exc_new eflag edetail edata] in H. rewrite !combine_shape in H. apply app_inv_head in H.
  inversion HL as [|? ? L1 L2]; subst. inversion HL' as [|? ? M1 M2]; subst.
  assert (HR : forall l0 ls, no_char 10 l0 -> Forall (no_char 10) ls -> Forall (no_char 10) (rev ls ++ [l0])).
  { intros a l A1 A2. apply Forall_app. split; [apply Forall_rev; exact A2|auto]. }
  apply join_inj in H; [|destruct (rev ls); discriminate|destruct (rev ls'); discriminate|auto|auto].
  destruct H as [H1 H2]. apply app_inj_tail in H1 as [H1 ->]. assert (HLS : ls = ls') by (rewrite <- (rev_involutive ls), H1; apply rev_involutive).
  apply app_inv_head in H2. apply split_nl in H2; [|auto|auto]. destruct H2 as [H2 H3]. rewrite !app_nil_r in H3. split; [reflexivity|]. split; [exact HLS|]. split; [exact H2|].
  destruct msg as [|c m], msg' as [|c' m']; [reflexivity| | |].
  - rewrite Zlen_cons in H3. replace (0 <? 1 + Zlen m') with true in H3 by (pose proof (Zlen_nonneg m'); lia). discriminate.
  - rewrite Zlen_cons in H3. replace (0 <? 1 + Zlen m) with true in H3 by (pose proof (Zlen_nonneg m); lia). discriminate.
  - rewrite !Zlen_cons in H3. replace (0 <? 1 + Zlen m) with true in H3 by (pose proof (Zlen_nonneg m); lia).
    replace (0 <? 1 + Zlen m') with true in H3 by (pose proof (Zlen_nonneg m'); lia). apply app_inv_head in H3. apply app_same_tail in H3. exact H3.
Qed.

Lemma report_no_nul ft l0 f msg data ls : no_char 0 (ft f) -> Forall (no_char 0) (l0 :: ls) -> no_char 0 msg ->
  (forall d, data = Some d -> no_char 0 d) ->
  what (rethrown ft ls (exc_new ft l0 f msg data)) = ecombined (rethrown ft ls (exc_new ft l0 f msg data)).
Proof.
  intros Hf HL Hm Hd. unfold what. apply c_text_id. rewrite rethrown_combined by reflexivity. rewrite (rethrown_loc ft ls _ [l0]) by (try reflexivity; discriminate).
  cbn [exc_new eflag edetail edata]. unfold combine. inversion HL as [|? ? L1 L2]; subst.
  rewrite !no_char_app. split; [apply no_char_lit; reflexivity|]. split; [apply no_char_join; try lia; apply Forall_app; split; [apply Forall_rev; exact L2|auto]|].
  split; [apply no_char_lit; reflexivity|]. split; [apply no_char_lit; reflexivity|]. split; [exact Hf|]. split; [apply no_char_lit; reflexivity|]. split.
  - destruct (0 <? Zlen msg); [|intros []]. rewrite !no_char_app. split; [apply no_char_lit; reflexivity|]. split; [exact Hm|apply no_char_lit; reflexivity].
  - destruct data as [d|]; [|intros []]. rewrite !no_char_app. split; [apply no_char_lit; reflexivity|]. split; [apply Hd; reflexivity|apply no_char_lit; reflexivity].
Qed.
