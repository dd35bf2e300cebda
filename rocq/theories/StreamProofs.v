(** Lemmas about text streams. *)
From Verif Require Import Base Numerals ConvModel ConvProofs StreamModel.
From Coq Require Import QArith Lqa.
Open Scope Z_scope.

(** What separates tokens on a text stream: spaces and line feeds. *)
Definition blank (c : Z) : bool := (c =? 32) || (c =? 10).
Definition blanks (s : list Z) : Prop := forallb blank s = true.
Ltac unblank := unfold blanks in *; change blank with is_ws in *.
Definition text (s : list Z) : dev := map Got s.

(** What may follow a token: the end of the stream, a pause of the device, or a character outside the token's
    alphabet; [r] is the device after that read. *)
Inductive ends (p : Z -> bool) : dev -> dev -> Prop :=
| ends_eof : ends p [] []
| ends_pause r : ends p (Nothing :: r) r
| ends_char x r : p x = false -> ends p (Got x :: r) r.

Lemma skip_ws_text ws c d : blanks ws -> is_ws c = false -> skip_ws (text ws ++ Got c :: d) = (Some c, d).
Proof.
  intros Hw Hc. induction ws as [|w ws IH]; cbn [text map app skip_ws].
  - rewrite Hc. reflexivity.
  - unblank. cbn in Hw. apply andb_true_iff in Hw as [H1 H2]. rewrite H1. apply IH. exact H2.
Qed.

Lemma digs_text : forall l k c acc e r, forallb is_digit (c :: l) = true -> (length (c :: l) <= k)%nat ->
  ends is_digit e r -> digs k c (text l ++ e) acc = (Some (acc ++ c :: l), r).
Proof.
  induction l as [|c' l IH]; intros k c acc e r Hd Hk He; cbn [length] in Hk; destruct k as [|k]; try lia;
    cbn [forallb] in Hd; apply andb_true_iff in Hd as [Hc Hd]; cbn [digs text map app]; rewrite Hc.
  - inversion He as [|r' |x r' Hx]; subst; cbn [dread]; [reflexivity|reflexivity|].
    destruct k; cbn [digs]; [reflexivity|]. rewrite Hx. reflexivity.
  - cbn [dread]. fold (text l). rewrite (IH k c' (acc ++ [c]) e r); [|exact Hd|cbn [length]; lia|exact He].
    rewrite <- app_assoc. reflexivity.
Qed.

Lemma dval_from_mono : forall l a, forallb is_digit l = true -> 0 <= a ->
  a <= fold_left (fun a c => 10 * a + (c - 48)) l a.
Proof.
  induction l as [|c l IH]; intros a H Ha; cbn [fold_left]; [lia|].
  cbn [forallb] in H. apply andb_true_iff in H as [Hc H]. unfold is_digit in Hc.
  specialize (IH (10 * a + (c - 48)) H). lia.
Qed.

Lemma num_op_in t x : tmin t <= x <= tmax t -> num_op t x = Ok x.
Proof. intros H. unfold num_op. replace ((tmin t <=? x) && (x <=? tmax t)) with true by lia. reflexivity. Qed.
Lemma tmin_tmax t : (tmin t = 0 \/ tmin t = - tmax t - 1) /\ 127 <= tmax t.
Proof. destruct t; cbn; lia. Qed.

Lemma accum_ok t ceil : 0 < ceil -> 10 * ceil <= tmax t + 1 -> forall l number,
  forallb is_digit l = true -> 0 <= number < 10 * ceil ->
  let v := fold_left (fun a c => 10 * a + (c - 48)) l number in
  accum t ceil l number = Ok (if v <? 10 * ceil then Some v else None).
Proof.
  intros Hc Ht. induction l as [|c l IH]; intros number H Hn; cbn zeta; cbn [accum fold_left].
  - replace (number <? 10 * ceil) with true by lia. reflexivity.
  - cbn [forallb] in H. apply andb_true_iff in H as [Hd H]. unfold is_digit in Hd.
    pose proof (tmin_tmax t) as [Hm _].
    destruct (number <? ceil) eqn:E.
    + rewrite num_op_in by lia. cbn [bind]. apply IH; [exact H|lia].
    + pose proof (dval_from_mono l (10 * number + (c - 48)) H ltac:(lia)).
      destruct (_ <? 10 * ceil) eqn:E2; [lia|reflexivity].
Qed.

(** * Decimal integers *)
(** Largest magnitude the parser accepts, plus one. *)
Definition cap (t : ity) : Z := 10 * (tmax t / 10).
Lemma cap_le t : 0 < cap t <= tmax t /\ tmax t - 9 <= cap t.
Proof. unfold cap. pose proof (tmin_tmax t). lia. Qed.

Lemma reg_int_text t sign c l i0 e r : forallb is_digit (c :: l) = true -> (length (c :: l) <= 25)%nat ->
  ends is_digit e r -> sign = 1 \/ (sign = -1 /\ isigned t = true) ->
  reg_int t sign c i0 (text l ++ e) =
    Ok (if dval (c :: l) <? cap t then mkExt NoError (sign * dval (c :: l)) r else mkExt OutOfRangeError i0 r).
Proof.
  intros Hd Hl He Hs. unfold reg_int. rewrite (digs_text l 25 c [] e r Hd Hl He). cbn [app].
  pose proof (cap_le t) as Hcap. pose proof (tmin_tmax t) as Ht.
  rewrite (accum_ok t (tmax t / 10)); [|unfold cap in Hcap; lia|lia|exact Hd|unfold cap in Hcap; lia]. cbn [bind].
  fold (dval (c :: l)). fold (cap t). pose proof (dval_bound (c :: l) Hd) as Hb.
  destruct (dval (c :: l) <? cap t) eqn:E; [|reflexivity].
  rewrite num_op_in; [reflexivity|].
  destruct Hs as [->|[-> Hs]]; [lia|]. unfold tmin, tmax in *. rewrite Hs in *. lia.
Qed.

(** The texts of integers: optional sign (minus only for signed types) and digits. *)
Inductive int_sign (t : ity) : list Z -> Z -> Prop :=
| sg_none : int_sign t [] 1
| sg_plus : int_sign t [43] 1
| sg_minus : isigned t = true -> int_sign t [45] (-1).

Lemma digit_not_ws c : is_digit c = true -> is_ws c = false.
Proof. unfold is_digit, is_ws. lia. Qed.
Lemma tmin_signed t : isigned t = true -> (tmin t =? 0) = false.
Proof. destruct t; cbn; congruence. Qed.

Lemma text_app a b : text (a ++ b) = text a ++ text b.
Proof. apply map_app. Qed.

Lemma get_int_text t i0 ws sg sign ds e r : blanks ws -> int_sign t sg sign ->
  forallb is_digit ds = true -> ds <> [] -> (length ds <= 25)%nat -> ends is_digit e r ->
  (sg = [] -> ds = [48] -> e = [] \/ (exists r', e = Nothing :: r') \/ (exists x r', e = Got x :: r' /\ is_ws x = true)) ->
  get_int t i0 (text (ws ++ sg ++ ds) ++ e) =
    Ok (if dval ds <? cap t then mkExt NoError (sign * dval ds) r else mkExt OutOfRangeError i0 r).
Proof.
  intros Hw Hs Hd Hne Hl He Hz. destruct ds as [|c l]; [congruence|].
  assert (Hc : is_digit c = true) by (cbn in Hd; apply andb_true_iff in Hd; tauto).
  unfold get_int. inversion Hs; subst; clear Hs.
  - cbn [app]. rewrite text_app, <- app_assoc. cbn [text map app]. fold (text l).
    rewrite skip_ws_text by (auto using digit_not_ws).
    unfold is_digit in Hc. replace (c =? 45) with false by lia. replace (c =? 43) with false by lia.
    destruct (c =? 48) eqn:E0.
    + apply Z.eqb_eq in E0. subst c. destruct l as [|c' l].
      * replace (dval [48] <? cap t) with true by (pose proof (cap_le t); change (dval [48]) with 0; lia).
        change (1 * dval [48]) with 0. cbn [text map app]. inversion He; subst; cbn [dread]; [reflexivity|reflexivity|].
        destruct (Hz eq_refl eq_refl) as [F|[[? F]|(x' & r' & F & HF)]]; try discriminate. injection F as -> ->. rewrite HF. reflexivity.
      * cbn [text map app dread]. fold (text l). cbn [forallb] in Hd. apply andb_true_iff in Hd as [_ Hd].
        assert (Hc' : is_digit c' = true) by (apply andb_true_iff in Hd; tauto).
        rewrite digit_not_ws by exact Hc'. unfold is_digit in Hc'. replace (c' =? 120) with false by lia.
        rewrite (reg_int_text t 1 c' l i0 e r); [|exact Hd|cbn [length] in *; lia|exact He|left; reflexivity].
        replace (dval (48 :: c' :: l)) with (dval (c' :: l)) by reflexivity. reflexivity.
    + replace (c =? 120) with false by lia. apply reg_int_text; auto.
  - cbn [app]. rewrite text_app, <- app_assoc. cbn [text map app]. fold (text l).
    rewrite skip_ws_text by auto. cbn [Z.eqb Pos.eqb dread]. apply reg_int_text; auto.
  - cbn [app]. rewrite text_app, <- app_assoc. cbn [text map app]. fold (text l).
    rewrite skip_ws_text by auto. cbn [Z.eqb Pos.eqb dread]. rewrite tmin_signed by assumption. apply reg_int_text; auto.
Qed.

(** * Printing then reading *)
Lemma cstr_prefix : forall s mem, ~ In 0 s -> cstr (s ++ 0 :: mem) = Some s.
Proof.
  induction s as [|c s IH]; intros mem H; cbn [app cstr].
  - reflexivity.
  - destruct (c =? 0) eqn:E; [exfalso; apply H; left; lia|]. rewrite IH; [reflexivity|]. intros F. apply H. right. exact F.
Qed.

Lemma zget_skipn {A} : forall (l : list A) p i, 0 <= p -> 0 <= i -> zget (skipn (Z.to_nat p) l) i = zget l (p + i).
Proof.
  intros l p i Hp Hi. unfold zget. replace (i <? 0) with false by lia. replace (p + i <? 0) with false by lia.
  rewrite Z2Nat.inj_add by lia. generalize (Z.to_nat p), (Z.to_nat i). clear. intros p. revert l.
  induction p as [|p IH]; intros l i; [reflexivity|]. destruct l; [destruct i; reflexivity|]. cbn. apply IH.
Qed.

Lemma mem_prefix : forall s (l : list Z), at_mem l 0 s -> zget l (Zlen s) = Some 0 -> exists m, l = s ++ 0 :: m.
Proof.
  induction s as [|c s IH]; intros l HA HE.
  - destruct l as [|x l]; [discriminate|]. cbn in HE. injection HE as ->. exists l. reflexivity.
  - pose proof (HA 0) as H0. rewrite Zlen_cons in H0. specialize (H0 ltac:(pose proof (Zlen_nonneg s); lia)).
    destruct l as [|x l]; [discriminate|]. cbn in H0. injection H0 as ->.
    destruct (IH l) as [m Hm].
    + intros i Hi. specialize (HA (i + 1)). rewrite Zlen_cons in HA. specialize (HA ltac:(lia)).
      rewrite !zget_cons_pos in HA by lia. replace (0 + (i + 1) - 1) with (0 + i) in HA by lia. replace (i + 1 - 1) with i in HA by lia. exact HA.
    + rewrite Zlen_cons in HE. rewrite zget_cons_pos in HE by (pose proof (Zlen_nonneg s); lia).
      rewrite <- HE. f_equal. lia.
    + exists m. cbn. congruence.
Qed.

Lemma numeral_no_nul z s : numeral z s -> ~ In 0 s.
Proof.
  assert (HD : forall l, forallb is_digit l = true -> ~ In 0 l).
  { intros l H F. rewrite forallb_forall in H. specialize (H 0 F). discriminate. }
  intros [[_ [H _]]|[_ (t & -> & [H _])]]; [apply HD; exact H|]. intros [F|F]; [discriminate|exact (HD _ H F)].
Qed.

Lemma put_int_ok t n conv s : Zlen conv = 30 -> conv_good t n -> numeral n s -> Zlen s <= 29 ->
  put_int t n conv = Ok (Some s).
Proof.
  intros Hc Hg Hs Hl. unfold put_int.
  destruct (conv_cstr_ok t n 0 29 conv Hg) as (o & mem & HR & _ & HE & s' & Hs' & HO); [lia|lia|].
  assert (s' = s) as -> by (eapply numeral_unique; eauto).
  rewrite HR. cbn [bind fst snd]. destruct HO as [(_ & -> & HA)|[HF _]]; [|lia].
  destruct (mem_prefix s (skipn (Z.to_nat (29 - Zlen s)) mem)) as [m Hm].
  - intros i Hi. rewrite <- HA by exact Hi. rewrite zget_skipn by lia. f_equal.
  - rewrite zget_skipn by (try lia; apply Zlen_nonneg). rewrite <- HE. f_equal. lia.
  - rewrite Hm, cstr_prefix; [reflexivity|]. eapply numeral_no_nul; eauto.
Qed.

(** Numerals of 64-bit values are short. *)
Lemma canonical_short n s : canonical n s -> 0 <= n < 10 ^ 24 -> Zlen s <= 24.
Proof.
  intros (H1 & H2 & H3 & H4) Hn. destruct s as [|c s]; [congruence|]. rewrite Zlen_cons.
  destruct (Z.eq_dec c 48) as [->|Hc]; [rewrite (H4 eq_refl) in *; injection (H4 eq_refl) as ->; change (Zlen (@nil Z)) with 0; lia|].
  change (c :: s) with ([c] ++ s) in H3. rewrite dval_app in H3. cbn in H1. apply andb_true_iff in H1 as [Hd H1].
  pose proof (dval_bound s H1) as Hb. unfold is_digit in Hd. change (dval [c]) with (10 * 0 + (c - 48)) in H3.
  destruct (Z_le_gt_dec (Zlen s) 23); [lia|exfalso].
  assert (10 ^ 24 <= 10 ^ Zlen s) by (apply Z.pow_le_mono_r; lia). nia.
Qed.

Lemma tmax_bound t : tmax t < 10 ^ 24.
Proof. destruct t; vm_compute; reflexivity. Qed.

Lemma numeral_read t i0 n s ws e r : numeral n s -> - cap t < n < cap t -> (n < 0 -> isigned t = true) -> blanks ws ->
  (e = [] \/ exists x r', e = Got x :: r' /\ is_ws x = true) -> ends is_digit e r ->
  get_int t i0 (text (ws ++ s) ++ e) = Ok (mkExt NoError n r).
Proof.
  intros Hs Hn Hneg Hw He He'. pose proof (cap_le t) as Hc. pose proof (tmax_bound t) as Hb.
  assert (HE : forall (P : Prop), P -> P) by auto.
  destruct Hs as [[H0 Hcan]|[H0 (u & -> & Hcan)]]; pose proof Hcan as (H1 & H2 & H3 & H4).
  - pose proof (canonical_short n s Hcan ltac:(lia)) as HL. unfold Zlen in HL.
    change (ws ++ s) with (ws ++ [] ++ s). rewrite (get_int_text t i0 ws [] 1 s e r); auto; [|constructor|lia|].
    + rewrite H3. replace (n <? cap t) with true by lia. rewrite Z.mul_1_l. reflexivity.
    + intros _ _. destruct He as [->|(x & r' & -> & Hx)]; [left; reflexivity|right; right; eauto].
  - pose proof (canonical_short (- n) u Hcan ltac:(lia)) as HL. unfold Zlen in HL.
    change (ws ++ 45 :: u) with (ws ++ [45] ++ u). rewrite (get_int_text t i0 ws [45] (-1) u e r); auto; [|constructor; auto|lia|discriminate].
    rewrite H3. replace (- n <? cap t) with true by lia. do 2 f_equal. lia.
Qed.

(** Reading several integers one after the other. *)
Fixpoint get_ints (t : ity) (n : nat) (d : dev) : res (list (err * Z) * dev) :=
  match n with
  | O => Ok ([], d)
  | S n' => e <- get_int t 0 d ;; r <- get_ints t n' (edev e) ;; Ok ((eflag e, eval e) :: fst r, snd r)
  end.
(** Writing several integers, each followed by a blank. *)
Fixpoint put_ints (t : ity) (conv : list Z) (l : list Z) : res (option (list Z)) :=
  match l with
  | [] => Ok (Some [])
  | n :: l' =>
    s <- put_int t n conv ;; r <- put_ints t conv l' ;;
    Ok (match s, r with Some s, Some r => Some (s ++ 32 :: r) | _, _ => None end)
  end.

Lemma seq_ok t conv : Zlen conv = 30 -> forall l,
  Forall (fun n => conv_good t n /\ - cap t < n < cap t /\ (n < 0 -> isigned t = true)) l ->
  exists s, put_ints t conv l = Ok (Some s) /\ forall d, get_ints t (length l) (text s ++ d) = Ok (map (pair NoError) l, d).
Proof.
  intros Hc. induction l as [|n l IH]; intros HF.
  - exists []. split; [reflexivity|]. reflexivity.
  - inversion HF as [|? ? (Hg & Hn & Hs) HF']; subst. destruct (IH HF') as (s & H1 & H2).
    assert (HL : Zlen (num_str n) <= 29).
    { pose proof (cap_le t). pose proof (tmax_bound t). destruct (num_str_numeral n) as [[Hz0 Hcan]|[Hz0 (u & -> & Hcan)]].
      - pose proof (canonical_short _ _ Hcan ltac:(lia)). lia.
      - pose proof (canonical_short _ _ Hcan ltac:(lia)). rewrite Zlen_cons. lia. }
    exists (num_str n ++ 32 :: s). cbn [put_ints]. rewrite (put_int_ok t n conv (num_str n)); auto using num_str_numeral.
    rewrite H1. cbn [bind]. split; [reflexivity|]. intros d. cbn [length get_ints].
    replace (text (num_str n ++ 32 :: s) ++ d) with (text ([] ++ num_str n) ++ Got 32 :: (text s ++ d)).
    2: { rewrite !text_app. cbn [text map app]. rewrite <- app_assoc. reflexivity. }
    rewrite (numeral_read t 0 n (num_str n) [] _ (text s ++ d)); auto using num_str_numeral; [|reflexivity| |].
    + cbn [bind edev eflag eval]. rewrite H2. reflexivity.
    + right. do 2 eexists. split; reflexivity.
    + constructor. reflexivity.
Qed.

(** * Never undefined, and read failures are never lost (integers, floats) *)
Definition suffix_ok {V} (d : dev) (e : ext V) : Prop :=
  exists pre, d = pre ++ edev e /\ (In Fail pre -> eflag e <> NoError).

Lemma skip_ws_pre d : exists pre, d = pre ++ snd (skip_ws d) /\ (fst (skip_ws d) <> None -> ~ In Fail pre).
Proof.
  induction d as [|x d IH]; cbn [skip_ws].
  - exists []. split; [reflexivity|]. intros F. cbn in F. congruence.
  - destruct x as [c| |].
    + destruct (is_ws c).
      * destruct IH as (pre & H1 & H2). exists (Got c :: pre). split; [cbn; congruence|].
        intros H [F|F]; [discriminate|]. exact (H2 H F).
      * exists [Got c]. split; [reflexivity|]. intros _ [F|[]]. discriminate.
    + exists [Nothing]. split; [reflexivity|]. intros F. cbn in F. congruence.
    + exists [Fail]. split; [reflexivity|]. intros F. cbn in F. congruence.
Qed.
Lemma dread_pre d : exists pre, d = pre ++ snd (dread d) /\ (fst (dread d) <> Fail -> ~ In Fail pre).
Proof.
  destruct d as [|x d]; cbn; [exists []; auto|]. exists [x]. split; [reflexivity|]. intros H [F|[]]. congruence.
Qed.
Lemma digs_pre : forall k c d acc, exists pre, d = pre ++ snd (digs k c d acc) /\ (fst (digs k c d acc) <> None -> ~ In Fail pre).
Proof.
  induction k as [|k IH]; intros c d acc; cbn [digs]; [exists []; auto|].
  destruct (is_digit c); [|exists []; auto].
  destruct (dread_pre d) as (p1 & H1 & H2). destruct (dread d) as [x d1]. cbn [fst snd] in *. destruct x as [c'| |].
  - destruct (IH c' d1 (acc ++ [c])) as (p2 & H3 & H4). exists (p1 ++ p2). split; [rewrite <- app_assoc, <- H3; exact H1|].
    intros H F. apply in_app_or in F as [F|F]; [apply H2 in F; [exact F|discriminate]|exact (H4 H F)].
  - exists p1. split; [exact H1|]. intros _. apply H2. discriminate.
  - exists p1. split; [exact H1|]. cbn. congruence.
Qed.
Lemma hdigs_pre : forall k d acc, exists pre, d = pre ++ snd (hdigs k d acc) /\ (fst (hdigs k d acc) <> None -> ~ In Fail pre).
Proof.
  induction k as [|k IH]; intros d acc; cbn [hdigs]; [exists []; auto|].
  destruct (dread_pre d) as (p1 & H1 & H2). destruct (dread d) as [x d1]. cbn [fst snd] in *. destruct x as [c'| |].
  - destruct (hex_val c') as [h|]; [|exists p1; split; [exact H1|]; intros _; apply H2; discriminate].
    destruct (IH d1 (acc ++ [h])) as (p2 & H3 & H4). exists (p1 ++ p2). split; [rewrite <- app_assoc, <- H3; exact H1|].
    intros H F. apply in_app_or in F as [F|F]; [apply H2 in F; [exact F|discriminate]|exact (H4 H F)].
  - exists p1. split; [exact H1|]. intros _. apply H2. discriminate.
  - exists p1. split; [exact H1|]. cbn. congruence.
Qed.
Lemma fdigs_pre : forall k c d acc, exists pre, d = pre ++ snd (fdigs k c d acc) /\ (fst (fdigs k c d acc) <> None -> ~ In Fail pre).
Proof.
  induction k as [|k IH]; intros c d acc; cbn [fdigs]; [exists []; auto|].
  destruct (is_digit c); [|exists []; auto].
  destruct (dread_pre d) as (p1 & H1 & H2). destruct (dread d) as [x d1]. cbn [fst snd] in *. destruct x as [c'| |].
  - destruct (IH c' d1 (acc ++ [c])) as (p2 & H3 & H4). exists (p1 ++ p2). split; [rewrite <- app_assoc, <- H3; exact H1|].
    intros H F. apply in_app_or in F as [F|F]; [apply H2 in F; [exact F|discriminate]|exact (H4 H F)].
  - exists p1. split; [exact H1|]. intros _. apply H2. discriminate.
  - exists p1. split; [exact H1|]. cbn. congruence.
Qed.

Lemma suffix_app {V} p d (e : ext V) : ~ In Fail p -> suffix_ok d e -> suffix_ok (p ++ d) e.
Proof.
  intros Hp (pre & -> & H). exists (p ++ pre). split; [apply app_assoc|]. intros F. apply in_app_or in F as [F|F]; [destruct (Hp F)|exact (H F)].
Qed.
Lemma suffix_bad {V} p (e : ext V) d : d = p ++ edev e -> eflag e <> NoError -> suffix_ok d e.
Proof. intros -> H. exists p. split; auto. Qed.
Lemma suffix_good {V} p (e : ext V) d : d = p ++ edev e -> ~ In Fail p -> suffix_ok d e.
Proof. intros -> H. exists p. split; [reflexivity|]. intros F. destruct (H F). Qed.

Definition sane (t : ity) (i0 : Z) (d : dev) (e : ext Z) : Prop :=
  suffix_ok d e /\ (tmin t <= i0 <= tmax t -> tmin t <= eval e <= tmax t).

Lemma digs_digits : forall k c d acc l d', forallb is_digit acc = true -> digs k c d acc = (Some l, d') -> forallb is_digit l = true.
Proof.
  induction k as [|k IH]; intros c d acc l d' Ha H; cbn [digs] in H; [injection H as -> _; exact Ha|].
  destruct (is_digit c) eqn:E; [|injection H as -> _; exact Ha].
  assert (forallb is_digit (acc ++ [c]) = true) by (rewrite forallb_app, Ha; cbn; rewrite E; reflexivity).
  destruct (dread d) as [[c'| |] d1]; [eapply IH; eauto|injection H as <- _; assumption|discriminate].
Qed.

Lemma reg_int_sane t sign c i0 d : sign = 1 \/ (sign = -1 /\ isigned t = true) ->
  exists e, reg_int t sign c i0 d = Ok e /\ sane t i0 d e.
Proof.
  intros Hs. unfold reg_int. destruct (digs_pre 25 c d []) as (p & H1 & H2).
  destruct (digs 25 c d []) as [[l|] d'] eqn:E; cbn [fst snd] in *.
  2: { eexists. split; [reflexivity|]. split; [|auto]. eapply suffix_bad; [exact H1|discriminate]. }
  assert (HL := digs_digits 25 c d [] l d' eq_refl E).
  destruct l as [|x l].
  { eexists. split; [reflexivity|]. split; [|auto]. eapply suffix_bad; [exact H1|discriminate]. }
  pose proof (cap_le t) as Hcap. pose proof (tmin_tmax t) as Ht.
  rewrite (accum_ok t (tmax t / 10)); [|unfold cap in Hcap; lia|lia|exact HL|unfold cap in Hcap; lia]. cbn [bind].
  fold (dval (x :: l)). fold (cap t). pose proof (dval_bound _ HL).
  destruct (dval (x :: l) <? cap t) eqn:EC.
  - assert (HR : tmin t <= sign * dval (x :: l) <= tmax t).
    { destruct Hs as [->|[-> Hs]]; [lia|]. unfold tmin, tmax in *. rewrite Hs in *. lia. }
    rewrite num_op_in by exact HR. cbn [bind]. eexists. split; [reflexivity|].
    split; [|auto]. eapply suffix_good; [exact H1|]. apply H2. discriminate.
  - eexists. split; [reflexivity|]. split; [|auto]. eapply suffix_bad; [exact H1|discriminate].
Qed.

Lemma wrap_s_range b x : 0 < b -> - 2 ^ (b - 1) <= wrap_s b x < 2 ^ (b - 1).
Proof.
  intros Hb. unfold wrap_s. assert (HP : 2 ^ b = 2 * 2 ^ (b - 1)) by (rewrite <- Z.pow_succ_r by lia; f_equal; lia).
  assert (0 < 2 ^ (b - 1)) by (apply Z.pow_pos_nonneg; lia). pose proof (Z.mod_pos_bound x (2 ^ b) ltac:(lia)). ifs; lia.
Qed.
Lemma haccum_range : forall l n v, -32768 <= n <= 32767 -> haccum l n = Some v -> -32768 <= v <= 32767.
Proof.
  induction l as [|h l IH]; intros n v Hn H; cbn [haccum] in H; [injection H as <-; exact Hn|].
  destruct (n <? 3276); [|discriminate]. apply IH in H; [exact H|].
  pose proof (wrap_s_range 16 (16 * n + h) ltac:(lia)) as HW. change (2 ^ (16 - 1)) with 32768 in HW. lia.
Qed.
Lemma from_short_range t x : -32768 <= x <= 32767 -> tmin t <= from_short t x <= tmax t.
Proof.
  intros H. unfold from_short, tmin, tmax. destruct (isigned t) eqn:E.
  - destruct t; try discriminate E; cbn [ibits Z.ltb Z.compare Pos.compare Pos.compare_cont]; try (cbn; lia).
    pose proof (wrap_s_range 8 x ltac:(lia)). lia.
  - pose proof (Z.mod_pos_bound x (2 ^ ibits t) ltac:(apply Z.pow_pos_nonneg; destruct t; cbn; lia)). lia.
Qed.
Lemma hex_int_sane t i0 d : sane t i0 d (hex_int t d).
Proof.
  unfold hex_int. destruct (hdigs_pre 25 d []) as (p & H1 & H2).
  pose proof (tmin_tmax t) as Ht.
  destruct (hdigs 25 d []) as [[l|] d'] eqn:E; cbn [fst snd] in *.
  2: { split; [|cbn; lia]. eapply suffix_bad; [exact H1|discriminate]. }
  destruct l as [|x l]; [split; [|cbn; lia]; eapply suffix_bad; [exact H1|discriminate]|].
  destruct (haccum (x :: l) 0) as [v|] eqn:EV.
  - split; [eapply suffix_good; [exact H1|apply H2; discriminate]|]. intros _. apply from_short_range.
    eapply haccum_range; [|exact EV]. lia.
  - split; [|cbn; lia]. eapply suffix_bad; [exact H1|discriminate].
Qed.

Lemma sane_app t i0 p d e : ~ In Fail p -> sane t i0 d e -> sane t i0 (p ++ d) e.
Proof. intros Hp [H1 H2]. split; [apply suffix_app; assumption|exact H2]. Qed.

Lemma get_int_sane t i0 d : exists e, get_int t i0 d = Ok e /\ sane t i0 d e.
Proof.
  unfold get_int. pose proof (tmin_tmax t) as Ht. destruct (skip_ws_pre d) as (p & H1 & H2).
  destruct (skip_ws d) as [[c|] d1]; cbn [fst snd] in *.
  2: { eexists. split; [reflexivity|]. split; [|auto]. eapply suffix_bad; [exact H1|discriminate]. }
  specialize (H2 ltac:(discriminate)). subst d.
  assert (LIFT : forall m, (exists e, m = Ok e /\ sane t i0 d1 e) -> exists e, m = Ok e /\ sane t i0 (p ++ d1) e).
  { intros m (e & -> & He). exists e. split; [reflexivity|]. apply sane_app; assumption. }
  apply LIFT. clear LIFT H2 p. destruct (dread_pre d1) as (p & H1 & H2).
  assert (NF : forall x d2, dread d1 = (x, d2) -> x <> Fail -> forall m,
     (exists e, m = Ok e /\ sane t i0 d2 e) -> exists e, m = Ok e /\ sane t i0 d1 e).
  { intros x d2 HD Hx m (e & -> & He). exists e. split; [reflexivity|]. rewrite HD in *. cbn [fst snd] in *. rewrite H1. apply sane_app; auto. }
  assert (BAD : forall x d2, dread d1 = (x, d2) -> forall f, f <> NoError -> exists e, Ok (mkExt f i0 d2) = Ok e /\ sane t i0 d1 e).
  { intros x d2 HD f Hf. eexists. split; [reflexivity|]. split; [|auto]. rewrite HD in *. cbn [fst snd] in *. eapply suffix_bad; [exact H1|exact Hf]. }
  destruct (dread d1) as [x d2] eqn:ED. specialize (NF x d2 eq_refl). specialize (BAD x d2 eq_refl).
  destruct (c =? 45); [destruct (tmin t =? 0) eqn:E0|].
  - apply reg_int_sane. left. reflexivity.
  - assert (isigned t = true) by (destruct t; cbn in *; congruence).
    destruct x; [apply NF; [discriminate|]; apply reg_int_sane; auto|apply BAD; discriminate|apply BAD; discriminate].
  - destruct (c =? 43); [destruct x; [apply NF; [discriminate|]; apply reg_int_sane; auto|apply BAD; discriminate|apply BAD; discriminate]|].
    destruct (c =? 48).
    + destruct x as [c'| |]; [| |apply BAD; discriminate].
      * apply NF; [discriminate|]. destruct (is_ws c').
        { eexists. split; [reflexivity|]. split; [eapply (suffix_good []); [reflexivity|auto]|]. cbn. lia. }
        destruct (c' =? 120); [|apply reg_int_sane; auto]. eexists. split; [reflexivity|apply hex_int_sane].
      * apply NF; [discriminate|]. eexists. split; [reflexivity|]. split; [eapply (suffix_good []); [reflexivity|auto]|]. cbn. lia.
    + destruct (c =? 120); [|apply reg_int_sane; auto]. eexists. split; [reflexivity|apply hex_int_sane].
Qed.

(** Decimal failures leave the target alone: a failed extraction changes it only when an 'x' was met. *)
Lemma reg_int_keeps t sign c i0 d e : reg_int t sign c i0 d = Ok e -> eflag e <> NoError -> eval e = i0.
Proof.
  unfold reg_int. destruct (digs 25 c d []) as [[[|x l]|] d']; intros H F; try (injection H as <-; reflexivity).
  destruct (accum _ _ _ _) as [[n|]| |]; cbn [bind] in H; try discriminate; try (injection H as <-; reflexivity).
  destruct (num_op t (sign * n)); cbn [bind] in H; try discriminate. injection H as <-. cbn in F. congruence.
Qed.

Lemma skip_ws_in d c d' : skip_ws d = (Some c, d') -> In (Got c) d /\ forall x, In x d' -> In x d.
Proof.
  induction d as [|x d IH]; cbn; [discriminate|]. destruct x as [y| |]; try discriminate.
  destruct (is_ws y).
  - intros H. destruct (IH H). split; [right; auto|]. intros z Hz. right. auto.
  - intros H. injection H as -> ->. split; [left; reflexivity|]. intros z Hz. right. exact Hz.
Qed.

Lemma get_int_keeps t i0 d e : get_int t i0 d = Ok e -> eflag e <> NoError -> ~ In (Got 120) d -> eval e = i0.
Proof.
  unfold get_int. destruct (skip_ws d) as [[c|] d1] eqn:ES; [|intros H; injection H as <-; reflexivity].
  apply skip_ws_in in ES as [Hc Hin]. intros H F HN.
  assert (HD : forall x d2, dread d1 = (x, d2) -> x = Got 120 -> False).
  { intros x d2 ED ->. destruct d1 as [|y d1]; cbn in ED; [discriminate|]. injection ED as -> _. apply HN, Hin. left. reflexivity. }
  destruct (dread d1) as [x d2] eqn:ED. specialize (HD x d2 eq_refl).
  destruct (c =? 45); [destruct (tmin t =? 0)|destruct (c =? 43); [|destruct (c =? 48); [|destruct (c =? 120) eqn:E]]].
  - eapply reg_int_keeps; eauto.
  - destruct x; [eapply reg_int_keeps; eauto|injection H as <-; reflexivity|injection H as <-; reflexivity].
  - destruct x; [eapply reg_int_keeps; eauto|injection H as <-; reflexivity|injection H as <-; reflexivity].
  - destruct x as [c'| |]; [|injection H as <-; cbn in F; congruence|injection H as <-; reflexivity].
    destruct (is_ws c'); [injection H as <-; cbn in F; congruence|].
    destruct (c' =? 120) eqn:E; [exfalso; apply HD; f_equal; lia|]. eapply reg_int_keeps; eauto.
  - exfalso. apply HN. replace 120 with c by lia. exact Hc.
  - eapply reg_int_keeps; eauto.
Qed.

(** * Hexadecimal *)
(** The value of a hexadecimal digit. *)
Definition hexdig (c : Z) : option Z :=
  if (48 <=? c) && (c <=? 57) then Some (c - 48)
  else if (97 <=? c) && (c <=? 102) then Some (10 + c - 97)
  else if (65 <=? c) && (c <=? 70) then Some (10 + c - 65)
  else None.
Lemma hex_val_spec c : hex_val c = hexdig c.
Proof. reflexivity. Qed.
Definition hval (s : list Z) : option Z :=
  fold_left (fun a c => match a, hexdig c with Some a, Some h => Some (16 * a + h) | _, _ => None end) s (Some 0).
Definition is_hex (c : Z) : bool := match hexdig c with Some _ => true | None => false end.
Definition hnum (hs : list Z) : Z := fold_left (fun a h => 16 * a + h) hs 0.

Lemma hex_val_range c h : hex_val c = Some h -> 0 <= h < 16.
Proof. unfold hex_val. destruct ((48 <=? c) && (c <=? 57)) eqn:E1; [|destruct ((97 <=? c) && (c <=? 102)) eqn:E2; [|destruct ((65 <=? c) && (c <=? 70)) eqn:E3]]; intros H; apply (f_equal (fun o => match o with Some x => x | None => 0 end)) in H; cbn beta iota in H; lia. Qed.

Lemma hdigs_text : forall s k acc e r, (length s < k)%nat \/ ((length s <= k)%nat /\ e = r) -> forallb is_hex s = true ->
  ((length s < k)%nat -> ends is_hex e r) ->
  exists hs, hdigs k (text s ++ e) acc = (Some (acc ++ hs), r) /\ length hs = length s /\ Forall (fun h => 0 <= h < 16) hs /\
   hval s = Some (hnum hs).
Proof.
  intros s. 
  assert (G : forall s k acc e r, (length s < k)%nat \/ ((length s <= k)%nat /\ e = r) -> forallb is_hex s = true ->
  ((length s < k)%nat -> ends is_hex e r) ->
  exists hs, hdigs k (text s ++ e) acc = (Some (acc ++ hs), r) /\ length hs = length s /\ Forall (fun h => 0 <= h < 16) hs /\
   forall a, fold_left (fun a c => match a, hex_val c with Some a, Some h => Some (16 * a + h) | _, _ => None end) s (Some a) =
     Some (fold_left (fun a h => 16 * a + h) hs a)).
  { clear s. induction s as [|c s IH]; intros k acc e r Hk Hx He; cbn [length] in Hk.
    - exists []. rewrite app_nil_r. split; [|split; [reflexivity|split; [constructor|reflexivity]]].
      cbn [text map app]. destruct k as [|k]; cbn [hdigs].
      + destruct Hk as [Hk|[_ ->]]; [lia|reflexivity].
      + specialize (He ltac:(cbn; lia)). inversion He as [| |x r' Hxx]; subst; cbn [dread]; try reflexivity.
        unfold is_hex in Hxx. change hexdig with hex_val in Hxx. destruct (hex_val x); [discriminate|reflexivity].
    - cbn [forallb] in Hx. apply andb_true_iff in Hx as [Hc Hx]. unfold is_hex in Hc. change hexdig with hex_val in Hc.
      destruct (hex_val c) as [h|] eqn:Eh; [|discriminate]. destruct k as [|k]; [lia|].
      destruct (IH k (acc ++ [h]) e r) as (hs & H1 & H2 & H3 & H4); [destruct Hk as [Hk|[Hk1 Hk2]]; [left; lia|right; split; [lia|exact Hk2]]|exact Hx|intros; apply He; cbn [length]; lia|].
      exists (h :: hs). cbn [text map app hdigs dread]. fold (text s). rewrite Eh, H1, <- app_assoc.
      split; [reflexivity|]. split; [cbn; lia|]. split; [constructor; [eapply hex_val_range; eauto|exact H3]|].
      intros a. cbn [fold_left]. rewrite Eh. apply H4. }
  intros k acc e r Hk Hx He. destruct (G s k acc e r Hk Hx He) as (hs & H1 & H2 & H3 & H4).
  exists hs. repeat split; auto. apply H4.
Qed.

Lemma wrap16 x : -32768 <= x <= 32767 -> wrap_s 16 x = x.
Proof. intros H. unfold wrap_s. change (2 ^ 16) with 65536. change (2 ^ (16 - 1)) with 32768. ifs; lia. Qed.

Lemma hnum_mono : forall hs a, Forall (fun h => 0 <= h < 16) hs -> 0 <= a -> a <= fold_left (fun a h => 16 * a + h) hs a.
Proof.
  induction hs as [|h hs IH]; intros a HF Ha; cbn [fold_left]; [lia|]. inversion HF; subst. specialize (IH (16 * a + h) ltac:(assumption)). lia.
Qed.

Lemma haccum_ok : forall hs a, Forall (fun h => 0 <= h < 16) hs -> 0 <= a ->
  fold_left (fun a h => 16 * a + h) hs a <= 32767 -> haccum hs a = Some (fold_left (fun a h => 16 * a + h) hs a).
Proof.
  induction hs as [|h hs IH]; intros a HF Ha Hv; [reflexivity|]. inversion HF as [|? ? Hh HF']; subst. cbn [haccum fold_left] in *.
  pose proof (hnum_mono hs (16 * a + h) HF' ltac:(lia)). replace (a <? 3276) with true by lia.
  rewrite wrap16 by lia. apply IH; auto. lia.
Qed.

Lemma haccum_app : forall l1 l2 a, haccum (l1 ++ l2) a = match haccum l1 a with Some b => haccum l2 b | None => None end.
Proof. induction l1 as [|h l1 IH]; intros l2 a; cbn; [reflexivity|]. destruct (a <? 3276); [apply IH|reflexivity]. Qed.

(** The last digit decides for values above the short range. *)
Lemma haccum_last hs : Forall (fun h => 0 <= h < 16) hs -> 0x8000 <= hnum hs < 0x80000 ->
  haccum hs 0 = if hnum hs <? 0xCCC0 then Some (hnum hs - 65536) else None.
Proof.
  intros HF Hv. destruct hs as [|h0 hs0] using rev_ind; [cbn in Hv; lia|]. clear IHhs0.
  apply Forall_app in HF as [HF1 HF2]. inversion HF2 as [|? ? Hh _]; subst. unfold hnum in *. rewrite fold_left_app in *. cbn [fold_left] in *.
  pose proof (hnum_mono hs0 0 HF1 ltac:(lia)) as Hp. set (p := fold_left (fun a h => 16 * a + h) hs0 0) in *.
  rewrite haccum_app, (haccum_ok hs0 0 HF1); [|lia|fold p; lia]. fold p. cbn [haccum].
  destruct (p <? 3276) eqn:E.
  - replace (16 * p + h0 <? 0xCCC0) with true by lia. unfold wrap_s. change (2 ^ 16) with 65536. change (2 ^ (16 - 1)) with 32768.
    f_equal. ifs; lia.
  - replace (16 * p + h0 <? 0xCCC0) with false by lia. reflexivity.
Qed.

Lemma from_short_id t x : 0 <= x <= tmax t -> x <= 32767 -> from_short t x = x.
Proof.
  intros H Hx. unfold from_short, tmax in *. destruct t; cbn [isigned ibits Z.ltb Z.compare Pos.compare Pos.compare_cont] in *;
    try reflexivity; try (apply Z.mod_small; lia).
  unfold wrap_s. change (2 ^ 8) with 256 in *. change (2 ^ (8 - 1)) with 128 in *. ifs; lia.
Qed.

Lemma get_hex_text t i0 ws s v e r : blanks ws -> forallb is_hex s = true -> s <> [] -> (length s < 25)%nat ->
  ends is_hex e r -> hval s = Some v ->
  (v <= 0x7fff -> v <= tmax t -> get_int t i0 (text (ws ++ [48; 120] ++ s) ++ e) = Ok (mkExt NoError v r)) /\
  (0xCCC0 <= v < 0x80000 -> get_int t i0 (text (ws ++ [48; 120] ++ s) ++ e) = Ok (mkExt OutOfRangeError 0 r)) /\
  (0x8000 <= v < 0xCCC0 -> get_int t i0 (text (ws ++ [48; 120] ++ s) ++ e) = Ok (mkExt NoError (from_short t (v - 65536)) r)).
Proof.
  intros Hw Hx Hne Hl He Hv.
  destruct (hdigs_text s 25 [] e r) as (hs & H1 & H2 & H3 & H4); [left; lia|exact Hx|auto|].
  rewrite Hv in H4. injection H4 as ->.
  assert (HG : get_int t i0 (text (ws ++ [48; 120] ++ s) ++ e) = Ok (hex_int t (text s ++ e))).
  { unfold get_int. rewrite text_app, <- app_assoc. cbn [text map app]. fold (text s).
    rewrite skip_ws_text by (auto). reflexivity. }
  rewrite HG. unfold hex_int. rewrite H1. cbn [app]. destruct hs as [|h hs]; [destruct s; [congruence|discriminate]|].
  pose proof (hnum_mono (h :: hs) 0 H3 ltac:(lia)) as Hp. fold (hnum (h :: hs)) in Hp.
  split; [|split]; intros Hb.
  - intros Ht. rewrite haccum_ok; auto; [|lia]. fold (hnum (h :: hs)). rewrite from_short_id by lia. reflexivity.
  - rewrite haccum_last by (auto; lia). replace (hnum (h :: hs) <? 0xCCC0) with false by lia. reflexivity.
  - rewrite haccum_last by (auto; lia). replace (hnum (h :: hs) <? 0xCCC0) with true by lia. reflexivity.
Qed.

(** * Floats (exact rationals) *)
Lemma fdigs_text : forall l k c acc x r, forallb is_digit (c :: l) = true -> (length (c :: l) <= k)%nat -> is_digit x = false ->
  fdigs k c (text l ++ Got x :: r) acc = (Some (acc ++ c :: l, x), r).
Proof.
  induction l as [|c' l IH]; intros k c acc x r Hd Hk Hx; cbn [length] in Hk; destruct k as [|k]; try lia;
    cbn [forallb] in Hd; apply andb_true_iff in Hd as [Hc Hd]; cbn [fdigs text map app dread]; rewrite Hc.
  - destruct k; cbn [fdigs]; [reflexivity|]. rewrite Hx. reflexivity.
  - fold (text l). rewrite (IH k c' (acc ++ [c]) x r); [|exact Hd|cbn [length]; lia|exact Hx].
    rewrite <- app_assoc. reflexivity.
Qed.
(** The same for a possibly empty digit string: the character read after it is [x]. *)
Definition start (l : list Z) (x : Z) (r : dev) : Z * dev :=
  match l with [] => (x, r) | c :: l' => (c, text l' ++ Got x :: r) end.
Lemma fdigs_start l x r : forallb is_digit l = true -> (length l <= 25)%nat -> is_digit x = false ->
  fdigs 25 (fst (start l x r)) (snd (start l x r)) [] = (Some (l, x), r).
Proof.
  intros Hd Hl Hx. destruct l as [|c l]; cbn [start fst snd].
  - cbn [fdigs]. rewrite Hx. reflexivity.
  - apply (fdigs_text l 25 c [] x r Hd Hl Hx).
Qed.
(** At the end of the stream the last digit is not counted. *)
Lemma fdigs_eof : forall l k c acc, forallb is_digit (c :: l) = true -> (length (c :: l) <= k)%nat ->
  fdigs k c (text l) acc = (Some (acc ++ removelast (c :: l), last l c), []).
Proof.
  induction l as [|c' l IH]; intros k c acc Hd Hk; cbn [length] in Hk; destruct k as [|k]; try lia;
    cbn [forallb] in Hd; apply andb_true_iff in Hd as [Hc Hd]; cbn [fdigs text map dread]; rewrite Hc.
  - cbn [removelast last]. rewrite app_nil_r. reflexivity.
  - fold (text l). rewrite (IH k c' (acc ++ [c]) Hd ltac:(cbn [length]; lia)). rewrite <- app_assoc.
    change (removelast (c :: c' :: l)) with (c :: removelast (c' :: l)).
    replace (last (c' :: l) c) with (last l c'); [reflexivity|]. destruct l as [|a l]; [reflexivity|]. cbn [last].
    clear. revert a. induction l as [|b l IH]; intros a; [reflexivity|]. apply (IH b).
Qed.

Lemma fint_val l : (fint l == inject_Z (dval l))%Q.
Proof.
  unfold fint, dval. assert (G : forall l a b, (a == inject_Z b)%Q ->
    (fold_left (fun a c => (10 * a + inject_Z (c - 48))%Q) l a == inject_Z (fold_left (fun a c => (10 * a + (c - 48))%Z) l b))%Q).
  { clear l. induction l as [|c l IH]; intros a b H; cbn [fold_left]; [exact H|]. apply IH.
    rewrite inject_Z_plus, inject_Z_mult, H. reflexivity. }
  apply G. reflexivity.
Qed.

Lemma ffrac_val : forall l (m n : Q), (ffrac (1 # 10) m l n == n + m * (inject_Z (dval l) / inject_Z (10 ^ Zlen l)))%Q.
Proof.
  induction l as [|c l IH]; intros m n; cbn [ffrac].
  - unfold Qdiv. cbn. field.
  - rewrite IH. change (c :: l) with ([c] ++ l). rewrite dval_app, Zlen_app. change (Zlen [c]) with 1.
    rewrite Z.pow_add_r by (try apply Zlen_nonneg; lia). change (10 ^ 1) with 10. change (dval [c]) with (10 * 0 + (c - 48)).
    rewrite inject_Z_plus, !inject_Z_mult. replace (10 * 0 + (c - 48)) with (c - 48) by lia. 
    assert (~ (inject_Z (10 ^ Zlen l) == 0)%Q).
    { intros F. assert (0 < 10 ^ Zlen l) by (apply Z.pow_pos_nonneg; [lia|apply Zlen_nonneg]). unfold Qeq in F. cbn in F. lia. }
    change (inject_Z 10) with (10 # 1)%Q. field. exact H.
Qed.

(** Sign texts of floats. *)
Inductive flt_sign : list Z -> Q -> Prop :=
| fs_none : flt_sign [] 1%Q
| fs_plus : flt_sign [43] 1%Q
| fs_minus : flt_sign [45] (-(1))%Q.

Lemma get_float_sign tenth f0 ws sg sign c d : blanks ws -> flt_sign sg sign -> is_digit c = true \/ c = 46 ->
  get_float tenth f0 (text (ws ++ sg) ++ Got c :: d) = reg_float tenth sign c f0 d.
Proof.
  intros Hw Hs Hc. unfold get_float. inversion Hs; subst; clear Hs; rewrite text_app, <- app_assoc; cbn [text map app].
  - assert (is_ws c = false) by (unfold is_digit, is_ws in *; lia). rewrite skip_ws_text by assumption.
    replace ((c =? 45) || (c =? 43)) with false by (unfold is_digit in Hc; lia). reflexivity.
  - rewrite skip_ws_text by auto. reflexivity.
  - rewrite skip_ws_text by auto. reflexivity.
Qed.

(** Without a fraction. *)
Lemma get_float_int f0 ws sg sign li x r : blanks ws -> flt_sign sg sign -> forallb is_digit li = true -> li <> [] ->
  (length li <= 25)%nat -> is_digit x = false -> x <> 46 ->
  exists v, get_float (1 # 10) f0 (text (ws ++ sg ++ li) ++ Got x :: r) = mkExt NoError v r /\
    (v == sign * inject_Z (dval li))%Q.
Proof.
  intros Hw Hs Hd Hne Hl Hx Hx'. destruct li as [|c l]; [congruence|].
  assert (Hc : is_digit c = true) by (cbn in Hd; apply andb_true_iff in Hd; tauto).
  eexists. split.
  - rewrite app_assoc, text_app, <- app_assoc. cbn [text map app]. fold (text l).
    rewrite (get_float_sign (1 # 10) f0 ws sg sign c); auto. unfold reg_float.
    rewrite (fdigs_text l 25 c [] x r Hd Hl Hx). cbn [app]. replace (x =? 46) with false by lia.
    replace (Zlen (c :: l) =? 0) with false by (rewrite Zlen_cons; pose proof (Zlen_nonneg l); lia). reflexivity.
  - rewrite fint_val. reflexivity.
Qed.

(** With a fraction. *)
Lemma get_float_frac f0 ws sg sign li ld x r : blanks ws -> flt_sign sg sign -> forallb is_digit li = true ->
  forallb is_digit ld = true -> li ++ ld <> [] ->
  (length li <= 25)%nat -> (length ld <= 25)%nat -> is_digit x = false ->
  exists v, get_float (1 # 10) f0 (text (ws ++ sg ++ li ++ [46] ++ ld) ++ Got x :: r) = mkExt NoError v r /\
    (v == sign * (inject_Z (dval li) + inject_Z (dval ld) / inject_Z (10 ^ Zlen ld)))%Q.
Proof.
  intros Hw Hs Hd Hd' Hne Hl Hl' Hx. eexists. split.
  - assert (HT : text (li ++ [46] ++ ld) ++ Got x :: r =
      Got (fst (start li 46 (Got (fst (start ld x r)) :: snd (start ld x r)))) ::
      snd (start li 46 (Got (fst (start ld x r)) :: snd (start ld x r)))).
    { assert (HL : text ld ++ Got x :: r = Got (fst (start ld x r)) :: snd (start ld x r)) by (destruct ld; reflexivity).
      destruct li as [|c l]; cbn [start fst snd app text map].
      - fold (text ld). rewrite HL. reflexivity.
      - fold (text (l ++ 46 :: ld)). rewrite text_app, <- app_assoc. cbn [text map app]. fold (text ld). rewrite HL. reflexivity. }
    rewrite app_assoc, text_app, <- app_assoc, HT. rewrite (get_float_sign (1 # 10) f0 ws sg sign); auto.
    2: { destruct li as [|c l]; [right; reflexivity|]. left. cbn in Hd. apply andb_true_iff in Hd. cbn. tauto. }
    unfold reg_float. rewrite fdigs_start by auto. cbn [Z.eqb Pos.eqb dread]. rewrite fdigs_start by auto.
    assert (Zlen li + Zlen ld <> 0).
    { destruct li as [|a li]; [|rewrite Zlen_cons; pose proof (Zlen_nonneg li); pose proof (Zlen_nonneg ld); lia].
      destruct ld as [|b ld]; [exfalso; apply Hne; reflexivity|]. rewrite (Zlen_cons b). pose proof (Zlen_nonneg ld). change (Zlen (@nil Z)) with 0. lia. }
    replace (Zlen li + Zlen ld =? 0) with false by lia. reflexivity.
  - rewrite ffrac_val, fint_val. unfold Qdiv. ring.
Qed.

(** At the end of the stream. *)
Lemma get_float_eof tenth f0 c l : forallb is_digit (c :: l) = true -> (length (c :: l) <= 25)%nat ->
  get_float tenth f0 (text (c :: l)) =
    if (length l =? 0)%nat then mkExt ConversionError f0 [] else mkExt NoError (1 * fint (removelast (c :: l)))%Q [].
Proof.
  intros Hd Hl. assert (Hc : is_digit c = true) by (cbn in Hd; apply andb_true_iff in Hd; tauto).
  change (text (c :: l)) with (text ([] ++ []) ++ Got c :: text l).
  rewrite (get_float_sign tenth f0 [] [] 1%Q c); auto; [|reflexivity|constructor].
  unfold reg_float. rewrite (fdigs_eof l 25 c [] Hd Hl). cbn [app].
  assert (HL : is_digit (last l c) = true).
  { rewrite forallb_forall in Hd. apply Hd. destruct l as [|a l]; [left; reflexivity|]. right.
    destruct (exists_last (l := a :: l) ltac:(discriminate)) as (l' & y & ->). rewrite last_last. apply in_or_app. right. left. reflexivity. }
  replace (last l c =? 46) with false by (unfold is_digit in HL; lia).
  destruct l as [|a l]; cbn [length Nat.eqb].
  - reflexivity.
  - change (removelast (c :: a :: l)) with (c :: removelast (a :: l)). rewrite Zlen_cons.
    pose proof (Zlen_nonneg (removelast (a :: l))). replace (1 + _ =? 0) with false by lia. reflexivity.
Qed.

Lemma reg_float_suffix tenth sign c f0 d : suffix_ok d (reg_float tenth sign c f0 d).
Proof.
  unfold reg_float. destruct (fdigs_pre 25 c d []) as (p & H1 & H2).
  destruct (fdigs 25 c d []) as [[[li c1]|] d1]; cbn [fst snd] in *.
  2: { eapply suffix_bad; [exact H1|discriminate]. }
  specialize (H2 ltac:(discriminate)). rewrite H1. apply suffix_app; [exact H2|]. clear.
  destruct (c1 =? 46).
  - destruct (dread_pre d1) as (p & H1 & H2). destruct (dread d1) as [[c2| |] d2]; cbn [fst snd] in *.
    + rewrite H1. apply suffix_app; [apply H2; discriminate|]. clear. destruct (fdigs_pre 25 c2 d2 []) as (p & H1 & H2).
      destruct (fdigs 25 c2 d2 []) as [[[ld c3]|] d3]; cbn [fst snd] in *; [|eapply suffix_bad; [exact H1|discriminate]].
      specialize (H2 ltac:(discriminate)). destruct (_ =? 0); eapply suffix_good; eauto.
    + eapply suffix_bad; [exact H1|discriminate].
    + eapply suffix_bad; [exact H1|discriminate].
  - destruct (_ =? 0); eapply (suffix_good []); auto.
Qed.
Lemma get_float_suffix tenth f0 d : suffix_ok d (get_float tenth f0 d).
Proof.
  unfold get_float. destruct (skip_ws_pre d) as (p & H1 & H2). destruct (skip_ws d) as [[c|] d1]; cbn [fst snd] in *.
  2: { eapply suffix_bad; [exact H1|discriminate]. }
  rewrite H1. apply suffix_app; [apply H2; discriminate|]. clear. destruct (_ || _); [|apply reg_float_suffix].
  destruct (dread_pre d1) as (p & H1 & H2). destruct (dread d1) as [[c2| |] d2]; cbn [fst snd] in *.
  - rewrite H1. apply suffix_app; [apply H2; discriminate|]. apply reg_float_suffix.
  - eapply suffix_bad; [exact H1|discriminate].
  - eapply suffix_bad; [exact H1|discriminate].
Qed.
Lemma reg_float_keeps tenth sign c f0 d : eflag (reg_float tenth sign c f0 d) <> NoError -> eval (reg_float tenth sign c f0 d) = f0.
Proof.
  unfold reg_float. destruct (fdigs 25 c d []) as [[[li c1]|] d1]; [|reflexivity]. destruct (c1 =? 46).
  - destruct (dread d1) as [[c2| |] d2]; try reflexivity. destruct (fdigs 25 c2 d2 []) as [[[ld c3]|] d3]; [|reflexivity].
    destruct (_ =? 0); cbn; congruence.
  - destruct (_ =? 0); cbn; congruence.
Qed.
Lemma get_float_keeps tenth f0 d : eflag (get_float tenth f0 d) <> NoError -> eval (get_float tenth f0 d) = f0.
Proof.
  unfold get_float. destruct (skip_ws d) as [[c|] d1]; [|reflexivity]. destruct (_ || _); [|apply reg_float_keeps].
  destruct (dread d1) as [[c2| |] d2]; [apply reg_float_keeps|reflexivity|reflexivity].
Qed.

(** * Words *)
(** [split s l]: l are the maximal blank-free pieces of s, in order. *)
Inductive split : list Z -> list (list Z) -> Prop :=
| split_nil ws : blanks ws -> split ws []
| split_cons ws w rest l : blanks ws -> w <> [] -> forallb (fun c => negb (blank c)) w = true ->
    (rest = [] \/ exists c r, rest = c :: r /\ blank c = true) -> split rest l -> split (ws ++ w ++ rest) (w :: l).

Lemma split_total : forall s, exists l, split s l.
Proof.
  assert (G : forall n s, (length s <= n)%nat -> exists l, split s l).
  { induction n as [|n IH]; intros s Hs.
    - destruct s; [|cbn in Hs; lia]. exists []. apply split_nil. reflexivity.
    - destruct s as [|c s]; [exists []; apply split_nil; reflexivity|]. cbn in Hs.
      destruct (is_ws c) eqn:E.
      + destruct (IH s ltac:(lia)) as [l Hl]. exists l. inversion Hl; subst.
        * apply split_nil. unblank. cbn. rewrite E. assumption.
        * change (c :: ws ++ w ++ rest) with ((c :: ws) ++ w ++ rest). apply split_cons; auto. unblank. cbn. rewrite E. assumption.
      + destruct (IH s ltac:(lia)) as [l Hl].
        assert (K : exists w rest l', s = w ++ rest /\ forallb (fun c => negb (is_ws c)) w = true /\
           (rest = [] \/ exists c r, rest = c :: r /\ is_ws c = true) /\ split rest l').
        { inversion Hl as [ws Hw|ws w rest l' Hw Hn Hnb Hr Hs']; subst.
          - exists [], s, []. split; [reflexivity|]. split; [reflexivity|]. split; [|exact Hl].
            destruct s as [|a s]; [left; reflexivity|]. right. unblank. cbn in Hw. apply andb_true_iff in Hw as [Ha _]. eauto.
          - destruct ws as [|a ws].
            + exists w, rest, l'. auto.
            + exists [], ((a :: ws) ++ w ++ rest), (w :: l'). split; [reflexivity|]. split; [reflexivity|]. split; [|exact Hl].
              right. unblank. cbn in Hw. apply andb_true_iff in Hw as [Ha _]. cbn [app]. eauto. }
        destruct K as (w & rest & l' & -> & H1 & H2 & H3). exists ((c :: w) :: l').
        change (c :: w ++ rest) with ([] ++ (c :: w) ++ rest). apply split_cons; auto; [reflexivity|discriminate|].
        cbn [forallb]. change blank with is_ws. rewrite E, H1. reflexivity. }
  intros s. apply (G (length s)). lia.
Qed.

Fixpoint get_words (n : nat) (d : dev) : list (err * list Z) * dev :=
  match n with
  | O => ([], d)
  | S n' => let e := get_string [] d in let r := get_words n' (edev e) in ((eflag e, eval e) :: fst r, snd r)
  end.

Lemma str_rest_text : forall w acc rest, forallb (fun c => negb (is_ws c)) w = true ->
  (rest = [] \/ exists c r, rest = c :: r /\ is_ws c = true) ->
  str_rest (text (w ++ rest)) acc = (acc ++ w, text (tl rest)).
Proof.
  induction w as [|c w IH]; intros acc rest Hw Hr.
  - rewrite app_nil_r. destruct Hr as [->|(c & r & -> & Hc)]; [reflexivity|]. cbn. rewrite Hc. reflexivity.
  - cbn [forallb] in Hw. apply andb_true_iff in Hw as [Hc Hw]. cbn [app text map str_rest]. apply negb_true_iff in Hc. rewrite Hc.
    fold (text (w ++ rest)). rewrite IH by auto. rewrite <- app_assoc. reflexivity.
Qed.

Lemma split_tl rest l : split rest l -> (rest = [] \/ exists c r, rest = c :: r /\ is_ws c = true) -> split (tl rest) l.
Proof.
  intros H [->|(c & r & -> & Hc)]; [exact H|]. cbn [tl]. inversion H as [ws Hw|ws w rest' l' Hw Hn Hnb Hr Hs' E]; subst.
  - apply split_nil. unblank. cbn in Hw. apply andb_true_iff in Hw. tauto.
  - destruct ws as [|a ws].
    + destruct w as [|b w]; [congruence|]. cbn in E. injection E as E1 E2; subst. change blank with is_ws in Hnb. cbn in Hnb. rewrite Hc in Hnb. discriminate.
    + cbn in E. injection E as E1 E2; subst. apply split_cons; auto. unblank. cbn in Hw. apply andb_true_iff in Hw. tauto.
Qed.

Lemma skip_ws_blanks ws : blanks ws -> skip_ws (text ws) = (None, []).
Proof.
  induction ws as [|c ws IH]; intros H; [reflexivity|]. unblank. cbn in H. apply andb_true_iff in H as [Hc H].
  cbn. rewrite Hc. apply IH. exact H.
Qed.

Lemma words_ok s l : split s l ->
  fst (get_words (length l) (text s)) = map (pair NoError) l /\
  forall s0, get_string s0 (snd (get_words (length l) (text s))) = mkExt ReadError s0 [].
Proof.
  intros H. remember (length l) as n eqn:En. revert s l H En.
  induction n as [|n IH]; intros s l H En.
  - destruct l; [|discriminate]. inversion H; subst. split; [reflexivity|]. intros s0. cbn [get_words snd].
    unfold get_string. rewrite skip_ws_blanks by assumption. reflexivity.
  - inversion H as [|ws w rest l' Hw Hn Hnb Hr Hs']; subst; [discriminate|]. cbn in En. injection En as En.
    destruct w as [|c w]; [congruence|]. cbn [get_words fst snd].
    assert (HG : get_string [] (text (ws ++ (c :: w) ++ rest)) = mkExt NoError (c :: w) (text (tl rest))).
    { unfold get_string. rewrite text_app. cbn [app text map]. fold (text (w ++ rest)).
      assert (Hc := Hnb). cbn [forallb] in Hc. apply andb_true_iff in Hc as [Hc Hnb']. apply negb_true_iff in Hc.
      rewrite skip_ws_text by auto. rewrite str_rest_text by auto. reflexivity. }
    rewrite HG. cbn [edev eflag eval fst snd]. destruct (IH (tl rest) l' (split_tl rest l' Hs' Hr) En) as [A B].
    split; [rewrite A; reflexivity|exact B].
Qed.

(** * Characters and booleans *)
Fixpoint get_chars (raw : bool) (n : nat) (d : dev) : list (err * Z) * dev :=
  match n with
  | O => ([], d)
  | S n' => let e := get_char raw 0 d in let r := get_chars raw n' (edev e) in ((eflag e, eval e) :: fst r, snd r)
  end.
Lemma get_chars_raw : forall s d, get_chars true (length s) (text s ++ d) = (map (pair NoError) s, d).
Proof. induction s as [|c s IH]; intros d; [reflexivity|]. cbn. fold (text s). rewrite IH. reflexivity. Qed.
Lemma get_char_skip c s d c0 : blank c = true -> get_char false c0 (text (c :: s) ++ d) = get_char false c (text s ++ d).
Proof.
  intros H. unfold get_char. cbn [text map app]. fold (text s). cbn [skip_ws last_blank]. change (is_ws c) with (blank c).
  rewrite H. reflexivity.
Qed.
Lemma get_char_flag c0 c1 d : eflag (get_char false c0 d) = eflag (get_char false c1 d) /\
  edev (get_char false c0 d) = edev (get_char false c1 d) /\
  (eflag (get_char false c0 d) = NoError -> eval (get_char false c0 d) = eval (get_char false c1 d)).
Proof. unfold get_char. destruct (skip_ws d) as [[c|] d']; cbn; repeat split; try congruence. Qed.
Lemma get_chars_fmt : forall s, let l := filter (fun c => negb (blank c)) s in
  fst (get_chars false (length l) (text s)) = map (pair NoError) l /\
  forall c0, eflag (get_char false c0 (snd (get_chars false (length l) (text s)))) = ReadError.
Proof.
  induction s as [|c s IH]; cbn zeta in *.
  - split; [reflexivity|]. intros. reflexivity.
  - cbn [filter]. destruct (blank c) eqn:E; cbn [negb].
    + destruct IH as [H1 H2]. set (l := filter _ s) in *. clearbody l. destruct l as [|x l].
      * split; [reflexivity|]. intros c0. cbn [length get_chars snd] in *.
        pose proof (get_char_skip c s [] c0 E) as K. rewrite !app_nil_r in K. rewrite K. apply H2.
      * cbn [length get_chars fst snd map] in *.
        pose proof (get_char_skip c s [] 0 E) as K. rewrite !app_nil_r in K.
        destruct (get_char_flag 0 c (text s)) as (F1 & F2 & F3). rewrite K. clear K.
        revert F1 F2 F3. generalize (get_char false c (text s)). intros e1 F1 F2 F3.
        remember (get_char false 0 (text s)) as e0 eqn:E0. clear E0. injection H1 as H1a H1b H1c.
        rewrite <- F1, <- F2, <- (F3 H1a). rewrite H1a, H1b, H1c. split; [reflexivity|]. intros c0. apply H2.
    + cbn [length get_chars fst snd map]. assert (G : get_char false 0 (text (c :: s)) = mkExt NoError c (text s)).
      { unfold get_char. cbn [text map skip_ws]. change (is_ws c) with (blank c). rewrite E. reflexivity. }
      rewrite G. cbn [eflag eval edev]. destruct IH as [H1 H2]. rewrite H1. split; [reflexivity|exact H2].
Qed.
Lemma get_char_suffix raw c0 d : suffix_ok d (get_char raw c0 d).
Proof.
  unfold get_char. destruct raw.
  - destruct (dread_pre d) as (p & H1 & H2). destruct (dread d) as [[c| |] d']; cbn [fst snd] in *.
    + eapply suffix_good; [exact H1|]. apply H2. discriminate.
    + eapply suffix_bad; [exact H1|discriminate].
    + eapply suffix_bad; [exact H1|discriminate].
  - destruct (skip_ws_pre d) as (p & H1 & H2). destruct (skip_ws d) as [[c|] d']; cbn [fst snd] in *.
    + eapply suffix_good; [exact H1|]. apply H2. discriminate.
    + eapply suffix_bad; [exact H1|discriminate].
Qed.
(** What may follow a word; [r] is the device after that read. *)
Inductive word_end : dev -> dev -> Prop :=
| we_eof : word_end [] []
| we_pause r : word_end (Nothing :: r) r
| we_blank x r : blank x = true -> word_end (Got x :: r) r.
Lemma str_rest_word : forall w acc e r, forallb (fun c => negb (blank c)) w = true -> word_end e r ->
  str_rest (text w ++ e) acc = (acc ++ w, r).
Proof.
  induction w as [|c w IH]; intros acc e r Hw He.
  - rewrite app_nil_r. cbn [text map app]. inversion He as [| |x r' Hx]; subst; cbn; try reflexivity.
    change (is_ws x) with (blank x). rewrite Hx. reflexivity.
  - cbn [forallb] in Hw. apply andb_true_iff in Hw as [Hc Hw]. apply negb_true_iff in Hc. cbn [app text map str_rest].
    change (is_ws c) with (blank c). rewrite Hc. fold (text w). rewrite (IH (acc ++ [c]) e r Hw He), <- app_assoc. reflexivity.
Qed.
Lemma get_string_word s0 ws w e r : blanks ws -> w <> [] -> forallb (fun c => negb (blank c)) w = true -> word_end e r ->
  get_string s0 (text (ws ++ w) ++ e) = mkExt NoError w r.
Proof.
  intros Hws Hne Hw He. destruct w as [|c w]; [congruence|]. unfold get_string.
  rewrite text_app, <- app_assoc. cbn [text map app]. fold (text w).
  cbn [forallb] in Hw. apply andb_true_iff in Hw as [Hc Hw]. apply negb_true_iff in Hc.
  rewrite skip_ws_text by auto. rewrite (str_rest_word w [c] e r Hw He). reflexivity.
Qed.
Lemma eqs_spec a b : eqs a b = true <-> a = b.
Proof. unfold eqs. destruct (list_eq_dec Z.eq_dec a b); split; congruence. Qed.
Lemma existsb_eqs w l : existsb (eqs w) l = true <-> In w l.
Proof.
  rewrite existsb_exists. split.
  - intros (x & Hx & E). apply eqs_spec in E. congruence.
  - intros H. exists w. split; [exact H|]. apply eqs_spec. reflexivity.
Qed.

(** * The shared digit buffer *)
(** One thread running alone. *)
Inductive solo (t : ity) (sign i0 : Z) : list Z -> phase -> list Z -> phase -> Prop :=
| solo_refl b p : solo t sign i0 b p b p
| solo_step b p b' p' b'' p'' : pstep t sign i0 b p = Ok (b', p') -> solo t sign i0 b' p' b'' p'' -> solo t sign i0 b p b'' p''.

Lemma at_mem_snoc buf l c : 0 <= Zlen l < Zlen buf -> at_mem buf 0 l -> at_mem (zset buf (Zlen l) c) 0 (l ++ [c]).
Proof.
  intros Hl HA i Hi. rewrite Zlen_app in Hi. change (Zlen [c]) with 1 in Hi. rewrite Z.add_0_l.
  destruct (Z.eq_dec i (Zlen l)) as [->|Hne].
  - rewrite zget_zset_eq by lia. rewrite zget_app_r by lia. rewrite Z.sub_diag. reflexivity.
  - rewrite zget_zset_neq by lia. rewrite zget_app_l by lia. rewrite <- HA by lia. f_equal.
Qed.

Lemma solo_gather t sign i0 : forall k c d acc buf, Zlen buf = 25 -> at_mem buf 0 acc -> Zlen acc = 25 - Z.of_nat k ->
  match digs k c d acc with
  | (None, d') => exists b', solo t sign i0 buf (Gather c d (Zlen acc)) b' (Finished (mkExt ReadError i0 d'))
  | (Some [], d') => exists b', solo t sign i0 buf (Gather c d (Zlen acc)) b' (Finished (mkExt ConversionError i0 d'))
  | (Some l, d') => exists b', solo t sign i0 buf (Gather c d (Zlen acc)) b' (Sum 0 (Zlen l) 0 d') /\ at_mem b' 0 l /\ Zlen b' = 25
  end.
Proof.
  assert (STOP : forall c d acc buf, Zlen buf = 25 -> at_mem buf 0 acc -> is_digit c && (Zlen acc <? 25) = false ->
    match acc with
    | [] => exists b', solo t sign i0 buf (Gather c d (Zlen acc)) b' (Finished (mkExt ConversionError i0 d))
    | _ => exists b', solo t sign i0 buf (Gather c d (Zlen acc)) b' (Sum 0 (Zlen acc) 0 d) /\ at_mem b' 0 acc /\ Zlen b' = 25
    end).
  { intros c d acc buf Hb HA HS. destruct acc as [|a acc].
    - exists buf. eapply solo_step; [|apply solo_refl]. cbn [pstep]. rewrite HS. reflexivity.
    - exists buf. split; [|auto]. eapply solo_step; [|apply solo_refl]. cbn [pstep]. rewrite HS.
      pose proof (Zlen_nonneg acc). rewrite Zlen_cons. replace (1 + Zlen acc =? 0) with false by lia. reflexivity. }
  induction k as [|k IH]; intros c d acc buf Hb HA Hl; cbn [digs].
  - specialize (STOP c d acc buf Hb HA ltac:(lia)). destruct acc; exact STOP.
  - destruct (is_digit c) eqn:Ec; [|specialize (STOP c d acc buf Hb HA ltac:(rewrite Ec; reflexivity)); destruct acc; exact STOP].
    assert (HT : is_digit c && (Zlen acc <? 25) = true) by (rewrite Ec; lia).
    pose proof (Zlen_nonneg acc) as Hnn.
    assert (HS : at_mem (zset buf (Zlen acc) c) 0 (acc ++ [c])) by (apply at_mem_snoc; [lia|exact HA]).
    assert (HL : Zlen (acc ++ [c]) = Zlen acc + 1) by (rewrite Zlen_app; reflexivity).
    destruct (dread d) as [[c'| |] d'] eqn:ED.
    + specialize (IH c' d' (acc ++ [c]) (zset buf (Zlen acc) c)). rewrite Zlen_zset in IH. specialize (IH Hb HS ltac:(lia)).
      assert (ST : pstep t sign i0 buf (Gather c d (Zlen acc)) = Ok (zset buf (Zlen acc) c, Gather c' d' (Zlen (acc ++ [c])))).
      { cbn [pstep]. rewrite HT, ED, HL. reflexivity. }
      destruct (digs k c' d' (acc ++ [c])) as [[[|x l]|] d''].
      * destruct IH as [b' IH]. exists b'. eapply solo_step; eassumption.
      * destruct IH as (b' & IH & R). exists b'. split; [eapply solo_step; eassumption|exact R].
      * destruct IH as [b' IH]. exists b'. eapply solo_step; eassumption.
    + destruct (acc ++ [c]) as [|x l] eqn:EA; [destruct acc; discriminate|]. rewrite HL.
      exists (zset buf (Zlen acc) c). split; [|rewrite Zlen_zset; auto].
      eapply solo_step; [|apply solo_refl]. cbn [pstep]. rewrite HT, ED. reflexivity.
    + exists (zset buf (Zlen acc) c). eapply solo_step; [|apply solo_refl]. cbn [pstep]. rewrite HT, ED. reflexivity.
Qed.

Lemma solo_trans t sign i0 b p b' p' b'' p'' : solo t sign i0 b p b' p' -> solo t sign i0 b' p' b'' p'' -> solo t sign i0 b p b'' p''.
Proof. intros H. revert b'' p''. induction H as [|b p b1 p1 b2 p2 H1 H2 IH]; intros b3 p3 H; [exact H|]. eapply solo_step; eauto. Qed.

Lemma solo_sum t sign i0 buf j d : forall l k number n, at_mem buf k l -> k + Zlen l = j -> 0 <= k ->
  accum t (tmax t / 10) l number = Ok n ->
  match n with
  | None => solo t sign i0 buf (Sum k j number d) buf (Finished (mkExt OutOfRangeError i0 d))
  | Some m => forall v, num_op t (sign * m) = Ok v -> solo t sign i0 buf (Sum k j number d) buf (Finished (mkExt NoError v d))
  end.
Proof.
  induction l as [|c l IH]; intros k number n HA Hj Hk H; cbn [accum] in H.
  - injection H as <-. intros v Hv. eapply solo_step; [|apply solo_refl]. cbn [pstep]. znil. replace (k <? j) with false by lia.
    rewrite Hv. reflexivity.
  - rewrite Zlen_cons in Hj. pose proof (Zlen_nonneg l).
    assert (Hg0 : zget buf k = Some c).
    { pose proof (HA 0) as Hg0. rewrite Zlen_cons in Hg0. rewrite Z.add_0_r in Hg0. apply Hg0. lia. }
    assert (HA' : at_mem buf (k + 1) l).
    { intros i Hi. specialize (HA (i + 1)). rewrite Zlen_cons in HA. specialize (HA ltac:(lia)).
      rewrite zget_cons_pos in HA by lia. replace (i + 1 - 1) with i in HA by lia. rewrite <- HA. f_equal. lia. }
    destruct (number <? tmax t / 10) eqn:E.
    + destruct (num_op t (10 * number + (c - 48))) as [m| |] eqn:EM; cbn [bind] in H; try discriminate.
      assert (ST : pstep t sign i0 buf (Sum k j number d) = Ok (buf, Sum (k + 1) j m d)).
      { cbn [pstep]. replace (k <? j) with true by lia. rewrite E, Hg0, EM. reflexivity. }
      specialize (IH (k + 1) m n HA' ltac:(lia) ltac:(lia) H). destruct n as [v'|].
      * intros v Hv. eapply solo_step; [exact ST|]. apply IH. exact Hv.
      * eapply solo_step; [exact ST|exact IH].
    + injection H as <-. eapply solo_step; [|apply solo_refl]. cbn [pstep]. replace (k <? j) with true by lia. rewrite E. reflexivity.
Qed.

(** Alone, the small-step parser computes what [reg_int] says. *)
Lemma solo_reg_int t sign i0 c d buf e : Zlen buf = 25 -> reg_int t sign c i0 d = Ok e ->
  exists b', solo t sign i0 buf (Gather c d 0) b' (Finished e).
Proof.
  intros Hb H. unfold reg_int in H.
  pose proof (solo_gather t sign i0 25 c d [] buf Hb ltac:(intros i Hi; znil; lia) eq_refl) as HG.
  change (Zlen (@nil Z)) with 0 in HG. destruct (digs 25 c d []) as [[[|x l]|] d'].
  - injection H as <-. exact HG.
  - destruct HG as (b' & HG & HA & HL).
    destruct (accum t (tmax t / 10) (x :: l) 0) as [n| |] eqn:EA; cbn [bind] in H; try discriminate.
    pose proof (solo_sum t sign i0 b' (Zlen (x :: l)) d' (x :: l) 0 0 n HA ltac:(lia) ltac:(lia) EA) as HS.
    exists b'. eapply solo_trans; [exact HG|]. destruct n as [m|]; [|injection H as <-; exact HS].
    destruct (num_op t (sign * m)) as [v| |] eqn:EV; cbn [bind] in H; try discriminate. injection H as <-. apply HS. reflexivity.
  - injection H as <-. exact HG.
Qed.
