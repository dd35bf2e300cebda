(** Specifications and proofs for the formatters. *)
From Verif Require Import Base Numerals ConvModel ConvProofs StreamModel StreamProofs FmtModel.
Open Scope Z_scope.

(** * Layout *)
(** [out] is [s] with blanks added as alignment [a] and width [w] require. *)
Definition laid_out (a : align) (w : Z) (s out : list Z) : Prop :=
  exists l r, out = repeat 32 l ++ s ++ repeat 32 r /\
  match a with
  | NoAlign | Garbage => l = 0%nat /\ r = 0%nat
  | LeftAlign => l = 0%nat /\ Zlen out = Z.max w (Zlen s)
  | RightAlign => r = 0%nat /\ Zlen out = Z.max w (Zlen s)
  | CentreAlign => (l = r \/ l = S r) /\ Zlen out = Z.max w (Zlen s)
  end.
Definition width_ok (w : Z) : Prop := int_min + 100 <= w <= int_max.

Lemma lay_ok_any a w s : in_int (w - Zlen s) = true -> exists out, lay (Some a) w s (Zlen s) = Ok out /\ laid_out a w s out.
Proof.
  intros Hw. pose proof (Zlen_nonneg s) as H0. unfold lay, int_op in *. rewrite Hw. cbn [bind].
  destruct (w - Zlen s <=? 0) eqn:E.
  - exists s. split; [reflexivity|]. exists 0%nat, 0%nat. cbn [repeat app]. rewrite app_nil_r. split; [reflexivity|].
    destruct a; repeat split; auto; lia.
  - eexists. split; [reflexivity|]. unfold pre_pad, post_pad. rewrite E. unfold pad.
    assert (Hq : w - Zlen s = 2 * ((w - Zlen s) ÷ 2) + Z.rem (w - Zlen s) 2) by apply Z.quot_rem'.
    pose proof (Z.rem_bound_pos (w - Zlen s) 2 ltac:(lia) ltac:(lia)) as Hr.
    destruct a; [exists 0%nat, 0%nat|exists 0%nat, (Z.to_nat (w - Zlen s))|exists (Z.to_nat (w - Zlen s)), 0%nat
                |exists (Z.to_nat ((w - Zlen s) ÷ 2 + Z.rem (w - Zlen s) 2)), (Z.to_nat ((w - Zlen s) ÷ 2))|exists 0%nat, 0%nat];
      (split; [reflexivity|]); cbn [repeat]; rewrite ?Zlen_app, ?Zlen_repeat; znil; repeat split; auto; try lia.
Qed.
Lemma lay_ok a w s : width_ok w -> Zlen s <= 100 -> exists out, lay (Some a) w s (Zlen s) = Ok out /\ laid_out a w s out.
Proof.
  intros Hw Hs. pose proof (Zlen_nonneg s). apply lay_ok_any. unfold width_ok, in_int, int_min, int_max in *. lia.
Qed.

(** Blanks at both ends removed. *)
Fixpoint trim_front (l : list Z) : list Z := match l with c :: l' => if c =? 32 then trim_front l' else l | [] => [] end.
Definition trim (l : list Z) : list Z := rev (trim_front (rev (trim_front l))).
Lemma trim_front_pad n s : trim_front (repeat 32 n ++ s) = trim_front s.
Proof. induction n; [reflexivity|]. cbn [repeat app trim_front]. exact IHn. Qed.
Lemma repeat_snoc {A} (x : A) n : x :: repeat x n = repeat x n ++ [x].
Proof. induction n; [reflexivity|]. cbn. rewrite <- IHn. reflexivity. Qed.
Lemma rev_repeat {A} (x : A) n : rev (repeat x n) = repeat x n.
Proof. induction n; [reflexivity|]. cbn [repeat rev]. rewrite IHn, <- repeat_snoc. reflexivity. Qed.
Lemma trim_front_id c s : c <> 32 -> trim_front (c :: s) = c :: s.
Proof. intros H. cbn. replace (c =? 32) with false by lia. reflexivity. Qed.
Lemma laid_out_trim a w s out : ~ In 32 s -> laid_out a w s out -> trim out = s.
Proof.
  intros Hn (l & r & -> & _). unfold trim. rewrite trim_front_pad.
  destruct s as [|c s].
  - cbn [app]. replace (repeat 32 r) with (repeat 32 r ++ []) by apply app_nil_r. rewrite trim_front_pad. reflexivity.
  - cbn [app]. rewrite trim_front_id by (intros ->; apply Hn; left; reflexivity).
    change (c :: s ++ repeat 32 r) with ((c :: s) ++ repeat 32 r). rewrite rev_app_distr, rev_repeat, trim_front_pad.
    assert (HR : forall l, ~ In 32 l -> trim_front l = l).
    { intros [|x l'] H; [reflexivity|]. apply trim_front_id. intros ->. apply H. left. reflexivity. }
    rewrite HR; [apply rev_involutive|]. intros F. apply in_rev in F. exact (Hn F).
Qed.

(** * Digits *)
Definition digit_val (c : Z) : Z := if c <? 97 then c - 48 else c - 87.
Definition good_digit (b c : Z) : Prop := (48 <= c <= 57 \/ 97 <= c <= 102) /\ 0 <= digit_val c < b.
Definition pval (b : Z) (l : list Z) : Z := fold_left (fun a c => b * a + digit_val c) l 0.
(** Width and range of the types. *)
Definition type_bits (t : fty) : Z :=
  match t with FChar | FSChar | FUChar => 8 | FShort | FUShort => 16 | FInt | FUInt => 32 | _ => 64 end.
Definition type_signed (t : fty) : bool :=
  match t with FChar | FSChar | FShort | FInt | FLong => true | _ => false end.
Definition in_type (t : fty) (n : Z) : Prop :=
  if type_signed t then - 2 ^ (type_bits t - 1) <= n < 2 ^ (type_bits t - 1) else 0 <= n < 2 ^ type_bits t.
(** The text an integer [n] of type [t] should have. *)
Definition text_spec (t : fty) (b : base) (n : Z) (s : list Z) : Prop :=
  match b with
  | Dec => numeral n s
  | Hex => exists ds, s = 48 :: 120 :: ds /\ 4 * Zlen ds = type_bits t /\ Forall (good_digit 16) ds /\ pval 16 ds = n mod 2 ^ type_bits t
  | Bin => exists ds, s = 48 :: 98 :: ds /\ Zlen ds = type_bits t /\ Forall (good_digit 2) ds /\ pval 2 ds = n mod 2 ^ type_bits t
  end.

Lemma pval_acc b l : forall a, fold_left (fun a c => b * a + digit_val c) l a = a * b ^ Zlen l + pval b l.
Proof.
  unfold pval. induction l as [|c l IH]; intros a; cbn [fold_left]; [znil; lia|].
  rewrite IH. rewrite (IH (b * 0 + digit_val c)). rewrite Zlen_cons, Z.pow_add_r by (pose proof (Zlen_nonneg l); lia). nia.
Qed.
Lemma pval_cons b c l : pval b (c :: l) = digit_val c * b ^ Zlen l + pval b l.
Proof. unfold pval at 1. cbn [fold_left]. rewrite pval_acc. f_equal. f_equal. lia. Qed.
Lemma Zlen_down n f : Zlen (down n f) = Z.of_nat n.
Proof. induction n; [reflexivity|]. cbn [down]. rewrite Zlen_cons, IHn. lia. Qed.

Lemma down_pval k f v n : 0 < k -> (forall i, 0 <= i -> digit_val (f i) = v / (2 ^ (k * i)) mod 2 ^ k) ->
  pval (2 ^ k) (down n f) = v mod 2 ^ (k * Z.of_nat n).
Proof.
  intros Hk Hf. induction n as [|n IH]; [cbn; rewrite Z.mul_0_r; cbn; rewrite Z.mod_1_r; reflexivity|].
  cbn [down]. rewrite pval_cons, Zlen_down, IH, Hf by lia. rewrite <- Z.pow_mul_r by lia.
  rewrite Nat2Z.inj_succ. replace (k * Z.succ (Z.of_nat n)) with (k * Z.of_nat n + k) by lia. rewrite Z.pow_add_r by lia.
  rewrite Z.rem_mul_r; [lia|apply Z.pow_nonzero; lia|apply Z.pow_pos_nonneg; lia].
Qed.
Lemma bin_digit_val v i : 0 <= i -> bin_digit v i = 48 + (v / 2 ^ i) mod 2.
Proof.
  intros Hi. unfold bin_digit. change 1 with (Z.ones 1) at 1. rewrite Z.land_ones, Z.shiftr_div_pow2 by lia. change (2 ^ 1) with 2.
  pose proof (Z.mod_pos_bound (v / 2 ^ i) 2 ltac:(lia)). destruct (_ =? 0) eqn:E; lia.
Qed.
Lemma hex_digit_val v i : 0 <= i -> hex_digit v i = hex_char ((v / 2 ^ (4 * i)) mod 16).
Proof.
  intros Hi. unfold hex_digit. f_equal. change 15 with (Z.ones 4). rewrite Z.land_ones, Z.shiftr_div_pow2 by lia. change (2 ^ 4) with 16. do 3 f_equal. lia.
Qed.
Lemma hex_char_good d : 0 <= d < 16 -> good_digit 16 (hex_char d) /\ digit_val (hex_char d) = d.
Proof.
  intros H. unfold good_digit, digit_val, hex_char. destruct (d <? 10) eqn:E.
  - replace (48 + d <? 97) with true by lia. lia.
  - replace (87 + d <? 97) with false by lia. lia.
Qed.

Lemma Forall_down (P : Z -> Prop) f n : (forall i, 0 <= i -> P (f i)) -> Forall P (down n f).
Proof. intros H. induction n; cbn [down]; constructor; auto. apply H. lia. Qed.

(** The values whose decimal conversion is right (see C10). *)
Definition good_value (t : fty) (b : base) (n : Z) : Prop :=
  in_type t n /\ match b with Dec => match t with FChar => 0 <= n | FInt | FLong => n <> - 2 ^ (type_bits t - 1) | _ => True end | _ => True end.

Lemma good_conv t n : good_value t Dec n -> conv_good (fconv t) n.
Proof.
  intros [H1 H2]. unfold in_type in H1. destruct t; unfold conv_good, in_ity; cbn [fconv isigned ibits type_signed type_bits] in *;
    (split; [cbn in *; lia|split; [intros F; try discriminate F; exact H2|try exact I; cbn in *; try lia; exact H2]]).
Qed.

Lemma numeral_short n s : - 2 ^ 64 < n < 2 ^ 64 -> numeral n s -> Zlen s <= 25.
Proof.
  intros Hn [[H1 H2]|[H1 (u & -> & H2)]].
  - assert (2 ^ 64 < 10 ^ 24) by reflexivity. pose proof (canonical_short _ _ H2). lia.
  - assert (2 ^ 64 < 10 ^ 24) by reflexivity. pose proof (canonical_short _ _ H2). rewrite Zlen_cons. lia.
Qed.
Lemma fty_range t n : in_fty t n -> - 2 ^ 64 < n < 2 ^ 64.
Proof. unfold in_fty. destruct t; cbn [fsigned fbits]; cbn; lia. Qed.

Lemma conv250_ok t n conv s : Zlen conv = 250 -> conv_good t n -> numeral n s -> Zlen s <= 249 ->
  exists p mem, conv_cstr t n 0 249 conv = Ok (Some p, mem) /\ cstr (skipn (Z.to_nat p) mem) = Some s.
Proof.
  intros Hc Hg Hs Hl.
  destruct (conv_cstr_ok t n 0 249 conv Hg) as (o & mem & HR & _ & HE & s' & Hs' & HO); [lia|lia|].
  assert (s' = s) as -> by (eapply numeral_unique; eauto).
  destruct HO as [(_ & -> & HA)|[HF _]]; [|lia]. eexists _, _. split; [exact HR|].
  destruct (mem_prefix s (skipn (Z.to_nat (249 - Zlen s)) mem)) as [m Hm].
  - intros i Hi. rewrite <- HA by exact Hi. rewrite zget_skipn by lia. f_equal.
  - rewrite zget_skipn by (try lia; apply Zlen_nonneg). rewrite <- HE. f_equal. lia.
  - rewrite Hm, cstr_prefix; [reflexivity|]. eapply numeral_no_nul; eauto.
Qed.

Lemma fmt_text_ok t conv b n : Zlen conv = 250 -> good_value t b n ->
  exists s, fmt_text t conv b n = Ok (s, Zlen s) /\ text_spec t b n s /\ Zlen s <= 100.
Proof.
  intros Hc Hg. destruct b; cbn [fmt_text text_spec].
  - exists (48 :: 98 :: down (Z.to_nat (fbits t)) (bin_digit n)). split; [|split].
    + rewrite !Zlen_cons, Zlen_down. f_equal. f_equal. destruct t; reflexivity.
    + exists (down (Z.to_nat (fbits t)) (bin_digit n)). split; [reflexivity|]. rewrite Zlen_down. split; [destruct t; reflexivity|]. split.
      * apply Forall_down. intros i Hi. rewrite bin_digit_val by exact Hi. pose proof (Z.mod_pos_bound (n / 2 ^ i) 2 ltac:(lia)).
        unfold good_digit, digit_val. replace (48 + (n / 2 ^ i) mod 2 <? 97) with true by lia. lia.
      * change 2 with (2 ^ 1) at 1. rewrite (down_pval 1 (bin_digit n) n) by (try lia; intros i Hi; rewrite bin_digit_val by exact Hi;
          pose proof (Z.mod_pos_bound (n / 2 ^ i) 2 ltac:(lia)); unfold digit_val; replace (48 + (n / 2 ^ i) mod 2 <? 97) with true by lia;
          rewrite Z.mul_1_l; change (2 ^ 1) with 2; lia).
        f_equal. f_equal. destruct t; reflexivity.
    + rewrite !Zlen_cons, Zlen_down. destruct t; cbn [fbits]; lia.
  - exists (48 :: 120 :: down (Z.to_nat (fbits t / 4)) (hex_digit n)). split; [|split].
    + rewrite !Zlen_cons, Zlen_down. f_equal. f_equal. destruct t; reflexivity.
    + exists (down (Z.to_nat (fbits t / 4)) (hex_digit n)). split; [reflexivity|]. rewrite Zlen_down. split; [destruct t; reflexivity|]. split.
      * apply Forall_down. intros i Hi. rewrite hex_digit_val by exact Hi. apply hex_char_good. apply Z.mod_pos_bound. lia.
      * change 16 with (2 ^ 4) at 1. rewrite (down_pval 4 (hex_digit n) n) by (try lia; intros i Hi; rewrite hex_digit_val by exact Hi;
          apply hex_char_good; apply Z.mod_pos_bound; lia).
        f_equal. f_equal. destruct t; reflexivity.
    + rewrite !Zlen_cons, Zlen_down. destruct t; cbn [fbits]; lia.
  - pose proof (num_str_numeral n) as Hs. pose proof (numeral_short n _ (fty_range t n (proj1 Hg)) Hs) as Hl.
    destruct (conv250_ok (fconv t) n conv (num_str n) Hc (good_conv t n Hg) Hs ltac:(lia)) as (p & mem & H1 & H2).
    exists (num_str n). rewrite H1. cbn [bind fst snd]. rewrite H2. split; [reflexivity|]. split; [exact Hs|lia].
Qed.

Lemma text_no_blank t b n s : text_spec t b n s -> ~ In 32 s.
Proof.
  destruct b; cbn [text_spec].
  - intros (ds & -> & _ & HF & _) [F|[F|F]]; try discriminate. rewrite Forall_forall in HF. destruct (HF _ F) as [? _]. lia.
  - intros (ds & -> & _ & HF & _) [F|[F|F]]; try discriminate. rewrite Forall_forall in HF. destruct (HF _ F) as [? _]. lia.
  - assert (HD : forall l, forallb is_digit l = true -> ~ In 32 l).
    { intros l H F. rewrite forallb_forall in H. specialize (H _ F). discriminate. }
    intros [[_ [H _]]|[_ (u & -> & [H _])]]; [apply HD; exact H|]. intros [F|F]; [discriminate|exact (HD _ H F)].
Qed.

(** Printing with current settings. *)
Lemma f_print_ok debug t conv f a : Zlen conv = 250 -> ready f = true -> cur_align f = Some a -> width_ok (cur_width f) ->
  good_value t (cur_base f) (value f) ->
  exists s out f', f_print debug t conv f = Ok (f', out) /\ text_spec t (cur_base f) (value f) s /\ laid_out a (cur_width f) s out /\
    on_tmp f' = false /\ prm_width f' = prm_width f /\ prm_align f' = prm_align f /\ prm_base f' = prm_base f /\ tmp_align f' = tmp_align f.
Proof.
  intros Hc Hr Ha Hw Hg. unfold f_print. rewrite Hr. cbn [negb].
  destruct (fmt_text_ok t conv _ _ Hc Hg) as (s & H1 & H2 & H3). rewrite H1. cbn [bind fst snd]. rewrite Ha.
  destruct (lay_ok a (cur_width f) s Hw H3) as (out & H4 & H5). rewrite H4. cbn [bind]. exists s, out. eexists. split; [reflexivity|]. cbn. auto 10.
Qed.

Definition real_align (a : align) : Prop := a <> Garbage.

(** width and align together. *)
Definition eff_width (a : align) (w : Z) : Z := if is_none a then 0 else w.
Lemma laid_out_eff a w s out : laid_out a (eff_width a w) s out -> laid_out a w s out.
Proof. destruct a; auto. Qed.
Lemma eff_width_ok a w : width_ok w -> width_ok (eff_width a w).
Proof. unfold width_ok, eff_width, int_min, int_max. destruct (is_none a); lia. Qed.

Lemma f_tmp4_ok f n w a b : tmp_align f <> None -> exists f', f_tmp4 f n w a b = Ok f' /\ ready f' = true /\ value f' = n /\ cur_base f' = b /\
  cur_align f' = Some a /\ cur_width f' = eff_width a w /\ prm_width f' = prm_width f /\ prm_align f' = prm_align f /\ prm_base f' = prm_base f /\ tmp_align f' <> None.
Proof.
  intros Ht. unfold f_tmp4, f_width. destruct f as [pw pa pb tw ta tb ot r v]. cbn in *. destruct ta as [ta|]; [|congruence].
  unfold eff_width, f_align. destruct (w >? 0); [destruct (is_none ta)|]; cbn; destruct (is_none a); cbn; eexists; (split; [reflexivity|]); cbn; repeat split; discriminate.
Qed.
Lemma f_set_ok f w a b : on_tmp f = false -> exists f', f_set f w a b = Ok f' /\ on_tmp f' = false /\ prm_base f' = b /\
  prm_align f' = a /\ prm_width f' = eff_width a w /\ tmp_align f' = tmp_align f.
Proof.
  intros Ht. unfold f_set, f_width. destruct f as [pw pa pb tw ta tb ot r v]. cbn in *. subst ot. unfold f_align, f_base, put_width, put_align, eff_width. cbn.
  destruct (w >? 0); [destruct (is_none pa)|]; cbn; destruct (is_none a); cbn; eexists; (split; [reflexivity|]); cbn; auto.
Qed.

(** * Histories *)
Inductive fuse := UWidth (w : Z) | UAlign (a : align) | UBase (b : base) | USet (w : Z) (a : align) (b : base)
  | UPrint (n : Z) | UTmp3 (n w : Z) (b : base) | UTmp4 (n w : Z) (a : align) (b : base).
Definition is_tmp (u : fuse) : bool := match u with UTmp3 _ _ _ | UTmp4 _ _ _ _ => true | _ => false end.
(** One use of the formatter; temporary settings are printed at once.  Result: text printed with the permanent settings, if any. *)
Definition use (debug : bool) (t : fty) (conv : list Z) (f : fmt) (u : fuse) : res (fmt * list (list Z)) :=
  match u with
  | UWidth w => f' <- f_width f w ;; Ok (f', [])
  | UAlign a => Ok (f_align f a, [])
  | UBase b => Ok (f_base f b, [])
  | USet w a b => f' <- f_set f w a b ;; Ok (f', [])
  | UPrint n => r <- f_print debug t conv (f_val f n) ;; Ok (fst r, [snd r])
  | UTmp3 n w b => f1 <- f_tmp3 f n w b ;; r <- f_print debug t conv f1 ;; Ok (fst r, [])
  | UTmp4 n w a b => f1 <- f_tmp4 f n w a b ;; r <- f_print debug t conv f1 ;; Ok (fst r, [])
  end.
Fixpoint uses (debug : bool) (t : fty) (conv : list Z) (f : fmt) (l : list fuse) : res (fmt * list (list Z)) :=
  match l with
  | [] => Ok (f, [])
  | u :: l' => r <- use debug t conv f u ;; q <- uses debug t conv (fst r) l' ;; Ok (fst q, snd r ++ snd q)
  end.

(** Two formatters with the same permanent settings, pointing at them. *)
Definition same_perm (f g : fmt) : Prop :=
  on_tmp f = false /\ on_tmp g = false /\ prm_width f = prm_width g /\ prm_align f = prm_align g /\ prm_base f = prm_base g.

Lemma f_print_perm debug t conv f f' o : f_print debug t conv f = Ok (f', o) -> ready f = true ->
  on_tmp f' = false /\ prm_width f' = prm_width f /\ prm_align f' = prm_align f /\ prm_base f' = prm_base f.
Proof.
  unfold f_print. intros H Hr. rewrite Hr in H. cbn [negb] in H. destruct (fmt_text _ _ _ _) as [x| |]; cbn [bind] in H; try discriminate.
  destruct (lay _ _ _ _) as [y| |]; cbn [bind] in H; try discriminate. injection H as <- <-. cbn. auto.
Qed.

Lemma tmp_use_perm debug t conv f u r : is_tmp u = true -> on_tmp f = false -> use debug t conv f u = Ok r ->
  snd r = [] /\ on_tmp (fst r) = false /\ prm_width (fst r) = prm_width f /\ prm_align (fst r) = prm_align f /\ prm_base (fst r) = prm_base f.
Proof.
  intros Hu Ho H. destruct f as [pw pa pb tw ta tb ot rd v]. cbn -[f_print] in Ho. subst ot. destruct u as [| | | | |n w b|n w a b]; try discriminate; cbn [use] in H.
  - unfold f_tmp3, f_width in H. cbn -[f_print] in H.
    assert (HF : exists f1, ready f1 = true /\ prm_width f1 = pw /\ prm_align f1 = pa /\ prm_base f1 = pb /\ exists q, f_print debug t conv f1 = Ok q /\ r = (fst q, [])).
    { destruct (w >? 0); [destruct ta as [ta|]; [destruct (is_none ta)|]|]; cbn -[f_print] in H; try discriminate;
      match type of H with (bind ?q _) = _ => destruct q as [y| |] eqn:E; cbn [bind] in H; try discriminate; injection H as <-;
        match type of E with f_print _ _ _ ?g = _ => exists g end end; cbn; repeat (split; [reflexivity|]); eexists; (split; [exact E|reflexivity]). }
    destruct HF as (f1 & G1 & <- & <- & <- & [f2 o] & G2 & ->). cbn [fst snd]. split; [reflexivity|]. exact (f_print_perm _ _ _ _ _ _ G2 G1).
  - unfold f_tmp4, f_width in H. cbn -[f_print] in H.
    assert (HF : exists f1, ready f1 = true /\ prm_width f1 = pw /\ prm_align f1 = pa /\ prm_base f1 = pb /\ exists q, f_print debug t conv f1 = Ok q /\ r = (fst q, [])).
    { unfold f_align in H. destruct (w >? 0); [destruct ta as [ta|]; [destruct (is_none ta)|]|]; cbn -[f_print] in H; try discriminate; destruct (is_none a); cbn -[f_print] in H;
      match type of H with (bind ?q _) = _ => destruct q as [y| |] eqn:E; cbn [bind] in H; try discriminate; injection H as <-;
        match type of E with f_print _ _ _ ?g = _ => exists g end end; cbn; repeat (split; [reflexivity|]); eexists; (split; [exact E|reflexivity]). }
    destruct HF as (f1 & G1 & <- & <- & <- & [f2 o] & G2 & ->). cbn [fst snd]. split; [reflexivity|]. exact (f_print_perm _ _ _ _ _ _ G2 G1).
Qed.

Lemma perm_use debug t conv f g u r : is_tmp u = false -> same_perm f g -> use debug t conv f u = Ok r ->
  exists r', use debug t conv g u = Ok r' /\ snd r' = snd r /\ same_perm (fst r) (fst r').
Proof.
  intros Hu HS H. destruct f as [pw pa pb tw ta tb ot rd v], g as [pw' pa' pb' tw' ta' tb' ot' rd' v']. unfold same_perm in HS. cbn in HS.
  destruct HS as (-> & -> & -> & -> & ->).
  destruct u as [w|a|b|w a b|n|n w b|n w a b]; try discriminate; cbn [use] in *.
  - unfold f_width in *. cbn in *. destruct (w >? 0); [destruct (is_none pa')|]; cbn in *; injection H as <-; eexists; (split; [reflexivity|]); cbn; unfold same_perm; cbn; auto 10.
  - injection H as <-. eexists. split; [reflexivity|]. unfold f_align, same_perm. cbn. destruct (is_none a); cbn; auto 10.
  - injection H as <-. eexists. split; [reflexivity|]. unfold same_perm. cbn. auto 10.
  - unfold f_set, f_width in *. cbn in *. unfold f_align in *. destruct (w >? 0); [destruct (is_none pa')|]; cbn in *; destruct (is_none a); cbn in *; injection H as <-; eexists; (split; [reflexivity|]); cbn; unfold same_perm; cbn; auto 10.
  - unfold f_print in *. cbn [f_val set_value ready negb cur_base cur_align cur_width on_tmp value prm_base prm_align prm_width] in *.
    destruct (fmt_text _ _ _ _) as [x| |]; cbn [bind] in *; try discriminate. destruct (lay _ _ _ _) as [y| |]; cbn [bind] in *; try discriminate.
    injection H as <-. eexists. split; [reflexivity|]. cbn. unfold same_perm. cbn. auto 10.
Qed.

Lemma uses_erase debug t conv : forall l f g r, same_perm f g -> uses debug t conv f l = Ok r ->
  exists r', uses debug t conv g (filter (fun u => negb (is_tmp u)) l) = Ok r' /\ snd r' = snd r /\ same_perm (fst r) (fst r').
Proof.
  induction l as [|u l IH]; intros f g r HS H; cbn [uses filter] in *.
  - injection H as <-. eexists. split; [reflexivity|]. auto.
  - destruct (use debug t conv f u) as [r1| |] eqn:E1; cbn [bind] in H; try discriminate.
    destruct (uses debug t conv (fst r1) l) as [r2| |] eqn:E2; cbn [bind] in H; try discriminate. injection H as <-. cbn [fst snd].
    destruct (is_tmp u) eqn:EU; cbn [negb].
    + destruct (tmp_use_perm debug t conv f u r1 EU (proj1 HS) E1) as (K0 & K1 & K2 & K3 & K4).
      destruct (IH (fst r1) g r2) as (r' & J1 & J2 & J3); [|exact E2|].
      { destruct HS as (S1 & S2 & S3 & S4 & S5). unfold same_perm. repeat split; congruence. }
      exists r'. rewrite K0. auto.
    + destruct (perm_use debug t conv f g u r1 EU HS E1) as (q & Q1 & Q2 & Q3). cbn [uses]. rewrite Q1. cbn [bind].
      destruct (IH (fst r1) (fst q) r2 Q3 E2) as (r' & J1 & J2 & J3). rewrite J1. cbn [bind]. eexists. split; [reflexivity|]. cbn [fst snd]. rewrite Q2, J2. auto.
Qed.

(** Histories that stay within the int range and the convertible values never go wrong. *)
Definition fine_use (t : fty) (u : fuse) : Prop :=
  match u with
  | UWidth w => width_ok w | UAlign a => real_align a | UBase b => True | USet w a b => width_ok w /\ real_align a
  | UPrint n => good_value t Bin n /\ good_value t Dec n
  | UTmp3 n w b => width_ok w /\ good_value t b n | UTmp4 n w a b => width_ok w /\ real_align a /\ good_value t b n
  end.
Lemma uses_total debug t conv : Zlen conv = 250 -> forall l f, on_tmp f = false -> tmp_align f <> None -> width_ok (prm_width f) ->
  Forall (fine_use t) l -> exists r, uses debug t conv f l = Ok r.
Proof.
  intros Hc. induction l as [|u l IH]; intros f Ho Ht Hw HF; [eexists; reflexivity|]. inversion HF as [|? ? F1 F2]; subst. cbn [uses].
  assert (HU : exists r, use debug t conv f u = Ok r /\ on_tmp (fst r) = false /\ tmp_align (fst r) <> None /\ width_ok (prm_width (fst r))).
  { assert (W0 : width_ok 0) by (unfold width_ok, int_min, int_max; lia).
    destruct u as [w|a|b|w a b|n|n w b|n w a b]; cbn [use fine_use] in *.
    - destruct f as [pw pa pb tw ta tb ot rd v]. cbn in *. subst ot. unfold f_width. cbn. destruct (w >? 0); [destruct (is_none pa)|]; cbn; eexists; (split; [reflexivity|]); cbn; auto.
    - destruct f as [pw pa pb tw ta tb ot rd v]. cbn in *. subst ot. unfold f_align. cbn. destruct (is_none a); cbn; eexists; (split; [reflexivity|]); cbn; auto.
    - destruct f as [pw pa pb tw ta tb ot rd v]. cbn in *. subst ot. eexists. split; [reflexivity|]. cbn. auto.
    - destruct (f_set_ok f w a b Ho) as (f' & G1 & G2 & _ & _ & G5 & G6). rewrite G1. cbn [bind]. eexists. split; [reflexivity|]. cbn [fst].
      rewrite G2, G5, G6. split; [reflexivity|]. split; [exact Ht|]. apply eff_width_ok. tauto.
    - destruct (f_print_ok debug t conv (f_val f n) (prm_align f) Hc) as (s & out & f' & G1 & _ & _ & G4 & G5 & _ & _ & G8).
      + reflexivity.
      + unfold cur_align. cbn. rewrite Ho. reflexivity.
      + unfold cur_width. cbn. rewrite Ho. exact Hw.
      + cbn [value f_val set_value]. destruct F1 as [F3 F4]. destruct (cur_base _); [exact F3|split; [exact (proj1 F3)|exact I]|exact F4].
      + rewrite G1. cbn [bind fst snd]. eexists. split; [reflexivity|]. cbn [fst]. rewrite G5, G8. cbn. auto.
    -
      assert (HT : exists f1 a, f_tmp3 f n w b = Ok f1 /\ ready f1 = true /\ value f1 = n /\ cur_base f1 = b /\ cur_align f1 = Some a /\ cur_width f1 = w /\ prm_width f1 = prm_width f /\ tmp_align f1 <> None).
      { destruct f as [pw pa pb tw ta tb ot rd v]. cbn in *. destruct ta as [ta|]; [|congruence]. unfold f_tmp3, f_width. cbn.
        destruct (w >? 0); [destruct (is_none ta)|]; cbn; do 2 eexists; (split; [reflexivity|]); cbn; repeat split; discriminate. }
      destruct HT as (f1 & a & K1 & K2 & K3 & K4 & K5 & K6 & K7 & K8). rewrite K1. cbn [bind].
      destruct (f_print_ok debug t conv f1 a Hc K2 K5) as (s & out & f' & G1 & _ & _ & G4 & G5 & _ & _ & G8).
      + rewrite K6. tauto.
      + rewrite K3, K4. tauto.
      + rewrite G1. cbn [bind fst snd]. eexists. split; [reflexivity|]. cbn [fst]. rewrite G5, G8, K7. auto.
    - destruct (f_tmp4_ok f n w a b Ht) as (f1 & K1 & K2 & K3 & K4 & K5 & K6 & K7 & _ & _ & K8). rewrite K1. cbn [bind].
      destruct (f_print_ok debug t conv f1 a Hc K2 K5) as (s & out & f' & G1 & _ & _ & G4 & G5 & _ & _ & G8).
      + rewrite K6. apply eff_width_ok. tauto.
      + rewrite K3, K4. tauto.
      + rewrite G1. cbn [bind fst snd]. eexists. split; [reflexivity|]. cbn [fst]. rewrite G5, G8, K7. auto. }
  destruct HU as (r & H1 & H2 & H3 & H4). rewrite H1. cbn [bind]. destruct (IH (fst r) H2 H3 H4 F2) as (q & Hq). rewrite Hq. cbn [bind]. eexists. reflexivity.
Qed.

(** * Floats *)
Inductive guse := GWidth (w : Z) | GAlign (a : align) | GPrec (p : Z) | GSet2 (p w : Z) | GSet4 (p w : Z) (a : align) (b : bool)
  | GPrint (v : ftext) | GTmp3 (v : ftext) (p w : Z) | GTmp5 (v : ftext) (p w : Z) (a : align) (b : bool).
Definition g_tmp (u : guse) : bool := match u with GTmp3 _ _ _ | GTmp5 _ _ _ _ _ => true | _ => false end.
Definition guse1 (debug : bool) (st : ffmt * list Z) (u : guse) : res (ffmt * list Z * list (list Z)) :=
  let '(f, spec) := st in
  match u with
  | GWidth w => Ok (ff_width f w, spec, [])
  | GAlign a => Ok (ff_align f a, spec, [])
  | GPrec p => Ok (ff_prec f p, spec, [])
  | GSet2 p w => Ok (ff_set2 f p w, spec, [])
  | GSet4 p w a b => Ok (ff_set4 f p w a b, spec, [])
  | GPrint v => r <- ff_print debug spec (ff_val f v) ;; Ok (fst (fst r), snd r, [snd (fst r)])
  | GTmp3 v p w => r <- ff_print debug spec (ff_tmp3 f v p w) ;; Ok (fst (fst r), snd r, [])
  | GTmp5 v p w a b => r <- ff_print debug spec (ff_tmp5 f v p w a b) ;; Ok (fst (fst r), snd r, [])
  end.
Fixpoint guses (debug : bool) (st : ffmt * list Z) (l : list guse) : res (ffmt * list Z * list (list Z)) :=
  match l with
  | [] => Ok (st, [])
  | u :: l' => r <- guse1 debug st u ;; q <- guses debug (fst r) l' ;; Ok (fst q, snd r ++ snd q)
  end.

(** The specifier cells. *)
Definition spec_shape (s : list Z) : Prop := exists a b c, s = [37; 46; a; b; c; 0].
Lemma spec0_shape : spec_shape ff_spec0. Proof. do 3 eexists. reflexivity. Qed.
Lemma ff_spec_ok spec p : spec_shape spec -> 0 <= p -> spec_shape (ff_spec spec p) /\ spec_prec (ff_spec spec p) = Some (Z.min p 20).
Proof.
  intros (a & b & c & ->) Hp. unfold ff_spec. destruct (p <? 10) eqn:E1; [|destruct (p <? 20) eqn:E2].
  - assert (HW : wrap_s 8 (48 + p) = 48 + p) by (unfold wrap_s; change (2 ^ 8) with 256; change (2 ^ (8 - 1)) with 128; rewrite Z.mod_small by lia; ifs; lia).
    rewrite HW. split; [do 3 eexists; reflexivity|].
    assert (HP : p = 0 \/ p = 1 \/ p = 2 \/ p = 3 \/ p = 4 \/ p = 5 \/ p = 6 \/ p = 7 \/ p = 8 \/ p = 9) by lia.
    repeat (destruct HP as [->|HP]; [reflexivity|]). subst p. reflexivity.
  - split; [do 3 eexists; reflexivity|].
    assert (HP : p = 10 \/ p = 11 \/ p = 12 \/ p = 13 \/ p = 14 \/ p = 15 \/ p = 16 \/ p = 17 \/ p = 18 \/ p = 19) by lia.
    repeat (destruct HP as [->|HP]; [reflexivity|]). subst p. reflexivity.
  - split; [do 3 eexists; reflexivity|]. replace (Z.min p 20) with 20 by lia. reflexivity.
Qed.

Definition no_tmp (f : ffmt) : Prop := w_tmp f = false /\ p_tmp f = false /\ a_tmp f = false /\ b_tmp f = false.
(** Printing a value with the permanent settings. *)
Lemma ff_print_ok debug spec f v : spec_shape spec -> no_tmp f -> q_fixed f = true -> 0 <= q_prec f -> width_ok (q_width f) ->
  Zlen (v (Z.min (q_prec f) 20)) <= 29 ->
  exists f' out spec', ff_print debug spec (ff_val f v) = Ok (f', out, spec') /\
    laid_out (q_align f) (q_width f) (v (Z.min (q_prec f) 20)) out /\ spec_shape spec'.
Proof.
  intros Hs Hn Hf Hp Hw Hl. destruct f as [qw qp qa qb tw tp ta tb wt pt at_ bt r x]. unfold no_tmp in Hn. cbn [q_fixed q_prec q_width q_align w_tmp p_tmp a_tmp b_tmp] in *. destruct Hn as (-> & -> & -> & ->). subst qb.
  unfold ff_print. cbn [ff_val ff_value fready negb ff_cur_fixed ff_cur_prec ff_cur_align ff_cur_width b_tmp p_tmp a_tmp w_tmp q_fixed q_prec q_align q_width fvalue].
  destruct (ff_spec_ok spec qp Hs Hp) as [H1 H2]. rewrite H2. cbv beta iota zeta. rewrite firstn_all2 by (unfold Zlen in Hl; lia).
  destruct (lay_ok qa qw (v (Z.min qp 20)) Hw ltac:(lia)) as (out & H3 & H4). rewrite H3. cbn [bind fst snd]. do 3 eexists. split; [reflexivity|]. auto.
Qed.

Definition same_ff (f g : ffmt) : Prop :=
  no_tmp f /\ no_tmp g /\ q_width f = q_width g /\ q_prec f = q_prec g /\ q_align f = q_align g /\ q_fixed f = q_fixed g.
(** No permanent alignment is ever NoAlign, and none becomes so. *)
Definition g_aligned (u : guse) : Prop := match u with GAlign NoAlign | GSet4 _ _ NoAlign _ => False | _ => True end.

Lemma ff_print_perm debug spec f r : ff_print debug spec f = Ok r -> w_tmp f = true -> fready f = true ->
  no_tmp (fst (fst r)) /\ q_width (fst (fst r)) = q_width f /\ q_prec (fst (fst r)) = q_prec f /\ q_align (fst (fst r)) = q_align f /\ q_fixed (fst (fst r)) = q_fixed f.
Proof.
  destruct f as [qw qp qa qb tw tp ta tb wt pt at_ bt rd v]. cbn [w_tmp fready]. intros H -> ->. unfold ff_print in H. cbn [fready negb] in H.
  match type of H with (bind ?q _) = _ => destruct q as [x| |]; cbn [bind] in H; try discriminate end. injection H as <-. cbn. unfold no_tmp. cbn. auto 10.
Qed.

Lemma ff_tmp_perm f v p w a b : no_tmp f -> q_align f <> NoAlign -> forall g, g = ff_tmp3 f v p w \/ g = ff_tmp5 f v p w a b ->
  w_tmp g = true /\ fready g = true /\ q_width g = q_width f /\ q_prec g = q_prec f /\ q_align g = q_align f /\ q_fixed g = q_fixed f.
Proof.
  intros Hn Ha g Hg. destruct f as [qw qp qa qb tw tp ta tb wt pt at_ bt rd x]. unfold no_tmp in Hn. cbn in Hn, Ha. destruct Hn as (-> & -> & -> & ->).
  assert (Hna : is_none qa = false) by (destruct qa; auto; congruence).
  destruct Hg as [->| ->].
  - unfold ff_tmp3, ff_width, ff_align. cbn. rewrite Hna, andb_false_r. cbn. rewrite Hna. cbn. auto 10.
  - unfold ff_tmp5, ff_width, ff_align. cbn. rewrite Hna, andb_false_r. cbn. destruct (is_none a); cbn; auto 10.
Qed.
Lemma g_tmp_use debug f spec u r : g_tmp u = true -> no_tmp f -> q_align f <> NoAlign -> guse1 debug (f, spec) u = Ok r ->
  snd r = [] /\ same_ff (fst (fst r)) f.
Proof.
  intros Hu Hn Ha H.
  destruct u as [| | | | | |v p w|v p w a b]; try discriminate; cbn [guse1] in H;
  match type of H with (bind ?q _) = _ => destruct q as [y| |] eqn:E; cbn [bind] in H; try discriminate end; injection H as <-; cbn [fst snd];
  (split; [reflexivity|]).
  - destruct (ff_tmp_perm f v p w LeftAlign true Hn Ha (ff_tmp3 f v p w) (or_introl eq_refl)) as (T1 & T2 & T3 & T4 & T5 & T6).
    destruct (ff_print_perm debug spec _ y E T1 T2) as (P1 & P2 & P3 & P4 & P5). unfold same_ff. rewrite P2, P3, P4, P5, T3, T4, T5, T6. auto 10.
  - destruct (ff_tmp_perm f v p w a b Hn Ha (ff_tmp5 f v p w a b) (or_intror eq_refl)) as (T1 & T2 & T3 & T4 & T5 & T6).
    destruct (ff_print_perm debug spec _ y E T1 T2) as (P1 & P2 & P3 & P4 & P5). unfold same_ff. rewrite P2, P3, P4, P5, T3, T4, T5, T6. auto 10.
Qed.

(** A permanent use: same effect on equal permanent settings; the specifier cells do not matter. *)
Definition nonneg_prec (u : guse) : Prop :=
  match u with GPrec p | GSet2 p _ | GSet4 p _ _ _ | GTmp3 _ p _ | GTmp5 _ p _ _ _ => 0 <= p < 2 ^ 31 | _ => True end.
Lemma wrap32_id p : 0 <= p < 2 ^ 31 -> wrap_s 32 p = p.
Proof. intros H. unfold wrap_s. change (2 ^ (32 - 1)) with 2147483648. change (2 ^ 31) with 2147483648 in H. rewrite Z.mod_small by (change (2 ^ 32) with 4294967296; lia). ifs; lia. Qed.
Lemma ff_print_spec_shape debug spec f r : spec_shape spec -> 0 <= ff_cur_prec f -> ff_print debug spec f = Ok r -> spec_shape (snd r).
Proof.
  intros Hs Hp H. destruct f as [qw qp qa qb tw tp ta tb wt pt at_ bt rd v]. unfold ff_print in H. cbn [fready] in H. destruct rd; cbn [negb] in H.
  - destruct (ff_cur_fixed _).
    + destruct (ff_spec_ok spec _ Hs Hp) as [H1 H2]. rewrite H2 in H. destruct (lay _ _ _ _); cbn [bind] in H; try discriminate. injection H as <-. exact H1.
    + cbn [bind] in H. injection H as <-. exact Hs.
  - destruct debug; [discriminate|]. injection H as <-. exact Hs.
Qed.
Lemma g_perm_use debug f g spec spec' u r : g_tmp u = false -> same_ff f g -> q_align f <> NoAlign -> 0 <= q_prec f -> spec_shape spec -> spec_shape spec' ->
  g_aligned u -> nonneg_prec u -> guse1 debug (f, spec) u = Ok r ->
  spec_shape (snd (fst r)) /\ 0 <= q_prec (fst (fst r)) /\ q_align (fst (fst r)) <> NoAlign /\
  exists r', guse1 debug (g, spec') u = Ok r' /\ snd r' = snd r /\ same_ff (fst (fst r)) (fst (fst r')) /\ spec_shape (snd (fst r')).
Proof.
  intros Hu HS Ha Hp H1 H2 HA HP H.
  destruct f as [qw qp qa qb tw tp ta tb wt pt at_ bt rd x], g as [qw' qp' qa' qb' tw' tp' ta' tb' wt' pt' at' bt' rd' x'].
  unfold same_ff, no_tmp in HS. cbn [q_width q_prec q_align q_fixed w_tmp p_tmp a_tmp b_tmp] in HS, Ha, Hp.
  destruct HS as ((-> & -> & -> & ->) & (-> & -> & -> & ->) & -> & -> & -> & ->).
  assert (Hna : is_none qa' = false) by (destruct qa'; auto; congruence).
  destruct u as [w|a|p|p w|p w a b|v|v p w|v p w a b]; try discriminate; cbn [guse1 g_aligned nonneg_prec] in *.
  - injection H as <-. unfold ff_width. cbn. rewrite Hna, andb_false_r. cbn. split; [exact H1|]. split; [exact Hp|]. split; [exact Ha|].
    eexists. split; [reflexivity|]. cbn. rewrite ?andb_false_r. unfold same_ff, no_tmp. cbn. auto 15.
  - injection H as <-. assert (Hna2 : is_none a = false) by (destruct a; auto; contradiction). unfold ff_align. cbn. rewrite Hna2. cbn. split; [exact H1|]. split; [exact Hp|].
    split; [destruct a; congruence|]. eexists. split; [reflexivity|]. cbn. unfold same_ff, no_tmp. cbn. auto 15.
  - injection H as <-. cbn. rewrite wrap32_id by exact HP. split; [exact H1|]. split; [lia|]. split; [exact Ha|]. eexists. split; [reflexivity|]. cbn. unfold same_ff, no_tmp. cbn. rewrite ?wrap32_id by exact HP. auto 15.
  - injection H as <-. unfold ff_set2, ff_width. cbn. rewrite Hna, andb_false_r. cbn. rewrite wrap32_id by exact HP. split; [exact H1|]. split; [lia|]. split; [exact Ha|].
    eexists. split; [reflexivity|]. cbn. rewrite ?andb_false_r. unfold same_ff, no_tmp. cbn. rewrite ?wrap32_id by exact HP. auto 15.
  - injection H as <-. assert (Hna2 : is_none a = false) by (destruct a; auto; contradiction). unfold ff_set4, ff_width, ff_align. cbn. rewrite Hna, andb_false_r, Hna2. cbn. rewrite wrap32_id by exact HP.
    split; [exact H1|]. split; [lia|]. split; [destruct a; congruence|]. eexists. split; [reflexivity|]. cbn. rewrite ?andb_false_r. unfold same_ff, no_tmp. cbn. rewrite ?wrap32_id by exact HP. auto 15.
  - set (f1 := ff_val (mkFF qw' qp' qa' qb' tw tp ta tb false false false false rd x) v) in *.
    set (g1 := ff_val (mkFF qw' qp' qa' qb' tw' tp' ta' tb' false false false false rd' x') v).
    destruct (ff_print debug spec f1) as [y| |] eqn:E; cbn [bind] in H; try discriminate. injection H as <-. cbn [fst snd].
    pose proof (ff_print_spec_shape debug spec f1 y H1 Hp E) as HSP. split; [exact HSP|].
    unfold ff_print in *. cbn [f1 g1 ff_val ff_value fready negb ff_cur_fixed ff_cur_prec ff_cur_align ff_cur_width b_tmp p_tmp a_tmp w_tmp q_fixed q_prec q_align q_width fvalue] in *.
    destruct (ff_spec_ok spec qp' H1 Hp) as [G1 G2]. destruct (ff_spec_ok spec' qp' H2 Hp) as [G3 G4].
    destruct qb'.
    + rewrite G2 in E. rewrite G4. cbv beta iota zeta in *. destruct (lay _ _ _ _) as [o| |]; cbn [bind fst snd] in *; try discriminate. injection E as <-. cbn.
      split; [exact Hp|]. split; [exact Ha|]. eexists. split; [reflexivity|]. cbn. unfold same_ff, no_tmp. cbn. auto 15.
    + cbn [bind fst snd] in *. injection E as <-. cbn. split; [exact Hp|]. split; [exact Ha|]. eexists. split; [reflexivity|]. cbn. unfold same_ff, no_tmp. cbn. auto 15.
Qed.

Lemma ff_tmp_prec f v p w a b : no_tmp f -> q_align f <> NoAlign -> forall g, g = ff_tmp3 f v p w \/ g = ff_tmp5 f v p w a b -> ff_cur_prec g = wrap_s 32 p.
Proof.
  intros Hn Ha g Hg. destruct f as [qw qp qa qb tw tp ta tb wt pt at_ bt rd x]. unfold no_tmp in Hn. cbn in Hn, Ha. destruct Hn as (-> & -> & -> & ->).
  assert (Hna : is_none qa = false) by (destruct qa; auto; congruence).
  destruct Hg as [->| ->].
  - unfold ff_cur_prec, ff_tmp3, ff_width, ff_align. cbn -[wrap_s]. rewrite Hna, andb_false_r. cbn -[wrap_s]. rewrite Hna. reflexivity.
  - unfold ff_cur_prec, ff_tmp5, ff_width, ff_align. cbn -[wrap_s]. rewrite Hna, andb_false_r. cbn -[wrap_s]. destruct (is_none a); reflexivity.
Qed.
Lemma guses_erase debug : forall l f g spec spec' r, same_ff f g -> q_align f <> NoAlign -> 0 <= q_prec f -> spec_shape spec -> spec_shape spec' ->
  Forall g_aligned l -> Forall nonneg_prec l -> guses debug (f, spec) l = Ok r ->
  exists r', guses debug (g, spec') (filter (fun u => negb (g_tmp u)) l) = Ok r' /\ snd r' = snd r /\ same_ff (fst (fst r)) (fst (fst r')).
Proof.
  induction l as [|u l IH]; intros f g spec spec' r HS Ha Hp H1 H2 HA HP H; cbn [guses filter] in *.
  - injection H as <-. eexists. split; [reflexivity|]. auto.
  - inversion HA as [|? ? A1 A2]; subst. inversion HP as [|? ? P1 P2]; subst.
    destruct (guse1 debug (f, spec) u) as [r1| |] eqn:E1; cbn [bind] in H; try discriminate.
    destruct (guses debug (fst r1) l) as [r2| |] eqn:E2; cbn [bind] in H; try discriminate. injection H as <-. cbn [fst snd].
    destruct r1 as [[f1 s1] o1]. cbn [fst snd] in *.
    destruct (g_tmp u) eqn:EU; cbn [negb].
    + destruct (g_tmp_use debug f spec u _ EU (proj1 HS) Ha E1) as (K0 & K1). cbn [fst snd] in *. subst o1. cbn [app].
      assert (HSS : spec_shape s1).
      { destruct u as [| | | | | |v p w|v p w a b]; try discriminate; cbn [guse1 nonneg_prec] in *;
        match type of E1 with (bind ?q _) = _ => destruct q as [y| |] eqn:E; cbn [bind] in E1; try discriminate end; injection E1 as <- <-;
        refine (ff_print_spec_shape debug spec _ y H1 _ E).
        - rewrite (ff_tmp_prec f v p w LeftAlign true (proj1 HS) Ha _ (or_introl eq_refl)), wrap32_id by exact P1. lia.
        - rewrite (ff_tmp_prec f v p w a b (proj1 HS) Ha _ (or_intror eq_refl)), wrap32_id by exact P1. lia. }
      destruct K1 as (S1 & S2 & S3 & S4 & S5 & S6). destruct HS as (T1 & T2 & T3 & T4 & T5 & T6).
      apply (IH f1 g s1 spec' r2); auto; try congruence; try lia.
      unfold same_ff. repeat (split; [first [assumption|congruence]|]). congruence.
    + destruct (g_perm_use debug f g spec spec' u _ EU HS Ha Hp H1 H2 A1 P1 E1) as (K1 & K2 & K3 & q & Q1 & Q2 & Q3 & Q4). cbn [fst snd] in *.
      cbn [guses]. rewrite Q1. cbn [bind]. destruct q as [[g1 s2] o2]. cbn [fst snd] in *.
      destruct (IH f1 g1 s1 s2 r2 Q3 K3 K2 K1 Q4 A2 P2 E2) as (r' & J1 & J2 & J3). rewrite J1. cbn [bind]. eexists. split; [reflexivity|]. cbn [fst snd]. rewrite Q2, J2. auto.
Qed.
