(** Theorems about ecl_streams (C14-C16, C72-C75, C158, C159). *)
From Coq Require Import QArith.
From Verif Require Import Base Numerals ConvModel ConvProofs StreamModel StreamProofs.
Open Scope Z_scope.

(** C14 (partial): a decimal integer text of up to 25 digits, whatever precedes and follows it, is read exactly
    when its magnitude is below [cap t] (the type's maximum with the last digit zeroed) and is otherwise an
    OutOfRangeError that leaves the target alone. *)
Theorem C14_decimal_text_partial : forall t i0 ws sg sign ds e r, blanks ws -> int_sign t sg sign ->
  forallb is_digit ds = true -> ds <> [] -> (length ds <= 25)%nat -> ends is_digit e r ->
  (sg = [] -> ds = [48] -> e = [] \/ (exists r', e = Nothing :: r') \/ (exists x r', e = Got x :: r' /\ is_ws x = true)) ->
  get_int t i0 (text (ws ++ sg ++ ds) ++ e) =
    Ok (if dval ds <? cap t then mkExt NoError (sign * dval ds) r else mkExt OutOfRangeError i0 r).
Proof. exact get_int_text. Qed.
Print Assumptions C14_decimal_text_partial.
(** C14 (partial): integers printed on a stream with blanks between them read back unchanged, in order. *)
Theorem C14_sequences_round_trip_partial : forall t conv l, Zlen conv = 30 ->
  Forall (fun n => conv_good t n /\ - cap t < n < cap t /\ (n < 0 -> isigned t = true)) l ->
  exists s, put_ints t conv l = Ok (Some s) /\
    forall d, get_ints t (length l) (text s ++ d) = Ok (map (pair NoError) l, d).
Proof. intros t conv l H. exact (seq_ok t conv H l). Qed.
Print Assumptions C14_sequences_round_trip_partial.
(** Only the last ten values of a type can be affected. *)
Theorem C14_cap_is_close_partial : forall t, 0 < cap t <= tmax t /\ tmax t - 9 <= cap t.
Proof. exact cap_le. Qed.
Print Assumptions C14_cap_is_close_partial.
(** C14: whatever the device delivers, extraction has defined behaviour and the target holds a value of its type. *)
Theorem C14_no_overflow : forall t i0 d, in_ity t i0 -> exists e, get_int t i0 d = Ok e /\ in_ity t (eval e).
Proof.
  intros t i0 d H. destruct (get_int_sane t i0 d) as (e & H1 & _ & H2). exists e. split; [exact H1|].
  unfold in_ity, tmin, tmax in *. destruct (isigned t); lia.
Qed.
Print Assumptions C14_no_overflow.
(** C14: the maximum of every type is rejected. *)
Theorem C14_maximum_rejected_refuted : forall t i0 r,
  get_int t i0 (text (num_str (tmax t)) ++ Got 32 :: r) = Ok (mkExt OutOfRangeError i0 r).
Proof.
  intros t i0 r. change (text (num_str (tmax t))) with (text ([] ++ [] ++ num_str (tmax t))).
  destruct (num_str_numeral (tmax t)) as [[_ Hc]|[F _]]; [|destruct t; vm_compute in F; discriminate].
  pose proof Hc as (H1 & H2 & H3 & H4). pose proof (tmax_bound t). pose proof (cap_le t). 
  pose proof (canonical_short _ _ Hc ltac:(lia)) as HL. unfold Zlen in HL.
  rewrite (get_int_text t i0 [] [] 1 _ (Got 32 :: r) r); auto; [|reflexivity|constructor|lia|constructor; reflexivity|].
  - rewrite H3. replace (tmax t <? cap t) with false by lia. reflexivity.
  - intros _ _. right. right. do 2 eexists. split; reflexivity.
Qed.
Print Assumptions C14_maximum_rejected_refuted.
(** C14: zero followed by anything but a blank is an error, unlike every other number. *)
Theorem C14_zero_comma_refuted : forall t i0 r,
  get_int t i0 (text [48; 44] ++ r) = Ok (mkExt ConversionError i0 r) /\
  get_int t i0 (text [49; 44] ++ r) = Ok (mkExt NoError 1 r).
Proof. intros t i0 r. split; [reflexivity|destruct t; reflexivity]. Qed.
Print Assumptions C14_zero_comma_refuted.
(** C14: a text of more than 25 digits is cut and its prefix accepted, so an out-of-range number is not reported. *)
Theorem C14_long_text_cut_refuted : exists ds, forallb is_digit ds = true /\ tmax TInt < dval ds /\
  forall i0 r, exists d, get_int TInt i0 (text (43 :: ds) ++ Got 32 :: r) = Ok (mkExt NoError 0 d).
Proof.
  exists (repeat 48 25 ++ repeat 57 11). split; [reflexivity|]. split; [vm_compute; reflexivity|]. intros. eexists. reflexivity.
Qed.
Print Assumptions C14_long_text_cut_refuted.

Example C14_case2 : get_int TShort 7 (text [32; 10; 45; 51; 50; 55; 54; 48] ++ Got 59 :: text [49]) = Ok (mkExt OutOfRangeError 7 (text [49])) /\
  get_int TShort 7 (text [32; 10; 45; 51; 50; 55; 53; 57] ++ Got 59 :: text [49]) = Ok (mkExt NoError (-32759) (text [49])).
Proof. split; reflexivity. Qed.
Example C14_case3 : put_ints TInt (repeat 7 30) [-12; 0; 345] = Ok (Some [45;49;50;32;48;32;51;52;53;32]).
Proof. vm_compute. reflexivity. Qed.

(** C15 (partial): 0x texts of values up to 0x7fff (and the target's maximum) are exact; 0xCCC0..0x7FFFF are rejected. *)
Theorem C15_hex_exact_partial : forall t i0 ws s v e r, blanks ws -> forallb is_hex s = true -> s <> [] -> (length s < 25)%nat ->
  ends is_hex e r -> hval s = Some v ->
  (v <= 0x7fff -> v <= tmax t -> get_int t i0 (text (ws ++ [48; 120] ++ s) ++ e) = Ok (mkExt NoError v r)) /\
  (0xCCC0 <= v < 0x80000 -> get_int t i0 (text (ws ++ [48; 120] ++ s) ++ e) = Ok (mkExt OutOfRangeError 0 r)).
Proof. intros. destruct (get_hex_text t i0 ws s v e r) as (A & B & _); auto. Qed.
Print Assumptions C15_hex_exact_partial.
(** C15: every value from 0x8000 to 0xCCBF is read, without error, as that value minus 65536. *)
Theorem C15_hex_wraps_refuted : forall i0 ws s v e r, blanks ws -> forallb is_hex s = true -> s <> [] -> (length s < 25)%nat ->
  ends is_hex e r -> hval s = Some v -> 0x8000 <= v < 0xCCC0 ->
  get_int TInt i0 (text (ws ++ [48; 120] ++ s) ++ e) = Ok (mkExt NoError (v - 65536) r).
Proof. intros. destruct (get_hex_text TInt i0 ws s v e r) as (_ & _ & C); auto. Qed.
Print Assumptions C15_hex_wraps_refuted.
(** C15: and some much larger values are accepted as zero; a byte target is truncated. *)
Theorem C15_hex_large_refuted : forall i0 r,
  get_int TInt i0 (text [48;120; 56;48;48;48;48;48;48;48] ++ Got 32 :: r) = Ok (mkExt NoError 0 r) /\
  get_int TUChar i0 (text [48;120; 49;48;53] ++ Got 32 :: r) = Ok (mkExt NoError 5 r).
Proof. split; reflexivity. Qed.
Print Assumptions C15_hex_large_refuted.
(** The integer of 16 bits congruent to [x]. *)
Definition s16 (x : Z) : Z := (x + 32768) mod 65536 - 32768.
(** Every proper prefix of the digits, as 16 bits, is below 3276. *)
Definition tame (s : list Z) : Prop := forall p q pv, q <> [] -> s = p ++ q -> hval p = Some pv -> s16 pv < 3276.
Definition dig (c : Z) : Z := match hexdig c with Some h => h | None => 0 end.
Lemma hdigs_map : forall s k acc e r, (length s < k)%nat -> forallb is_hex s = true -> ends is_hex e r ->
  hdigs k (text s ++ e) acc = (Some (acc ++ map dig s), r).
Proof.
  induction s as [|c s IH]; intros k acc e r Hk Hx He; cbn [length] in Hk; (destruct k as [|k]; [lia|]).
  - cbn [text map app hdigs]. rewrite app_nil_r. inversion He as [| |x r' Hxx]; subst; cbn [dread]; try reflexivity.
    unfold is_hex in Hxx. change hexdig with hex_val in Hxx. destruct (hex_val x); [discriminate|reflexivity].
  - cbn [forallb] in Hx. apply andb_true_iff in Hx as [Hc Hx]. unfold is_hex in Hc. change hexdig with hex_val in Hc.
    cbn [text map app hdigs dread]. fold (text s). unfold dig at 1. change hexdig with hex_val. destruct (hex_val c) as [h|]; [|discriminate].
    rewrite (IH k (acc ++ [h]) e r); [|lia|exact Hx|exact He]. rewrite <- app_assoc. reflexivity.
Qed.
Definition num (l : list Z) (a : Z) : Z := fold_left (fun a h => 16 * a + h) l a.
Lemma hval_num s : forallb is_hex s = true -> hval s = Some (num (map dig s) 0).
Proof.
  unfold hval, num. generalize 0. induction s as [|c s IH]; intros a Hx; [reflexivity|]. cbn [forallb] in Hx. apply andb_true_iff in Hx as [Hc Hx].
  cbn [fold_left map]. unfold is_hex in Hc. unfold dig at 2. destruct (hexdig c) as [h|]; [|discriminate]. exact (IH _ Hx).
Qed.
Lemma wrap_s16 x : wrap_s 16 x = s16 x.
Proof. unfold wrap_s, s16. change (2 ^ 16) with 65536. change (2 ^ (16 - 1)) with 32768. destruct (_ <? _) eqn:E; lia. Qed.
Lemma s16_step a h : s16 (16 * s16 a + h) = s16 (16 * a + h).
Proof.
  unfold s16. f_equal. 
  replace (16 * ((a + 32768) mod 65536 - 32768) + h + 32768) with (16 * a + h + 32768 + (- 16 * ((a + 32768) / 65536)) * 65536) by (rewrite Zmod_eq by lia; lia).
  apply Z_mod_plus_full.
Qed.
Lemma haccum_tame : forall l a, (forall p q, q <> [] -> l = p ++ q -> s16 (num p a) < 3276) -> haccum l (s16 a) = Some (s16 (num l a)).
Proof.
  induction l as [|h l IH]; intros a H; [reflexivity|]. cbn [haccum]. assert (H0 := H [] (h :: l) ltac:(discriminate) eq_refl). cbn in H0.
  replace (s16 a <? 3276) with true by lia. rewrite wrap_s16, s16_step, IH; [reflexivity|].
  intros p q Hq ->. exact (H (h :: p) q Hq eq_refl).
Qed.
Lemma haccum_wild : forall l a p q, q <> [] -> l = p ++ q -> 3276 <= s16 (num p a) -> haccum l (s16 a) = None.
Proof.
  induction l as [|h l IH]; intros a p q Hq HE H; [destruct p, q; try discriminate; congruence|]. cbn [haccum].
  destruct (s16 a <? 3276) eqn:E; [|reflexivity]. rewrite wrap_s16, s16_step. destruct p as [|h' p]; [cbn in H; lia|].
  injection HE as <- ->. apply (IH _ p q Hq eq_refl). exact H.
Qed.
Lemma from_short_spec t x : -32768 <= x <= 32767 -> (tmin t <= from_short t x <= tmax t) /\ (from_short t x - x) mod 2 ^ ibits t = 0.
Proof.
  intros H. unfold from_short, tmin, tmax.
  assert (U : forall b, 0 <= b -> (0 <= x mod 2 ^ b <= 2 ^ b - 1) /\ (x mod 2 ^ b - x) mod 2 ^ b = 0).
  { intros b Hb. assert (HP : 0 < 2 ^ b) by (apply Z.pow_pos_nonneg; lia). assert (HM := Z.mod_pos_bound x (2 ^ b) HP). split; [lia|].
    rewrite Zminus_mod, Zmod_mod, Z.sub_diag. apply Z.mod_0_l. lia. }
  destruct t; cbn [isigned ibits Z.ltb Z.compare Pos.compare Pos.compare_cont];
    first [apply U; lia | split; [lia|rewrite Z.sub_diag; reflexivity] | idtac].
  unfold wrap_s. change (2 ^ 8) with 256. change (2 ^ (8 - 1)) with 128. assert (HM := Z.mod_pos_bound x 256 ltac:(lia)).
  destruct (x mod 256 <? 128) eqn:E; (split; [lia|]).
  - rewrite Zminus_mod, Zmod_mod, Z.sub_diag. reflexivity.
  - replace (x mod 256 - 256 - x) with (x mod 256 - x + (-1) * 256) by lia. rewrite Z_mod_plus_full, Zminus_mod, Zmod_mod, Z.sub_diag. reflexivity.
Qed.
(** C15: what is read for every text of hexadecimal digits: the value of the target congruent to the low 16 bits taken as signed, provided every
    proper prefix, taken so, is below 3276, and otherwise OutOfRangeError. *)
Theorem C15_hex_all_partial : forall t i0 ws s v e r, blanks ws -> forallb is_hex s = true -> s <> [] -> (length s < 25)%nat ->
  ends is_hex e r -> hval s = Some v ->
  (tame s -> exists x, get_int t i0 (text (ws ++ [48; 120] ++ s) ++ e) = Ok (mkExt NoError x r) /\ tmin t <= x <= tmax t /\ (x - s16 v) mod 2 ^ ibits t = 0) /\
  (~ tame s -> get_int t i0 (text (ws ++ [48; 120] ++ s) ++ e) = Ok (mkExt OutOfRangeError 0 r)).
Proof.
  intros t i0 ws s v e r Hw Hx Hne Hl He Hv.
  assert (HG : get_int t i0 (text (ws ++ [48; 120] ++ s) ++ e) = Ok (hex_int t (text s ++ e))).
  { unfold get_int. rewrite text_app, <- app_assoc. cbn [text map app]. fold (text s).
    rewrite skip_ws_text by (auto). reflexivity. }
  rewrite HG. unfold hex_int. rewrite (hdigs_map s 25 [] e r Hl Hx He). cbn [app].
  assert (HV : v = num (map dig s) 0) by (rewrite hval_num in Hv by exact Hx; congruence).
  assert (HH : (tame s -> haccum (map dig s) 0 = Some (s16 v)) /\ (~ tame s -> haccum (map dig s) 0 = None)).
  { change (haccum (map dig s) 0) with (haccum (map dig s) (s16 0)). split; intros HT.
    - rewrite HV. apply haccum_tame. intros p q Hq HE. 
      assert (HS := firstn_skipn (length p) s). apply (HT (firstn (length p) s) (skipn (length p) s)).
      + intros HN. apply (f_equal (map dig)) in HN. rewrite <- skipn_map, HE in HN. rewrite skipn_app, skipn_all, Nat.sub_diag in HN. cbn in HN. congruence.
      + symmetry; exact HS.
      + rewrite hval_num.
        * f_equal. f_equal. rewrite <- firstn_map, HE, firstn_app, firstn_all, Nat.sub_diag, firstn_O, app_nil_r. reflexivity.
        * rewrite <- HS, forallb_app in Hx. apply andb_true_iff in Hx. tauto.
    - assert (D : forall l pre, (forall p q, q <> [] -> l = p ++ q -> s16 (num (map dig (pre ++ p)) 0) < 3276) \/
                   exists p q, q <> [] /\ l = p ++ q /\ 3276 <= s16 (num (map dig (pre ++ p)) 0)).
      { induction l as [|c l IH]; intros pre.
        - left. intros p q Hq HE. destruct p, q; try discriminate; congruence.
        - destruct (Z_lt_dec (s16 (num (map dig (pre ++ [])) 0)) 3276) as [H1|H1].
          + destruct (IH (pre ++ [c])) as [H2|(p & q & Hq & -> & H2)].
            * left. intros p q Hq HE. destruct p as [|c' p]; [exact H1|]. injection HE as <- ->. specialize (H2 p q Hq eq_refl). rewrite <- app_assoc in H2. exact H2.
            * right. exists (c :: p), q. split; [exact Hq|]. split; [reflexivity|]. rewrite <- app_assoc in H2. exact H2.
          + right. exists [], (c :: l). split; [discriminate|]. split; [reflexivity|lia]. }
      destruct (D s []) as [H|(p & q & Hq & HE & H)].
      + destruct HT. intros p q pv Hq HE Hp. specialize (H p q Hq HE). cbn [app] in H. rewrite hval_num in Hp; [injection Hp as <-; exact H|].
        rewrite HE, forallb_app in Hx. apply andb_true_iff in Hx. tauto.
      + apply (haccum_wild _ 0 (map dig p) (map dig q)); [destruct q; [congruence|discriminate]|rewrite HE, map_app; reflexivity|exact H]. }
  destruct HH as [HH1 HH2]. assert (HN : map dig s <> []) by (destruct s; [congruence|discriminate]).
  destruct (map dig s) as [|h l] eqn:EM; [congruence|]. split; intros HT.
  - rewrite (HH1 HT). destruct (from_short_spec t (s16 v)) as [H1 H2]; [unfold s16; assert (HB := Z.mod_pos_bound (v + 32768) 65536 ltac:(lia)); lia|].
    eexists. split; [reflexivity|]. split; [exact H1|exact H2].
  - rewrite (HH2 HT). reflexivity.
Qed.
Print Assumptions C15_hex_all_partial.
Example C15_tame_case : tame [57; 48; 48; 48] /\ ~ tame [68; 48; 48; 48].
Proof.
  split.
  - intros p q pv Hq HE Hp. destruct p as [|a [|b [|c [|d [|x p]]]]]; cbn in HE; try (injection HE as <- HE); try (injection HE as <- HE); try (injection HE as <- HE);
      try (injection HE as <- HE); subst; try discriminate; try congruence; cbn in Hp; injection Hp as <-; vm_compute; reflexivity.
  - intros H. specialize (H [68; 48; 48] [48] 3328 ltac:(discriminate) eq_refl eq_refl). vm_compute in H. discriminate.
Qed.
Example C15_case : hval [55; 70; 102; 102] = Some 0x7fff /\
  get_int TInt 1 (text [48;120;55;70;102;102;32]) = Ok (mkExt NoError 0x7fff []) /\
  get_int TInt 1 (text [48;120;57;48;48;48;32]) = Ok (mkExt NoError (-28672) []).
Proof. repeat split. Qed.

(** C16 (partial): decimal numbers with something after them are read in full (exact arithmetic). *)
Theorem C16_whole_numbers_partial : forall f0 ws sg sign li x r, blanks ws -> flt_sign sg sign -> forallb is_digit li = true ->
  li <> [] -> (length li <= 25)%nat -> is_digit x = false -> x <> 46 ->
  exists v, get_float (1 # 10) f0 (text (ws ++ sg ++ li) ++ Got x :: r) = mkExt NoError v r /\
    (v == sign * inject_Z (dval li))%Q.
Proof. exact get_float_int. Qed.
Print Assumptions C16_whole_numbers_partial.
Theorem C16_fractions_partial : forall f0 ws sg sign li ld x r, blanks ws -> flt_sign sg sign -> forallb is_digit li = true ->
  forallb is_digit ld = true -> li ++ ld <> [] ->
  (length li <= 25)%nat -> (length ld <= 25)%nat -> is_digit x = false ->
  exists v, get_float (1 # 10) f0 (text (ws ++ sg ++ li ++ [46] ++ ld) ++ Got x :: r) = mkExt NoError v r /\
    (v == sign * (inject_Z (dval li) + inject_Z (dval ld) / inject_Z (10 ^ Zlen ld)))%Q.
Proof. exact get_float_frac. Qed.
Print Assumptions C16_fractions_partial.
(** C16: at the end of the stream the last digit is always lost. *)
Theorem C16_last_digit_lost_refuted : forall tenth f0 c l, forallb is_digit (c :: l) = true -> (length (c :: l) <= 25)%nat ->
  get_float tenth f0 (text (c :: l)) =
    if (length l =? 0)%nat then mkExt ConversionError f0 [] else mkExt NoError (1 * fint (removelast (c :: l)))%Q [].
Proof. exact get_float_eof. Qed.
Print Assumptions C16_last_digit_lost_refuted.
(** C16: with the actual single precision step 0.1f, "0.1 " read into a double is off by more than 1e-9
    (all operations in this case are exact). *)
Theorem C16_single_precision_step_refuted : exists v, get_float tenth_f 0%Q (text [48; 46; 49; 32]) = mkExt NoError v [] /\
  (v > (1 # 10) + (1 # 1000000000))%Q.
Proof. eexists. split; [reflexivity|]. vm_compute. reflexivity. Qed.
Print Assumptions C16_single_precision_step_refuted.
(** C16: more than 25 integral digits are cut. *)
Theorem C16_long_cut_refuted : exists li v, forallb is_digit li = true /\ 
  get_float (1 # 10) 0%Q (text li ++ [Got 32]) = mkExt NoError v [Got 32] /\ ~ (v == inject_Z (dval li))%Q.
Proof. exists (repeat 49 26). eexists. split; [reflexivity|]. split; [reflexivity|]. vm_compute. discriminate. Qed.
Print Assumptions C16_long_cut_refuted.
Example C16_case : exists v, get_float (1 # 10) 0%Q (text [45; 49; 50; 46; 50; 53; 32]) = mkExt NoError v [] /\ (v == (- (49 # 4)))%Q.
Proof. eexists. split; [reflexivity|]. vm_compute. reflexivity. Qed.

(** C72: repeated string extraction yields exactly the blank-separated words, then a ReadError. *)
Theorem C72_words : forall s, exists l, split s l /\
  fst (get_words (length l) (text s)) = map (pair NoError) l /\
  forall s0, get_string s0 (snd (get_words (length l) (text s))) = mkExt ReadError s0 [].
Proof. intros s. destruct (split_total s) as [l H]. exists l. split; [exact H|]. apply words_ok. exact H. Qed.
Print Assumptions C72_words.
Example C72_case : split [32; 97; 98; 10; 32; 99] [[97; 98]; [99]].
Proof.
  apply (split_cons [32] [97; 98] [10; 32; 99]); try reflexivity; [discriminate|right; do 2 eexists; split; reflexivity|].
  apply (split_cons [10; 32] [99] []); try reflexivity; [discriminate|left; reflexivity|]. apply split_nil. reflexivity.
Qed.

(** C73 (partial): integer and float extraction never succeed after consuming a device read failure. *)
Theorem C73_failures_reported_partial : forall d,
  (forall t i0 e, get_int t i0 d = Ok e -> exists pre, d = pre ++ edev e /\ (In Fail pre -> eflag e <> NoError)) /\
  (forall tenth f0, exists pre, d = pre ++ edev (get_float tenth f0 d) /\ (In Fail pre -> eflag (get_float tenth f0 d) <> NoError)).
Proof.
  intros d. split.
  - intros t i0 e H. destruct (get_int_sane t i0 d) as (e' & H1 & H2 & _). replace e with e' by congruence. exact H2.
  - intros. apply get_float_suffix.
Qed.
Print Assumptions C73_failures_reported_partial.
Theorem C73_characters_partial : forall raw c0 d, exists pre, d = pre ++ edev (get_char raw c0 d) /\
  (In Fail pre -> eflag (get_char raw c0 d) <> NoError).
Proof. exact get_char_suffix. Qed.
Print Assumptions C73_characters_partial.
(** C73: string and bool extraction swallow a failure in the middle of a word. *)
Theorem C73_string_swallows_refuted : forall s0 b0 r,
  get_string s0 (text [97; 98] ++ Fail :: r) = mkExt NoError [97; 98] r /\
  get_bool b0 (text [116; 114; 117; 101] ++ Fail :: r) = mkExt NoError true r.
Proof. intros. split; reflexivity. Qed.
Print Assumptions C73_string_swallows_refuted.
Example C73_case : get_int TInt 5 (text [49; 50] ++ [Fail; Got 51]) = Ok (mkExt ReadError 5 [Got 51]).
Proof. reflexivity. Qed.

(** C74 (partial): a failed extraction leaves the target unchanged, for floats and for integers of any text without an x. *)
Theorem C74_target_unchanged_partial : forall d,
  (forall t i0 e, get_int t i0 d = Ok e -> eflag e <> NoError -> ~ In (Got 120) d -> eval e = i0) /\
  (forall tenth f0, eflag (get_float tenth f0 d) <> NoError -> eval (get_float tenth f0 d) = f0).
Proof. intros d. split; [intros; eapply get_int_keeps; eauto|intros; apply get_float_keeps; assumption]. Qed.
Print Assumptions C74_target_unchanged_partial.
(** C74: a failed hexadecimal extraction zeroes it. *)
Theorem C74_hex_zeroes_refuted : forall i0 r,
  get_int TInt i0 (text [48; 120; 70; 70; 70; 70] ++ Got 32 :: r) = Ok (mkExt OutOfRangeError 0 r).
Proof. reflexivity. Qed.
Print Assumptions C74_hex_zeroes_refuted.
Example C74_case : get_int TInt 5 (text [45; 44]) = Ok (mkExt ConversionError 5 []).
Proof. reflexivity. Qed.

(** C75 (partial): a thread that is not interrupted computes the sequential result, whatever the shared buffer holds. *)
Theorem C75_uninterrupted_partial : forall t sign i0 c d buf e, Zlen buf = 25 -> reg_int t sign c i0 d = Ok e ->
  exists b', solo t sign i0 buf (Gather c d 0) b' (Finished e).
Proof. exact solo_reg_int. Qed.
Print Assumptions C75_uninterrupted_partial.
(** C75: two threads reading "11 " and "22 " from their own streams; under this schedule the first gets 21. *)
Theorem C75_streams_interfere_refuted : exists sched a b,
  reg_int TInt 1 49 0 (text [49; 32]) = Ok (mkExt NoError 11 []) /\
  prun TInt sched (repeat 0 25) (Gather 49 (text [49; 32]) 0) (Gather 50 (text [50; 32]) 0)
    = Ok (Finished (mkExt NoError a []), Finished (mkExt NoError b [])) /\ a <> 11.
Proof.
  exists [true; true; true; false; true; true; true; false; false; false; false; false], 21, 22.
  split; [reflexivity|]. split; [reflexivity|lia].
Qed.
Print Assumptions C75_streams_interfere_refuted.

(** C158: unformatted character extraction delivers every character, formatted extraction every one that is not a blank;
    then comes a ReadError. *)
Theorem C158_characters_raw : forall s,
  get_chars true (length s) (text s) = (map (pair NoError) s, []) /\ forall c0, get_char true c0 [] = mkExt ReadError c0 [].
Proof. intros s. split; [|reflexivity]. pose proof (get_chars_raw s []) as H. rewrite app_nil_r in H. exact H. Qed.
Print Assumptions C158_characters_raw.
Theorem C158_characters_formatted : forall s, let l := filter (fun c => negb (blank c)) s in
  fst (get_chars false (length l) (text s)) = map (pair NoError) l /\
  forall c0, eflag (get_char false c0 (snd (get_chars false (length l) (text s)))) = ReadError.
Proof. exact get_chars_fmt. Qed.
Print Assumptions C158_characters_formatted.
Example C158_case : get_chars false 2 (text [32; 97; 10; 10; 98; 32]) = ([(NoError, 97); (NoError, 98)], [Got 32]) /\
  get_char false 7 [Got 32] = mkExt ReadError 32 [].
Proof. split; reflexivity. Qed.

(** C159: a word is read as a bool exactly if it is one of the six spellings; anything else is a ConversionError that
    leaves the target alone, and so is finding no word a ReadError. *)
Definition truths : list (list Z) := [[116;114;117;101]; [84;82;85;69]; [84;114;117;101]].
Definition falsehoods : list (list Z) := [[102;97;108;115;101]; [70;65;76;83;69]; [70;97;108;115;101]].
Theorem C159_booleans : forall b0 ws w e r, blanks ws -> w <> [] -> forallb (fun c => negb (blank c)) w = true -> word_end e r ->
  (In w truths -> get_bool b0 (text (ws ++ w) ++ e) = mkExt NoError true r) /\
  (In w falsehoods -> get_bool b0 (text (ws ++ w) ++ e) = mkExt NoError false r) /\
  (~ In w truths -> ~ In w falsehoods -> get_bool b0 (text (ws ++ w) ++ e) = mkExt ConversionError b0 r).
Proof.
  intros b0 ws w e r Hws Hne Hw He. unfold get_bool. rewrite (get_string_word [] ws w e r Hws Hne Hw He). cbn [eflag eval edev negb].
  change str_true with truths. change str_false with falsehoods. repeat split.
  - intros H. apply existsb_eqs in H. rewrite H. reflexivity.
  - intros H. destruct (existsb (eqs w) truths) eqn:E.
    + exfalso. apply existsb_eqs in E. cbn in E, H. intuition congruence.
    + apply existsb_eqs in H. rewrite H. reflexivity.
  - intros H1 H2. destruct (existsb (eqs w) truths) eqn:E1; [apply existsb_eqs in E1; contradiction|].
    destruct (existsb (eqs w) falsehoods) eqn:E2; [apply existsb_eqs in E2; contradiction|]. reflexivity.
Qed.
Print Assumptions C159_booleans.
Theorem C159_no_word : forall b0 ws e r, blanks ws -> e = [] /\ r = [] \/ e = Nothing :: r \/ e = Fail :: r ->
  get_bool b0 (text ws ++ e) = mkExt ReadError b0 r.
Proof.
  intros b0 ws e r Hws He. unfold get_bool, get_string. replace (skip_ws (text ws ++ e)) with (@None Z, r); [reflexivity|].
  symmetry. induction ws as [|c ws IH].
  - destruct He as [[-> ->]|[->| ->]]; reflexivity.
  - unblank. cbn in Hws. apply andb_true_iff in Hws as [Hc Hws]. cbn. rewrite Hc. apply IH. exact Hws.
Qed.
Print Assumptions C159_no_word.
Example C159_case : get_bool false (text [10; 84; 114; 117; 101] ++ [Got 10; Got 49]) = mkExt NoError true [Got 49] /\
  get_bool true (text [116; 114; 117; 101; 44; 32]) = mkExt ConversionError true [].
Proof. split; reflexivity. Qed.

(** A case meeting the hypotheses of C75. *)
Example C75_case : Zlen (repeat 7 25) = 25 /\ reg_int TShort (-1) 49 0 (text [50; 51; 32; 65]) = Ok (mkExt NoError (-123) (text [65])).
Proof. split; vm_compute; reflexivity. Qed.
