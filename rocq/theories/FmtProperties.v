(** Theorems about ecl_formatters (C21, C22, C85-C89). *)
From Coq Require Import String Ascii.
From Verif Require Import Base Numerals ConvModel ConvProofs StreamModel StreamProofs FmtModel FmtProofs.
Open Scope Z_scope.

(** C21: temporary settings: the text printed is the value's text, laid out as asked; removing the blanks gives
    the text back.  Any state a history can reach, any content of the converter's buffer. *)
Theorem C21_temporary_format : forall debug t conv f n w a b, Zlen conv = 250 -> tmp_align f <> None -> width_ok w ->
  good_value t b n ->
  exists f1 f2 out s, f_tmp4 f n w a b = Ok f1 /\ f_print debug t conv f1 = Ok (f2, out) /\
    text_spec t b n s /\ laid_out a w s out /\ trim out = s.
Proof.
  intros debug t conv f n w a b Hc Ht Hw Hg. destruct (f_tmp4_ok f n w a b Ht) as (f1 & H1 & H2 & H3 & H4 & H5 & H6 & _).
  destruct (f_print_ok debug t conv f1 a Hc H2 H5) as (s & out & f2 & G1 & G2 & G3 & _).
  - rewrite H6. apply eff_width_ok. exact Hw.
  - rewrite H3, H4. exact Hg.
  - rewrite H3, H4 in G2. rewrite H6 in G3. exists f1, f2, out, s. split; [exact H1|]. split; [exact G1|]. split; [exact G2|].
    split; [exact (laid_out_eff _ _ _ _ G3)|]. exact (laid_out_trim _ _ _ _ (text_no_blank _ _ _ _ G2) G3).
Qed.
Print Assumptions C21_temporary_format.
(** C21: permanent settings. *)
Theorem C21_permanent_format : forall debug t conv f n w a b, Zlen conv = 250 -> on_tmp f = false -> width_ok w -> good_value t b n ->
  exists f1 f2 out s, f_set f w a b = Ok f1 /\ f_print debug t conv (f_val f1 n) = Ok (f2, out) /\
    text_spec t b n s /\ laid_out a w s out /\ trim out = s.
Proof.
  intros debug t conv f n w a b Hc Ht Hw Hg. destruct (f_set_ok f w a b Ht) as (f1 & H1 & H2 & H3 & H4 & H5 & _).
  destruct (f_print_ok debug t conv (f_val f1 n) a Hc) as (s & out & f2 & G1 & G2 & G3 & _).
  - reflexivity.
  - unfold cur_align. cbn. rewrite H2, H4. reflexivity.
  - unfold cur_width. cbn. rewrite H2, H5. apply eff_width_ok. exact Hw.
  - unfold cur_base. cbn. rewrite H2, H3. exact Hg.
  - unfold cur_base in G2. cbn in G2. rewrite H2, H3 in G2. unfold cur_width in G3. cbn in G3. rewrite H2, H5 in G3.
    exists f1, f2, out, s. split; [exact H1|]. split; [exact G1|]. split; [exact G2|].
    split; [exact (laid_out_eff _ _ _ _ G3)|]. exact (laid_out_trim _ _ _ _ (text_no_blank _ _ _ _ G2) G3).
Qed.
Print Assumptions C21_permanent_format.
Definition shown (r : res (fmt * list Z)) : option (list Z) := match r with Ok (_, o) => Some o | _ => None end.
Definition once (t : fty) (n w : Z) (a : align) (b : base) : option (list Z) :=
  match f_tmp4 (fmt_new (Some NoAlign) (-1) NoAlign Dec) n w a b with Ok f => shown (f_print true t (repeat (-1) (Z.to_nat 250)) f) | _ => None end.
Example C21_case : good_value FShort Dec (-32768) /\ once FInt (-42) 6 CentreAlign Dec = Some [32; 32; 45; 52; 50; 32] /\
  once FShort (-2) 8 LeftAlign Hex = Some [48; 120; 102; 102; 102; 101; 32; 32] /\
  once FUChar 5 0 RightAlign Bin = Some [48; 98; 48; 48; 48; 48; 48; 49; 48; 49].
Proof. split; [split; [unfold in_type; cbn; lia|exact I]|]. repeat split; vm_compute; reflexivity. Qed.

(** C88: the values C21 leaves out are not formatted: negative chars and the smallest int and long in decimal. *)
Theorem C88_minimum_undefined_refuted : forall debug conv f w a, Zlen conv = 250 -> tmp_align f <> None ->
  exists f1, f_tmp4 f int_min w a Dec = Ok f1 /\ f_print debug FInt conv f1 = UB.
Proof.
  intros debug conv f w a Hc Ht. destruct (f_tmp4_ok f int_min w a Dec Ht) as (f1 & H1 & H2 & H3 & H4 & _). exists f1. split; [exact H1|].
  unfold f_print. rewrite H2, H3, H4. reflexivity.
Qed.
Print Assumptions C88_minimum_undefined_refuted.
Theorem C88_negative_char_refuted : once FChar (-5) 0 NoAlign Dec = Some [43] /\ once FSChar (-5) 0 NoAlign Dec = Some [45; 53].
Proof. split; vm_compute; reflexivity. Qed.
Print Assumptions C88_negative_char_refuted.

(** C22: erase the temporary uses from any history of an integer formatter: what is printed with the permanent
    settings is the same. *)
Theorem C22_temporary_uses_do_not_leak : forall debug t conv ta w a b l f outs,
  uses debug t conv (fmt_new ta w a b) l = Ok (f, outs) ->
  exists f', uses debug t conv (fmt_new ta w a b) (filter (fun u => negb (is_tmp u)) l) = Ok (f', outs) /\ same_perm f f'.
Proof.
  intros debug t conv ta w a b l f outs H. assert (HS : same_perm (fmt_new ta w a b) (fmt_new ta w a b)) by (unfold same_perm; cbn; auto).
  destruct (uses_erase debug t conv l _ _ _ HS H) as ([f' o] & H1 & H2 & H3).
  cbn [fst snd] in *. subst o. exists f'. auto.
Qed.
Print Assumptions C22_temporary_uses_do_not_leak.
(** C22: histories of ordinary settings and values complete. *)
Theorem C22_histories_complete : forall debug t conv g w a b l, Zlen conv = 250 -> width_ok w -> Forall (fine_use t) l ->
  exists r, uses debug t conv (fmt_new (Some g) w a b) l = Ok r.
Proof. intros debug t conv g w a b l Hc Hw HF. apply uses_total; cbn; auto. discriminate. Qed.
Print Assumptions C22_histories_complete.
Example C22_case : exists f outs, uses true FInt (repeat (-1) (Z.to_nat 250)) (fmt_new (Some NoAlign) (-1) NoAlign Dec)
    [UPrint 7; UTmp4 9 20 LeftAlign Hex; UPrint 7; UWidth 3; UTmp3 1 5 Bin; UPrint 8] = Ok (f, outs) /\ outs = [[55]; [55]; [32; 32; 56]].
Proof. do 2 eexists. split; [vm_compute; reflexivity|]. reflexivity. Qed.

(** C85 (partial): floats: the same, if the permanent alignment is never NoAlign. *)
Theorem C85_float_temporary_partial : forall debug w p a b l f outs, a <> NoAlign -> 0 <= p -> Forall g_aligned l -> Forall nonneg_prec l ->
  guses debug (ff_new w p a b, ff_spec0) l = Ok (f, outs) ->
  exists f', guses debug (ff_new w p a b, ff_spec0) (filter (fun u => negb (g_tmp u)) l) = Ok (f', outs) /\ same_ff (fst f) (fst f').
Proof.
  intros debug w p a b l f outs Ha Hp HA HP H.
  assert (HS : same_ff (ff_new w p a b) (ff_new w p a b)) by (unfold same_ff, no_tmp; cbn; auto 10).
  destruct (guses_erase debug l _ _ ff_spec0 ff_spec0 _ HS Ha Hp spec0_shape spec0_shape HA HP H) as ([f' o] & H1 & H2 & H3).
  cbn [fst snd] in *. subst o. exists f'. auto.
Qed.
Print Assumptions C85_float_temporary_partial.
(** C85: a float formatter without alignment starts right-aligning after one temporary use ... *)
Theorem C85_float_leak_refuted : exists v f outs, guses true (ff_new 4 4 NoAlign true, ff_spec0)
    [GPrint v; GTmp5 v 4 9 LeftAlign true; GPrint v] = Ok (f, outs) /\ outs = [[49]; [32; 32; 32; 49]].
Proof. exists (fun _ => [49]). do 2 eexists. split; [vm_compute; reflexivity|]. reflexivity. Qed.
Print Assumptions C85_float_leak_refuted.
(** C85: ... and a string formatter keeps every temporary setting. *)
Theorem C85_string_leak_refuted : forall debug f s w a, s_width (sfm_tmp3 f s w a) = w /\ s_align (sfm_tmp3 f s w a) = a /\
  (forall f' o, sfm_print debug (sfm_tmp3 f s w a) = Ok (f', o) -> s_width f' = w /\ s_align f' = a).
Proof.
  intros debug f s w a. split; [reflexivity|]. split; [reflexivity|]. intros f' o H. unfold sfm_print in H. cbn [sfm_tmp3 sfm_val s_ready] in H.
  destruct (lay _ _ _ _); cbn [bind] in H; try discriminate. injection H as <- <-. auto.
Qed.
Print Assumptions C85_string_leak_refuted.

(** C86: width and base without alignment: what is printed depends on the previous temporary use ... *)
Theorem C86_three_arguments_history_refuted : exists n w b outs1 outs2 f1 f2,
  let run l := match uses true FInt (repeat (-1) (Z.to_nat 250)) (fmt_new (Some NoAlign) (-1) NoAlign Dec) l with Ok (f, _) => Some f | _ => None end in
  run [UTmp4 1 3 LeftAlign Dec] = Some f1 /\ run [UTmp4 1 3 RightAlign Dec] = Some f2 /\
  (r <- f_tmp3 f1 n w b ;; f_print true FInt (repeat (-1) (Z.to_nat 250)) r) = Ok outs1 /\
  (r <- f_tmp3 f2 n w b ;; f_print true FInt (repeat (-1) (Z.to_nat 250)) r) = Ok outs2 /\ snd outs1 <> snd outs2.
Proof. exists 7, 3, Dec. do 4 eexists. split; [vm_compute; reflexivity|]. split; [vm_compute; reflexivity|]. split; [vm_compute; reflexivity|]. split; [vm_compute; reflexivity|]. vm_compute. discriminate. Qed.
Print Assumptions C86_three_arguments_history_refuted.
(** C86: ... and the first one reads an indeterminate alignment, as does the first four-argument use. *)
Theorem C86_first_use_undefined_refuted : forall w a b w' a' b' n, 0 < w' ->
  f_tmp3 (fmt_new None w a b) n w' b' = UB /\ f_tmp4 (fmt_new None w a b) n w' a' b' = UB.
Proof. intros. unfold f_tmp3, f_tmp4, f_width. replace (w' >? 0) with true by lia. split; reflexivity. Qed.
Print Assumptions C86_first_use_undefined_refuted.

(** C87 (partial): floats are printed in full when their text has at most 29 characters, with at most 20 decimals. *)
Theorem C87_float_text_partial : forall debug spec f v, spec_shape spec -> no_tmp f -> q_fixed f = true -> 0 <= q_prec f ->
  width_ok (q_width f) -> Zlen (v (Z.min (q_prec f) 20)) <= 29 ->
  exists f' out spec', ff_print debug spec (ff_val f v) = Ok (f', out, spec') /\
    laid_out (q_align f) (q_width f) (v (Z.min (q_prec f) 20)) out /\ spec_shape spec'.
Proof. exact ff_print_ok. Qed.
Print Assumptions C87_float_text_partial.
Example C87_case : exists f' spec', ff_print true ff_spec0 (ff_val (ff_new 7 2 RightAlign true) (fun p => num_str 3 ++ 46 :: repeat 48 (Z.to_nat p))) =
  Ok (f', [32; 32; 32; 51; 46; 48; 48], spec').
Proof. do 2 eexists. vm_compute. reflexivity. Qed.
(** C87: 2^90 with four decimals loses its last characters. *)
Theorem C87_float_truncated_refuted : exists v f' out spec',
  (forall p, v p = num_str (2 ^ 90) ++ 46 :: repeat 48 (Z.to_nat p)) /\
  ff_print true ff_spec0 (ff_val (ff_new (-1) 4 NoAlign true) v) = Ok (f', out, spec') /\ Zlen out = 29 /\ Zlen (v 4) = 33.
Proof. exists (fun p => num_str (2 ^ 90) ++ 46 :: repeat 48 (Z.to_nat p)). do 3 eexists. split; [reflexivity|]. split; [vm_compute; reflexivity|]. split; vm_compute; reflexivity. Qed.
Print Assumptions C87_float_truncated_refuted.

(** C89: strings are printed in full, laid out with the current settings. *)
Theorem C89_string_format : forall debug f s w a, 0 <= w <= int_max -> Zlen s <= int_max ->
  exists f' out, sfm_print debug (sfm_tmp3 f s w a) = Ok (f', out) /\ laid_out a w s out.
Proof.
  intros debug f s w a Hw Hs. unfold sfm_print. cbn [sfm_tmp3 sfm_val s_ready s_align s_width s_text sfm_align sfm_width].
  destruct (lay_ok_any a w s) as (out & H1 & H2); [pose proof (Zlen_nonneg s); unfold in_int, int_min, int_max in *; lia|].
  rewrite H1. cbn [bind]. do 2 eexists. split; [reflexivity|exact H2].
Qed.
Print Assumptions C89_string_format.
(** The permanent settings, and a width given with the text, are used in the same way. *)
Theorem C89_string_settings : forall debug f s w a, 0 <= w <= int_max -> Zlen s <= int_max ->
  (exists f' out, sfm_print debug (sfm_val (sfm_set f w a) s) = Ok (f', out) /\ laid_out a w s out) /\
  (exists f' out, sfm_print debug (sfm_tmp2 f s w) = Ok (f', out) /\ laid_out (s_align f) w s out).
Proof.
  intros debug f s w a Hw Hs. pose proof (Zlen_nonneg s).
  assert (Hi : in_int (w - Zlen s) = true) by (unfold in_int, int_min, int_max in *; lia).
  split; [destruct (lay_ok_any a w s Hi) as (out & H1 & H2)|destruct (lay_ok_any (s_align f) w s Hi) as (out & H1 & H2)];
    unfold sfm_print; cbn [sfm_tmp2 sfm_set sfm_val s_ready s_align s_width s_text sfm_align sfm_width];
    rewrite H1; cbn [bind]; do 2 eexists; (split; [reflexivity|exact H2]).
Qed.
Print Assumptions C89_string_settings.
(** C90: a string formatter asked to print before it was given text reads an indeterminate flag. *)
Theorem C90_print_before_text_refuted : forall debug w a, sfm_print debug (sf_new w a) = UB.
Proof. reflexivity. Qed.
Print Assumptions C90_print_before_text_refuted.
(** C90 (partial): number and float formatters report it in debug mode and print nothing in release mode; so does a
    string formatter printed twice. *)
Theorem C90_print_without_data_partial : forall debug t conv ta w a b p fixed s f' o,
  f_print debug t conv (fmt_new ta w a b) = (if debug then Throw UsageError else Ok (fmt_new ta w a b, [])) /\
  ff_print debug ff_spec0 (ff_new w p a fixed) = (if debug then Throw UsageError else Ok (ff_new w p a fixed, [], ff_spec0)) /\
  (sfm_print debug (sfm_val (sf_new w a) s) = Ok (f', o) -> sfm_print debug f' = if debug then Throw UsageError else Ok (f', [])).
Proof.
  intros. split; [reflexivity|]. split; [reflexivity|]. unfold sfm_print at 1. cbn [sfm_val s_ready]. destruct (lay _ _ _ _); cbn [bind]; try discriminate.
  intros H. injection H as <- <-. reflexivity.
Qed.
Print Assumptions C90_print_without_data_partial.
(** C90 (partial): likewise when the value was already printed, whatever happened before. *)
Theorem C90_print_twice_partial : forall debug t conv f f' o sp g g' sp' h h',
  (f_print debug t conv f = Ok (f', o) -> f_print debug t conv f' = if debug then Throw UsageError else Ok (f', [])) /\
  (ff_print debug sp g = Ok (g', o, sp') -> ff_print debug sp' g' = if debug then Throw UsageError else Ok (g', [], sp')) /\
  (sfm_print debug h = Ok (h', o) -> sfm_print debug h' = if debug then Throw UsageError else Ok (h', [])).
Proof.
  intros. split; [|split].
  - unfold f_print at 1. destruct (ready f) eqn:R; cbn [negb].
    + destruct (fmt_text _ _ _ _); cbn [bind]; try discriminate. destruct (lay _ _ _ _); cbn [bind]; try discriminate.
      intros H. injection H as <- <-. reflexivity.
    + destruct debug; try discriminate. intros H. injection H as <- <-. unfold f_print. rewrite R. reflexivity.
  - unfold ff_print at 1. destruct (fready g) eqn:R; cbn [negb].
    + match goal with |- context [bind ?x _] => destruct x end; cbn [bind]; try discriminate. destruct g.
      intros H. injection H as <- <- <-. reflexivity.
    + destruct debug; try discriminate. intros H. injection H as <- <- <-. unfold ff_print. rewrite R. reflexivity.
  - unfold sfm_print at 1. destruct (s_ready h) as [[]|] eqn:R; try discriminate.
    + destruct (lay _ _ _ _); cbn [bind]; try discriminate. intros H. injection H as <- <-. reflexivity.
    + destruct debug; try discriminate. intros H. injection H as <- <-. unfold sfm_print. rewrite R. reflexivity.
Qed.
Print Assumptions C90_print_twice_partial.
(** C87: with the scientific base nothing of the value is printed. *)
Theorem C87_scientific_refuted : forall debug w p a v1 v2, ff_cur_fixed (ff_new w p a false) = false /\
  match ff_print debug ff_spec0 (ff_val (ff_new w p a false) v1), ff_print debug ff_spec0 (ff_val (ff_new w p a false) v2) with
  | Ok (_, o1, _), Ok (_, o2, _) => o1 = o2 | _, _ => False end.
Proof. intros. split; reflexivity. Qed.
Print Assumptions C87_scientific_refuted.

(** C88 (partial): every other value of every type, whatever the formatter printed before. *)
Theorem C88_values_partial : forall debug t conv f n, Zlen conv = 250 -> tmp_align f <> None ->
  match t with
  | FChar => 0 <= n <= 127
  | FSChar => -128 <= n <= 127
  | FUChar => 0 <= n <= 255
  | FShort => -32768 <= n <= 32767
  | FUShort => 0 <= n <= 65535
  | FInt => -2147483647 <= n <= 2147483647
  | FUInt => 0 <= n <= 4294967295
  | FLong => -9223372036854775807 <= n <= 9223372036854775807
  | FULong => 0 <= n <= 18446744073709551615
  end ->
  exists f1 f2 out, f_tmp4 f n 0 NoAlign Dec = Ok f1 /\ f_print debug t conv f1 = Ok (f2, out) /\ numeral n out.
Proof.
  intros debug t conv f n Hc Ht Hn.
  destruct (C21_temporary_format debug t conv f n 0 NoAlign Dec Hc Ht) as (f1 & f2 & out & s & H1 & H2 & H3 & (l & r & E & -> & ->) & _).
  - unfold width_ok, int_min, int_max. lia.
  - unfold good_value, in_type. destruct t; cbn in *; lia.
  - cbn in E. rewrite app_nil_r in E. subst out. exists f1, f2, s. auto.
Qed.
Print Assumptions C88_values_partial.

(** C86 (partial): the digits and the width are as asked for; the side on which blanks are put is that of the latest temporary
    use with an alignment, and the right one if that was "none".  So nothing but the side depends on the past, and a text that
    fills the width does not depend on it at all. *)
Theorem C86_three_arguments_partial : forall debug t conv f n w b g, Zlen conv = 250 -> tmp_align f = Some g -> width_ok w ->
  good_value t b n ->
  exists f1 f2 out s, f_tmp3 f n w b = Ok f1 /\ f_print debug t conv f1 = Ok (f2, out) /\ text_spec t b n s /\
    laid_out (match g with NoAlign => RightAlign | _ => g end) w s out /\ trim out = s /\ (w <= Zlen s -> out = s) /\
    (g <> Garbage -> Zlen out = Z.max w (Zlen s)).
Proof.
  intros debug t conv f n w b g Hc Hg Hw Hv. unfold f_tmp3, f_width, f_base, point, put_width, cur_align. cbn [on_tmp tmp_align].
  rewrite Hg.
  set (a := match g with NoAlign => RightAlign | _ => g end).
  set (f1 := set_value (if w >? 0 then (if is_none g then put_align (mkFmt (prm_width f) (prm_align f) (prm_base f) w (Some g) b true (ready f) (value f)) RightAlign
     else mkFmt (prm_width f) (prm_align f) (prm_base f) w (Some g) b true (ready f) (value f)) else mkFmt (prm_width f) (prm_align f) (prm_base f) w (Some g) b true (ready f) (value f)) n).
  assert (E1 : cur_base f1 = b /\ value f1 = n /\ ready f1 = true /\ cur_width f1 = w /\ cur_align f1 = Some (if w >? 0 then a else g)).
  { unfold f1, a. destruct (w >? 0), g; cbn; auto 6. }
  destruct E1 as (E1 & E2 & E3 & E4 & E5).
  destruct (f_print_ok debug t conv f1 _ Hc E3 E5) as (s & out & f2 & G1 & G2 & G3 & _); [rewrite E4; exact Hw|rewrite E1, E2; exact Hv|].
  rewrite E4 in G3. rewrite E1, E2 in G2. exists f1, f2, out, s. split; [unfold f1; destruct (w >? 0); reflexivity|]. split; [exact G1|].
  split; [exact G2|].
  assert (LO : laid_out a w s out).
  { destruct (w >? 0) eqn:Ew; [exact G3|]. pose proof (Zlen_nonneg s). unfold a. destruct g; try exact G3.
    destruct G3 as (l & r & Eo & -> & ->). exists 0%nat, 0%nat. split; [exact Eo|]. split; [reflexivity|]. subst out. cbn. rewrite app_nil_r. lia. }
  split; [exact LO|]. split; [exact (laid_out_trim _ _ _ _ (text_no_blank _ _ _ _ G2) LO)|].
  assert (LL : forall l r, out = repeat 32 l ++ s ++ repeat 32 r -> Zlen out = Z.of_nat l + Zlen s + Z.of_nat r).
  { intros l r ->. unfold Zlen. rewrite !app_length, !repeat_length. lia. }
  destruct LO as (l & r & Eo & LO). pose proof (LL l r Eo). split.
  - intros Hl. assert (l = 0%nat /\ r = 0%nat) as [-> ->] by (destruct a; lia). rewrite Eo. cbn. apply app_nil_r.
  - intros Hn. unfold a in LO. destruct g; tauto.
Qed.
Print Assumptions C86_three_arguments_partial.

(** Printing with whatever settings are current. *)
Lemma ff_print_current debug spec f : spec_shape spec -> fready f = true -> ff_cur_fixed f = true -> 0 <= ff_cur_prec f -> width_ok (ff_cur_width f) ->
  Zlen (fvalue f (Z.min (ff_cur_prec f) 20)) <= 29 ->
  exists f' out spec', ff_print debug spec f = Ok (f', out, spec') /\ laid_out (ff_cur_align f) (ff_cur_width f) (fvalue f (Z.min (ff_cur_prec f) 20)) out /\ spec_shape spec'.
Proof.
  intros Hs Hr Hf Hp Hw Hl. unfold ff_print. rewrite Hr, Hf. cbn [negb]. destruct (ff_spec_ok spec (ff_cur_prec f) Hs Hp) as [H1 H2]. cbv zeta. rewrite H2. rewrite firstn_all2 by (unfold Zlen in Hl; lia).
  destruct (lay_ok (ff_cur_align f) (ff_cur_width f) (fvalue f (Z.min (ff_cur_prec f) 20)) Hw ltac:(lia)) as (out & H3 & H4). rewrite H3. cbn [bind fst snd].
  destruct f. do 3 eexists. split; [reflexivity|]. auto.
Qed.
(** C87: floats printed with settings given for them alone. *)
Theorem C87_temporary_partial : forall debug spec f v p w a, spec_shape spec -> no_tmp f -> 0 <= p <= int_max -> width_ok w ->
  Zlen (v (Z.min p 20)) <= 29 ->
  (exists f' out spec', ff_print debug spec (ff_tmp5 f v p w a true) = Ok (f', out, spec') /\ laid_out a w (v (Z.min p 20)) out /\ spec_shape spec') /\
  (q_fixed f = true -> q_align f <> NoAlign ->
   exists f' out spec', ff_print debug spec (ff_tmp3 f v p w) = Ok (f', out, spec') /\ laid_out (q_align f) w (v (Z.min p 20)) out /\ spec_shape spec').
Proof.
  intros debug spec f v p w a Hs Hn Hp Hw Hl. destruct f as [qw qp qa qb tw tp ta tb wt pt at_ bt r x]. unfold no_tmp in Hn. cbn [w_tmp p_tmp a_tmp b_tmp q_fixed q_align] in *.
  destruct Hn as (-> & -> & -> & ->).
  assert (WP : wrap_s 32 p = p) by (apply wrap32_id; unfold int_max in *; lia).
  split; [|intros -> NA].
  - set (g := ff_tmp5 _ _ _ _ _ _).
    assert (E : fready g = true /\ ff_cur_fixed g = true /\ ff_cur_prec g = p /\ ff_cur_width g = eff_width a w /\ ff_cur_align g = a /\ fvalue g = v).
    { subst g. unfold ff_tmp5, ff_width, ff_align, eff_width. cbn -[wrap_s]. destruct (w >? 0); destruct (is_none qa), (is_none a); cbn -[wrap_s]; rewrite ?WP; repeat split. }
    destruct E as (E1 & E2 & E3 & E4 & E5 & E6). destruct (ff_print_current debug spec g) as (f' & out & spec' & P1 & P2 & P3); rewrite ?E3, ?E4, ?E6; auto; [lia|now apply eff_width_ok|].
    rewrite E3, E4, E5, E6 in P2. exists f', out, spec'. split; [exact P1|]. split; [exact (laid_out_eff _ _ _ _ P2)|exact P3].
  - set (g := ff_tmp3 _ _ _ _). assert (N : is_none qa = false) by (destruct qa; [congruence|reflexivity..]).
    assert (E : fready g = true /\ ff_cur_fixed g = true /\ ff_cur_prec g = p /\ ff_cur_width g = w /\ ff_cur_align g = qa /\ fvalue g = v).
    { subst g. unfold ff_tmp3, ff_width, ff_align. cbn -[wrap_s]. rewrite N, andb_false_r. cbn -[wrap_s]. rewrite N, ?WP. cbn -[wrap_s]. rewrite ?WP. repeat split. }
    destruct E as (E1 & E2 & E3 & E4 & E5 & E6). destruct (ff_print_current debug spec g) as (f' & out & spec' & P1 & P2 & P3); rewrite ?E3, ?E4, ?E6; auto; [lia|].
    rewrite E3, E4, E5, E6 in P2. exists f', out, spec'. auto.
Qed.
Print Assumptions C87_temporary_partial.
(** C87: permanent settings given together, and one by one: asking for no alignment forgets the width. *)
Theorem C87_settings_partial : forall debug spec f v p w a a', spec_shape spec -> no_tmp f -> 0 <= p <= int_max -> width_ok w ->
  Zlen (v (Z.min p 20)) <= 29 ->
  (exists f' out spec', ff_print debug spec (ff_val (ff_set4 f p w a true) v) = Ok (f', out, spec') /\ laid_out a w (v (Z.min p 20)) out /\ spec_shape spec') /\
  (exists f' out spec', ff_print debug spec (ff_val (ff_align (ff_base (ff_prec (ff_width f w) p) true) a) v) = Ok (f', out, spec') /\ laid_out a w (v (Z.min p 20)) out /\ spec_shape spec') /\
  (a <> NoAlign -> exists f' out spec', ff_print debug spec (ff_val (ff_base (ff_set2 (ff_align f a) p w) true) v) = Ok (f', out, spec') /\ laid_out a w (v (Z.min p 20)) out /\ spec_shape spec') /\
  (exists f' out spec', ff_print debug spec (ff_val (ff_align (ff_align (ff_set4 f p w a true) NoAlign) a') v) = Ok (f', out, spec') /\ out = v (Z.min p 20) /\ spec_shape spec') /\
  (0 < w -> exists f' out spec', ff_print debug spec (ff_val (ff_width (ff_align (ff_set4 f p w a true) NoAlign) w) v) = Ok (f', out, spec') /\ laid_out RightAlign w (v (Z.min p 20)) out /\ spec_shape spec').
Proof.
  intros debug spec f v p w a a' Hs Hn Hp Hw Hl. destruct f as [qw qp qa qb tw tp ta tb wt pt at_ bt r x]. unfold no_tmp in Hn. cbn [w_tmp p_tmp a_tmp b_tmp q_fixed q_align] in *.
  destruct Hn as (-> & -> & -> & ->).
  assert (WP : wrap_s 32 p = p) by (apply wrap32_id; unfold int_max in *; lia).
  assert (G : forall g al wd, fready g = true /\ ff_cur_fixed g = true /\ ff_cur_prec g = p /\ ff_cur_width g = wd /\ ff_cur_align g = al /\ fvalue g = v -> width_ok wd ->
    exists f' out spec', ff_print debug spec g = Ok (f', out, spec') /\ laid_out al wd (v (Z.min p 20)) out /\ spec_shape spec').
  { intros g al wd (E1 & E2 & E3 & E4 & E5 & E6) W. destruct (ff_print_current debug spec g) as (f' & out & spec' & P1 & P2 & P3); rewrite ?E3, ?E4, ?E6; auto; [lia|].
    rewrite E3, E4, E5, E6 in P2. exists f', out, spec'. auto. }
  assert (W0 : width_ok 0) by (unfold width_ok, int_min, int_max; lia).
  repeat apply conj.
  - set (g := ff_val _ _). destruct (G g a (eff_width a w)) as (f' & out & spec' & P1 & P2 & P3); [|now apply eff_width_ok|exists f', out, spec'; split; [exact P1|]; split; [exact (laid_out_eff _ _ _ _ P2)|exact P3]].
    subst g. unfold ff_set4, ff_width, ff_align, eff_width. cbn -[wrap_s]. destruct (w >? 0); destruct (is_none qa), (is_none a); cbn -[wrap_s]; rewrite ?WP; repeat split.
  - set (g := ff_val _ _). destruct (G g a (eff_width a w)) as (f' & out & spec' & P1 & P2 & P3); [|now apply eff_width_ok|exists f', out, spec'; split; [exact P1|]; split; [exact (laid_out_eff _ _ _ _ P2)|exact P3]].
    subst g. unfold ff_width, ff_align, eff_width. cbn -[wrap_s]. destruct (w >? 0); destruct (is_none qa), (is_none a); cbn -[wrap_s]; rewrite ?WP; repeat split.
  - intros NA. apply G; [|exact Hw]. assert (N : is_none a = false) by (destruct a; [congruence|reflexivity..]). unfold ff_set2, ff_width, ff_align. cbn -[wrap_s]. rewrite N. cbn. rewrite N, andb_false_r. cbn -[wrap_s]. rewrite WP. repeat split.
  - set (g := ff_val _ _). destruct (G g a' 0) as (f' & out & spec' & P1 & P2 & P3); [|exact W0|].
    + subst g. unfold ff_set4, ff_width, ff_align. cbn -[wrap_s]. destruct (w >? 0); destruct (is_none qa), (is_none a), (is_none a'); cbn -[wrap_s]; rewrite ?WP; repeat split.
    + exists f', out, spec'. split; [exact P1|]. split; [|exact P3]. destruct P2 as (l & q & E & X). pose proof (Zlen_nonneg (v (Z.min p 20))).
      assert (L : l = 0%nat /\ q = 0%nat). { unfold Zlen in *. rewrite E, !app_length, !repeat_length in X. destruct a'; lia. }
      destruct L as [-> ->]. cbn in E. rewrite app_nil_r in E. exact E.
  - intros P0. apply G; [|exact Hw]. unfold ff_set4, ff_width, ff_align. replace (w >? 0) with true by lia. cbn -[wrap_s]. destruct (is_none qa), (is_none a); cbn -[wrap_s]; rewrite ?WP; repeat split.
Qed.
Print Assumptions C87_settings_partial.
Example C87_settings_case : exists f' spec', ff_print true ff_spec0 (ff_val (ff_set4 (ff_new (-1) 4 NoAlign false) 1 6 LeftAlign true) (fun p => num_str 3 ++ 46 :: repeat 48 (Z.to_nat p))) =
  Ok (f', [51; 46; 48; 32; 32; 32], spec').
Proof. do 2 eexists. vm_compute. reflexivity. Qed.
(** C87: what the scientific base prints, whatever the value, the precision, the width and the alignment. *)
Theorem C87_scientific_text_refuted : forall debug spec f v, ff_cur_fixed f = false ->
  exists f', ff_print debug spec (ff_val f v) =
    Ok (f', (map (fun c => Z.of_nat (nat_of_ascii c)) (list_ascii_of_string "Scientific format is not yet supported.") ++ [10])%list, spec).
Proof.
  intros debug spec f v H. destruct f as [qw qp qa qb tw tp ta tb wt pt at_ bt r x]. unfold ff_print. cbn [ff_val ff_value fready negb].
  replace (ff_cur_fixed _) with false by exact (eq_sym H). cbn [bind fst snd]. eexists. reflexivity.
Qed.
Print Assumptions C87_scientific_text_refuted.

(** Cases meeting the hypotheses of C85, C88, C89. *)
Definition some_uses : list guse := [GPrint (fun _ => [49]); GTmp5 (fun _ => [50]) 2 6 RightAlign false; GPrec 3; GPrint (fun _ => [51])].
Example C85_case : Forall g_aligned some_uses /\ Forall nonneg_prec some_uses /\
  match guses true (ff_new 4 4 LeftAlign true, ff_spec0) some_uses with Ok (_, outs) => outs | _ => [] end = [[49; 32; 32; 32]; [51; 32; 32; 32]].
Proof. split; [repeat constructor|]. split; [unfold some_uses; repeat apply Forall_cons; try (cbn; lia); constructor|]. vm_compute. reflexivity. Qed.
Example C89_case : match sfm_print true (sfm_tmp3 (sf_new 3 LeftAlign) [97; 98] 5 CentreAlign) with Ok (_, o) => o | _ => [] end = [32; 32; 97; 98; 32] /\
  match sfm_print true (sfm_tmp2 (sf_new 3 LeftAlign) [97; 98] 4) with Ok (_, o) => o | _ => [] end = [97; 98; 32; 32].
Proof. split; vm_compute; reflexivity. Qed.
Example C88_case : match f_tmp4 (fmt_new (Some LeftAlign) 3 LeftAlign Dec) (-128) 0 NoAlign Dec with Ok f =>
  match f_print true FSChar (repeat (-1) (Z.to_nat 250)) f with Ok (_, o) => o | _ => [] end | _ => [] end = [45; 49; 50; 56].
Proof. vm_compute. reflexivity. Qed.
