(** Theorems about ecl_converters (C09-C13, C69-C71). *)
From Verif Require Import Base Numerals ConvModel ConvProofs.

(** C09 (partial): every value of every integral type of up to four bytes survives the round trip. *)
Theorem C09_round_trip_partial : forall debug bytes signed arr v,
  0 < bytes <= 4 -> Zlen arr = bytes -> in_type (8 * bytes) signed v ->
  exists l, to_bytes debug bytes arr v = Ok (l, None) /\ from_bytes debug bytes signed l = Ok (v, None).
Proof. exact round_trip. Qed.
Print Assumptions C09_round_trip_partial.

(** C09: byte k is the k-th little-endian byte, for every width including eight bytes. *)
Theorem C09_bytes_little_endian_partial : forall debug bytes arr v, 0 <= bytes -> Zlen arr = bytes ->
  exists l, to_bytes debug bytes arr v = Ok (l, None) /\ Zlen l = bytes /\
    (forall k, 0 <= k < bytes -> zget l k = Some (v / 2 ^ (8 * k) mod 256)) /\
    le_val l = v mod 2 ^ (8 * bytes).
Proof. exact to_bytes_bits. Qed.
Print Assumptions C09_bytes_little_endian_partial.

(** C09: an array of the wrong size is refused, and left alone. *)
Theorem C09_wrong_size_refused_partial : forall debug bytes arr v, Zlen arr <> bytes ->
  to_bytes debug bytes arr v = if debug then Throw ConversionError else Ok (arr, Some ConversionError).
Proof. intros debug bytes arr v H. unfold to_bytes. replace (Zlen arr =? bytes) with false by lia. destruct debug; reflexivity. Qed.
Print Assumptions C09_wrong_size_refused_partial.

(** C09: for the eight-byte types reading back is undefined for every value (int shifted by 32 or more). *)
Theorem C09_eight_bytes_refuted : forall debug signed arr v, Zlen arr = 8 ->
  exists l, to_bytes debug 8 arr v = Ok (l, None) /\ from_bytes debug 8 signed l = UB.
Proof.
  intros debug signed arr v Hl. destruct (to_bytes_bits debug 8 arr v ltac:(lia) Hl) as (l & H1 & H2 & _).
  exists l. split; [exact H1|]. unfold from_bytes. rewrite H2. cbn [Z.gtb Z.compare Pos.compare Pos.compare_cont andb].
  rewrite from_loop_long by lia. reflexivity.
Qed.
Print Assumptions C09_eight_bytes_refuted.

(** C09: even four bytes read into an eight-byte type are sign-extended from the top byte. *)
Theorem C09_short_array_sign_extended_refuted : exists l, Zlen l = 4 /\ Forall (fun b => 0 <= b < 256) l /\
  exists v, from_bytes true 8 false l = Ok (v, None) /\ v <> le_val l.
Proof.
  exists [0; 0; 0; 128]. split; [reflexivity|]. split; [repeat constructor; lia|].
  eexists. split; [vm_compute; reflexivity|]. vm_compute. discriminate.
Qed.
Print Assumptions C09_short_array_sign_extended_refuted.

Example C09_case : in_type (8 * 4) true (-559038737) /\
  to_bytes true 4 [0;0;0;0] (-559038737) = Ok ([239; 190; 173; 222], None) /\
  from_bytes true 4 true [239; 190; 173; 222] = Ok (-559038737, None).
Proof. split; [unfold in_type; lia|]. split; reflexivity. Qed.

(** C10 (partial): conversion to a C string is right for every buffer and every value of every type, except
    negative chars and the minimum of int, long and long long. *)
Theorem C10_cstring_canonical_partial : forall t n lo hi mem, conv_good t n -> 0 <= lo <= hi -> hi < Zlen mem ->
  conv_spec n lo hi mem (conv_cstr t n lo hi mem).
Proof. exact conv_cstr_ok. Qed.
Print Assumptions C10_cstring_canonical_partial.

(** The numbers of the types, for an ABI with 16-bit shorts, 32-bit ints and 64-bit longs; which of them the converters take. *)
Theorem C10_ranges : forall t n, conv_good t n <->
  match t with
  | TChar => 0 <= n <= 127
  | TUChar => 0 <= n <= 255
  | TShort => -32768 <= n <= 32767
  | TUShort => 0 <= n <= 65535
  | TInt => -2147483647 <= n <= 2147483647
  | TUInt => 0 <= n <= 4294967295
  | TLong | TLLong => -9223372036854775807 <= n <= 9223372036854775807
  | TULong | TULLong => 0 <= n <= 18446744073709551615
  end.
Proof. intros t n. unfold conv_good, in_ity. destruct t; cbn; intuition (try discriminate; lia). Qed.
Print Assumptions C10_ranges.
Example C10_ranges_case : conv_good TShort (-32768) /\ ~ conv_good TShort 32768 /\ ~ conv_good TChar (-5).
Proof. rewrite !C10_ranges. lia. Qed.

(** C10: the std::string converter, for every int above the minimum. *)
Theorem C10_string_canonical_partial : forall buf n, Zlen buf = 12 -> int_min < n <= int_max ->
  exists s, int_to_string buf n = Ok s /\ numeral n s.
Proof. exact int_to_string_ok. Qed.
Print Assumptions C10_string_canonical_partial.

(** C10: the minimum of int, long and long long negates out of range. *)
Theorem C10_minimum_undefined_refuted : forall t, In t [TInt; TLong; TLLong] -> forall lo hi mem,
  in_ity t (- 2 ^ (ibits t - 1)) /\ conv_cstr t (- 2 ^ (ibits t - 1)) lo hi mem = UB.
Proof. intros t [<-|[<-|[<-|[]]]] lo hi mem; (split; [unfold in_ity; cbn; lia|reflexivity]). Qed.
Print Assumptions C10_minimum_undefined_refuted.
Theorem C10_string_minimum_undefined_refuted : forall buf, Zlen buf = 12 -> int_to_string buf int_min = UB.
Proof. intros buf H. unfold int_to_string. rewrite store_ok by lia. reflexivity. Qed.
Print Assumptions C10_string_minimum_undefined_refuted.
(** C10: a negative char is converted with the unsigned routine: -5 becomes "+". *)
Theorem C10_negative_char_refuted : exists n mem, in_ity TChar n /\ Zlen mem = 6 /\
  exists p mem', conv_cstr TChar n 0 5 mem = Ok (Some p, mem') /\ zget mem' p = Some 43 /\ p = 4 /\
  forall s, numeral n s -> ~ at_mem mem' p s.
Proof.
  exists (-5), (repeat 1 6). split; [unfold in_ity; cbn; lia|]. split; [reflexivity|].
  eexists _, _. split; [reflexivity|]. split; [reflexivity|]. split; [reflexivity|].
  intros s Hs HA. assert (s = [45; 53]) as -> by (apply (numeral_unique (-5)); [exact Hs|apply (num_str_numeral (-5))]).
  specialize (HA 0 ltac:(change (Zlen [45; 53]) with 2; lia)). vm_compute in HA. discriminate.
Qed.
Print Assumptions C10_negative_char_refuted.

Definition fst_of {A B} (r : res (A * B)) : option A := match r with Ok (a, _) => Some a | _ => None end.
Example C10_case : conv_good TInt (-2147483647) /\
  conv_cstr TInt (-2047) 1 6 (repeat 1 8) = Ok (Some 1, [1; 45; 50; 48; 52; 55; 0; 1]) /\
  fst_of (conv_cstr TInt (-2047) 1 5 (repeat 1 8)) = Some None.
Proof. split; [unfold conv_good, in_ity; cbn; intuition (try discriminate; lia)|]. split; reflexivity. Qed.

(** C10: a converter that owns its buffer, of any positive size, starts with the empty text and keeps to it. *)
Theorem C10_own_buffer_partial : forall size, 0 < size -> exists lo hi mem, csb_new size = Ok (lo, hi, mem) /\
  Zlen mem = size /\ zget mem hi = Some 0 /\ hi - lo = size - 1 /\
  forall t n, conv_good t n -> conv_spec n lo hi mem (conv_cstr t n lo hi mem).
Proof.
  intros size H. unfold csb_new. assert (HL : Zlen (repeat (-1) (Z.to_nat size)) = size) by (unfold Zlen; rewrite repeat_length; lia).
  rewrite store_ok by lia. cbn [bind]. do 3 eexists. split; [reflexivity|].
  assert (HM : Zlen (zset (repeat (-1) (Z.to_nat size)) (size - 1) 0) = size) by (rewrite Zlen_zset; exact HL).
  split; [exact HM|]. split; [apply zget_zset_eq; lia|]. split; [lia|].
  intros t n Hg. apply conv_cstr_ok; [exact Hg|lia|lia].
Qed.
Print Assumptions C10_own_buffer_partial.
Example C10_case2 : csb_new 4 = Ok (0, 3, [-1; -1; -1; 0]).
Proof. reflexivity. Qed.

(** C11 (partial): texts made of 0xHH tokens and spaces yield exactly the listed bytes (as chars) ... *)
Theorem C11_hex_accepts_partial : forall debug byte0 s l, hex_text s l ->
  hex_parse debug byte0 s = Ok (map (wrap_s 8) l, None).
Proof. intros debug byte0 s l H. exact (hex_text_ok debug s l H byte0 []). Qed.
Print Assumptions C11_hex_accepts_partial.
(** ... everything else is a conversion error without bytes, unless it only lacks the end of its last token. *)
Theorem C11_hex_rejects_partial : forall debug byte0 s,
  (forall l, ~ hex_text s l) -> (forall l, ~ hex_cut s l) ->
  hex_parse debug byte0 s = if debug then Throw ConversionError else Ok ([], Some ConversionError).
Proof.
  intros debug byte0 s H1 H2. destruct (hex_outcomes debug s WZero byte0 []) as [[r Hr]|H]; [|exact H].
  destruct (hex_inv debug s byte0 [] r Hr) as (l & _ & [Hl|Hl]); [destruct (H1 l Hl)|destruct (H2 l Hl)].
Qed.
Print Assumptions C11_hex_rejects_partial.
(** An unfinished last token is silently dropped. *)
Theorem C11_unfinished_token_refuted : exists s, (forall l, ~ hex_text s l) /\
  forall debug byte0, hex_parse debug byte0 s = Ok ([18], None).
Proof.
  exists [48; 120; 49; 50; 32; 48; 120; 51]. split; [|intros; destruct debug; reflexivity].
  intros l H. inversion H; subst. match goal with H : hex_text _ _ |- _ => inversion H; subst; clear H end.
  match goal with H : hex_text _ _ |- _ => inversion H; subst; clear H end.
Qed.
Print Assumptions C11_unfinished_token_refuted.

Example C11_case : hex_text [48;120;102;70;32;32;48;120;48;97] [255; 10].
Proof. repeat (apply HexSpace || apply (HexTok 102 70 15 15) || apply (HexTok 48 97 0 10) || apply HexNil || reflexivity). Qed.

(** C12: digit characters. *)
Theorem C12_digit_round_trip : forall debug n, 0 <= n <= 9 ->
  exists c, int_to_char debug n = Ok (c, None) /\ uint_to_char debug n = Ok (c, None) /\ 48 <= c <= 57 /\
            char_to_int debug c = Ok (n, None).
Proof.
  intros debug n H. exists (48 + n). unfold int_to_char, uint_to_char, char_to_int.
  replace ((n <? 0) || (n >? 9)) with false by lia. replace (n >? 9) with false by lia.
  replace ((48 + n <? 48) || (48 + n >? 57)) with false by lia. cbn [andb].
  rewrite Z.rem_small, Z.mod_small, wrap8_digit by lia. repeat split; try lia; repeat f_equal; lia.
Qed.
Print Assumptions C12_digit_round_trip.
Theorem C12_other_values_rejected : forall n,
  (n < 0 \/ 9 < n -> int_to_char true n = Throw OutOfRangeError /\
                     exists c, int_to_char false n = Ok (c, Some OutOfRangeError)) /\
  (9 < n -> uint_to_char true n = Throw ConversionError /\ exists c, uint_to_char false n = Ok (c, Some ConversionError)) /\
  (n < 48 \/ 57 < n -> char_to_int true n = Throw ConversionError /\
                       exists c, char_to_int false n = Ok (c, Some ConversionError)).
Proof.
  intros n. unfold int_to_char, uint_to_char, char_to_int. split; [|split]; intros H.
  - replace ((n <? 0) || (n >? 9)) with true by lia. split; [reflexivity|]. eexists. reflexivity.
  - replace (n >? 9) with true by lia. split; [reflexivity|]. eexists. reflexivity.
  - replace ((n <? 48) || (n >? 57)) with true by lia. split; [reflexivity|]. eexists. reflexivity.
Qed.
Print Assumptions C12_other_values_rejected.
Example C12_case : int_to_char true 7 = Ok (55, None) /\ int_to_char true 70 = Throw OutOfRangeError.
Proof. split; reflexivity. Qed.

(** C13: after every history of precisions, the format is exactly the one requested last, in six cells. *)
Theorem C13_format_valid : forall ps p, 
  let fs := fold_left fmt_set (ps ++ [p]) fmt_new in Zlen fs = 6 /\ cstr fs = Some (fmt_spec p).
Proof.
  intros ps p. cbn zeta. rewrite fold_left_app. cbn [fold_left].
  destruct (fmt_history_ok ps fmt_new eq_refl eq_refl eq_refl) as (A & B & C).
  destruct (fmt_set_shape _ p A B C) as (H1 & _ & _ & H2). auto.
Qed.
Print Assumptions C13_format_valid.
Example C13_case : cstr (fold_left fmt_set [-1; 300; 7; -2; 12] fmt_new) = Some [37; 46; 49; 50; 102].
Proof. reflexivity. Qed.

(** C69 (partial): what error() reports is the flag of the latest failure, if any conversion ever failed. *)
Theorem C69_error_is_latest_failure_partial : forall l, errs_after NoError l =
  match find (fun o => match o with Some _ => true | None => false end) (rev l) with Some (Some e) => e | _ => NoError end.
Proof. intros l. apply errs_after_spec. Qed.
Print Assumptions C69_error_is_latest_failure_partial.
(** C69: after a failure a later success still reports the old error. *)
Theorem C69_error_is_sticky_refuted : exists c1 c2 v1 v2 r1,
  char_to_int false c1 = Ok (v1, r1) /\ char_to_int false c2 = Ok (v2, None) /\
  errs_after NoError [r1; None] <> NoError.
Proof. exists 65, 55. do 3 eexists. split; [reflexivity|]. split; [reflexivity|]. cbn. discriminate. Qed.
Print Assumptions C69_error_is_sticky_refuted.

(** C70: reading an int from a string accepts exactly the int texts. *)
Theorem C70_string_to_int_exact : forall debug s v, string_to_int debug s = Ok (v, None) <-> int_text s v.
Proof. exact string_to_int_ok. Qed.
Print Assumptions C70_string_to_int_exact.
Theorem C70_rejects_others : forall s, (forall v, ~ int_text s v) ->
  string_to_int true s = Throw ConversionError /\ exists v, string_to_int false s = Ok (v, Some ConversionError).
Proof.
  intros s H.
  assert (HB : let '(v, ok, r) := read_int s in negb ok || negb (length r =? 0)%nat = true).
  { destruct (read_int s) as [[v ok] r] eqn:E. destruct (negb ok || negb (length r =? 0)%nat) eqn:EB; [reflexivity|exfalso].
    apply (H v). apply (string_to_int_ok true). unfold string_to_int. rewrite E, EB. reflexivity. }
  unfold string_to_int. destruct (read_int s) as [[v ok] r]. rewrite HB. split; [reflexivity|]. eexists. reflexivity.
Qed.
Print Assumptions C70_rejects_others.
(** C70: printing then reading is the identity (above the minimum int). *)
Theorem C70_print_read_identity : forall debug buf n, Zlen buf = 12 -> int_min < n <= int_max ->
  exists s, int_to_string buf n = Ok s /\ string_to_int debug s = Ok (n, None).
Proof.
  intros debug buf n Hb Hn. destruct (int_to_string_ok buf n Hb Hn) as (s & H1 & H2). exists s. split; [exact H1|].
  apply string_to_int_ok. apply numeral_int_text; [exact H2|lia].
Qed.
Print Assumptions C70_print_read_identity.
Example C70_case : string_to_int true [32; 45; 48; 55] = Ok (-7, None) /\
  string_to_int true [50;49;52;55;52;56;51;54;52;56] = Throw ConversionError.
Proof. split; reflexivity. Qed.

(** C71 (partial): a boolean converts to "true"/"false" inside any buffer of at least five or six cells. *)
Theorem C71_bool_partial : forall (b : bool) lo mem, 0 <= lo -> lo + (if b then 5 else 6) <= Zlen mem ->
  exists mem', conv_bool b lo mem = Ok (lo, mem') /\ same_outside lo (lo + (if b then 5 else 6)) mem mem' /\
    at_mem mem' lo ((if b then [116; 114; 117; 101] else [102; 97; 108; 115; 101]) ++ [0]).
Proof. exact conv_bool_ok. Qed.
Print Assumptions C71_bool_partial.
(** C71: the general converter accepts a smaller buffer and overruns it. *)
Theorem C71_bool_overruns_refuted : exists lo hi mem mem', 0 <= lo <= hi /\ hi < Zlen mem /\
  conv_bool false lo mem = Ok (lo, mem') /\ zget mem' (hi + 1) <> zget mem (hi + 1).
Proof.
  exists 0, 3, (repeat 1 6). eexists. split; [lia|]. split; [reflexivity|]. split; [reflexivity|]. vm_compute. discriminate.
Qed.
Print Assumptions C71_bool_overruns_refuted.

(** C71, exactly: a buffer of cells lo..hi is respected whatever memory holds, if and only if it has room for the word and its terminator; the cell
    behind a shorter one is overwritten. *)
Theorem C71_exactly : forall (b : bool) lo hi, 0 <= lo <= hi ->
  ((forall mem mem', lo + 6 <= Zlen mem -> hi < Zlen mem -> conv_bool b lo mem = Ok (lo, mem') -> same_outside lo (hi + 1) mem mem') <->
   lo + (if b then 5 else 6) <= hi + 1) /\
  (hi + 1 < lo + (if b then 5 else 6) -> forall mem, lo + 6 <= Zlen mem -> exists mem', conv_bool b lo mem = Ok (lo, mem') /\
     zget mem' (hi + 1) = zget ((if b then [116; 114; 117; 101] else [102; 97; 108; 115; 101]) ++ [0]) (hi + 1 - lo)).
Proof.
  intros b lo hi H.
  assert (G : forall mem, lo + 6 <= Zlen mem -> exists mem', conv_bool b lo mem = Ok (lo, mem') /\ same_outside lo (lo + (if b then 5 else 6)) mem mem' /\
    at_mem mem' lo ((if b then [116; 114; 117; 101] else [102; 97; 108; 115; 101]) ++ [0])) by (intros mem L; apply conv_bool_ok; destruct b; lia).
  assert (K : hi + 1 < lo + (if b then 5 else 6) -> forall mem, lo + 6 <= Zlen mem -> exists mem', conv_bool b lo mem = Ok (lo, mem') /\
     zget mem' (hi + 1) = zget ((if b then [116; 114; 117; 101] else [102; 97; 108; 115; 101]) ++ [0]) (hi + 1 - lo)).
  { intros S mem L. destruct (G mem L) as (mem' & E & _ & A). exists mem'. split; [exact E|]. rewrite <- A; [f_equal; lia|]. destruct b; cbn; lia. }
  split; [|exact K]. split.
  - intros R. destruct (Z_le_gt_dec (lo + (if b then 5 else 6)) (hi + 1)) as [|S]; [assumption|]. exfalso.
    set (mem := repeat 1 (Z.to_nat (lo + 6))). assert (L : Zlen mem = lo + 6) by (unfold mem, Zlen; rewrite repeat_length; lia).
    destruct (K ltac:(lia) mem ltac:(lia)) as (mem' & E & V). destruct (R mem mem' ltac:(lia) ltac:(destruct b; lia) E) as [_ O]. rewrite (O (hi + 1)) in V by lia.
    assert (M : zget mem (hi + 1) = Some 1).
    { unfold zget. destruct (Z.ltb_spec (hi + 1) 0); [lia|]. unfold mem. apply nth_error_repeat. destruct b; lia. }
    rewrite M in V. assert (C : hi + 1 - lo = 1 \/ hi + 1 - lo = 2 \/ hi + 1 - lo = 3 \/ hi + 1 - lo = 4 \/ hi + 1 - lo = 5) by (destruct b; lia).
    destruct C as [C|[C|[C|[C|C]]]]; rewrite C in V; destruct b; cbn in V; try discriminate; lia.
  - intros F mem mem' L L2 E. destruct (G mem L) as (m2 & E2 & [S1 S2] & _). rewrite E in E2. injection E2 as <-. split; [exact S1|]. intros a A. apply S2. lia.
Qed.
Print Assumptions C71_exactly.
