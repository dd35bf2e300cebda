(** Specifications and proofs for ecl_converters. *)
From Verif Require Import Base Numerals ConvModel.

(** * Byte arrays *)

(** Little-endian value of a byte array. *)
Fixpoint le_val (l : list Z) : Z := match l with [] => 0 | b :: l' => b + 256 * le_val l' end.
(** The value of a bit pattern read as a signed or unsigned integer of [bits] bits. *)
Definition as_int (bits : Z) (signed : bool) (v : Z) : Z := if signed then wrap_s bits v else v.
Definition in_type (bits : Z) (signed : bool) (v : Z) : Prop :=
  if signed then - 2 ^ (bits - 1) <= v < 2 ^ (bits - 1) else 0 <= v < 2 ^ bits.

Lemma lor_disjoint a b k : 0 <= k -> 0 <= a < 2 ^ k -> 0 <= b -> Z.lor a (b * 2 ^ k) = a + b * 2 ^ k.
Proof.
  intros Hk Ha Hb.
  assert (Z.land a (b * 2 ^ k) = 0) as HL; [|rewrite Z.add_nocarry_lxor, Z.lxor_lor by exact HL; reflexivity].
  apply Z.bits_inj'. intros n Hn. rewrite Z.land_spec, Z.bits_0.
  destruct (Z_lt_le_dec n k).
  - rewrite Z.mul_pow2_bits_low by lia. apply andb_false_r.
  - destruct (Z.eq_dec a 0) as [->|]; [rewrite Z.bits_0; reflexivity|].
    rewrite (Z.bits_above_log2 a n); [reflexivity|lia|].
    assert (Z.log2 a < k) by (apply Z.log2_lt_pow2; lia). lia.
Qed.

Lemma mod_step v k : 0 <= k ->
  v mod 2 ^ (k + 8) = v mod 2 ^ k + (v / 2 ^ k mod 256) * 2 ^ k.
Proof.
  intros Hk. rewrite Z.pow_add_r by lia. change (2 ^ 8) with 256.
  rewrite Z.rem_mul_r by (try apply Z.pow_nonzero; lia). lia.
Qed.

Lemma wrap_mod bits w z : 0 <= bits <= w -> wrap_s w z mod 2 ^ bits = z mod 2 ^ bits.
Proof.
  intros H. unfold wrap_s.
  assert (Hd : 2 ^ w = 2 ^ bits * 2 ^ (w - bits)) by (rewrite <- Z.pow_add_r by lia; f_equal; lia).
  assert (Hp : 0 < 2 ^ bits) by (apply Z.pow_pos_nonneg; lia).
  assert (Hq : 0 < 2 ^ (w - bits)) by (apply Z.pow_pos_nonneg; lia).
  assert (Hm : (z mod 2 ^ w) mod 2 ^ bits = z mod 2 ^ bits).
  { rewrite Hd. rewrite Z.rem_mul_r by lia.
    rewrite Z.add_comm, Z.mul_comm, Z.add_comm. rewrite Z_mod_plus_full. apply Z.mod_mod; lia. }
  cbn zeta. destruct (z mod 2 ^ w <? 2 ^ (w - 1)); [exact Hm|].
  rewrite <- Hm. rewrite Hd.
  replace (z mod (2 ^ bits * 2 ^ (w - bits)) - 2 ^ bits * 2 ^ (w - bits))
    with (z mod (2 ^ bits * 2 ^ (w - bits)) + (- 2 ^ (w - bits)) * 2 ^ bits) by lia.
  apply Z_mod_plus_full.
Qed.

Lemma as_int_mod bits signed v : 0 < bits -> in_type bits signed v -> as_int bits signed (v mod 2 ^ bits) = v.
Proof.
  intros Hb Hv. unfold as_int, in_type in *. destruct signed; [|apply Z.mod_small; lia].
  unfold wrap_s. rewrite Z.mod_mod by (apply Z.pow_nonzero; lia).
  assert (H2 : 2 ^ bits = 2 * 2 ^ (bits - 1)) by (rewrite <- Z.pow_succ_r by lia; f_equal; lia).
  destruct (Z_lt_le_dec v 0).
  - assert (v mod 2 ^ bits = v + 2 ^ bits) as ->.
    { symmetry. apply (Z.mod_unique _ _ (-1)); lia. }
    cbn zeta. iflia.
  - rewrite Z.mod_small by lia. cbn zeta. iflia.
Qed.

Definition byte_at (v : Z) (i : nat) : Z := Z.shiftr v (8 * Z.of_nat i) mod 256.

Lemma from_loop_ok v bytes : 0 < bytes <= 4 -> forall k i, Z.of_nat i + Z.of_nat k <= bytes ->
  from_loop (8 * bytes) (v mod 2 ^ (8 * Z.of_nat i)) (Z.of_nat i) (map (byte_at v) (seq i k)) =
  Ok (v mod 2 ^ (8 * (Z.of_nat i + Z.of_nat k))).
Proof.
  intros Hb. induction k as [|k IH]; intros i Hik.
  - cbn [seq map from_loop]. do 2 f_equal. f_equal. lia.
  - cbn [seq map from_loop]. unfold from_step. replace (8 * Z.of_nat i >=? 32) with false by lia. cbn [bind].
    assert (Hbyte : 0 <= byte_at v i < 256) by (unfold byte_at; apply Z.mod_pos_bound; lia).
    rewrite (Z.mod_small (byte_at v i) 256) by lia.
    rewrite wrap_mod by lia. rewrite Z.shiftl_mul_pow2 by lia.
    assert (Hp : 0 < 2 ^ (8 * Z.of_nat i)) by (apply Z.pow_pos_nonneg; lia).
    assert (Hlt : byte_at v i * 2 ^ (8 * Z.of_nat i) < 2 ^ (8 * bytes)).
    { apply Z.lt_le_trans with (2 ^ (8 + 8 * Z.of_nat i)); [|apply Z.pow_le_mono_r; lia].
      rewrite Z.pow_add_r by lia. change (2 ^ 8) with 256. nia. }
    rewrite (Z.mod_small (_ * _)) by nia.
    rewrite lor_disjoint; [|lia|apply Z.mod_pos_bound; lia|lia].
    assert (Hstep : v mod 2 ^ (8 * Z.of_nat i) + byte_at v i * 2 ^ (8 * Z.of_nat i) = v mod 2 ^ (8 * Z.of_nat (S i))).
    { unfold byte_at. rewrite Z.shiftr_div_pow2 by lia. rewrite <- mod_step by lia. do 2 f_equal. lia. }
    rewrite Hstep. replace (Z.of_nat i + 1) with (Z.of_nat (S i)) by lia.
    rewrite IH by lia. do 2 f_equal. f_equal. lia.
Qed.

Lemma round_trip debug bytes signed arr v : 0 < bytes <= 4 -> Zlen arr = bytes -> in_type (8 * bytes) signed v ->
  exists l, to_bytes debug bytes arr v = Ok (l, None) /\ from_bytes debug bytes signed l = Ok (v, None).
Proof.
  intros Hb Hl Hv. eexists. split.
  - unfold to_bytes. rewrite Hl, Z.eqb_refl. reflexivity.
  - unfold from_bytes. rewrite Zlen_map. unfold Zlen. rewrite seq_length.
    replace (Z.of_nat (Z.to_nat bytes) >? bytes) with false by lia. cbn [andb].
    pose proof (from_loop_ok v bytes Hb (Z.to_nat bytes) 0%nat ltac:(lia)) as H.
    cbn [Z.of_nat] in H. replace (v mod 2 ^ (8 * 0)) with 0 in H by (cbn; rewrite Z.mod_1_r; reflexivity).
    fold (byte_at v). rewrite H. cbn [bind]. replace (8 * (0 + Z.of_nat (Z.to_nat bytes))) with (8 * bytes) by lia.
    change (if signed then wrap_s (8 * bytes) (v mod 2 ^ (8 * bytes)) else v mod 2 ^ (8 * bytes))
      with (as_int (8 * bytes) signed (v mod 2 ^ (8 * bytes))).
    rewrite as_int_mod by (auto; lia). reflexivity.
Qed.

(** Byte k of the array is the k-th little-endian byte of the two's complement pattern. *)
Lemma to_bytes_bits debug bytes arr v : 0 <= bytes -> Zlen arr = bytes ->
  exists l, to_bytes debug bytes arr v = Ok (l, None) /\ Zlen l = bytes /\
    (forall k, 0 <= k < bytes -> zget l k = Some (v / 2 ^ (8 * k) mod 256)) /\
    le_val l = v mod 2 ^ (8 * bytes).
Proof.
  intros Hb Hl. eexists. split.
  - unfold to_bytes. rewrite Hl, Z.eqb_refl. reflexivity.
  - fold (byte_at v). split; [rewrite Zlen_map; unfold Zlen; rewrite seq_length; lia|]. split.
    + intros k Hk. rewrite zget_map. unfold zget. replace (k <? 0) with false by lia.
      rewrite nth_error_seq_some by lia. cbn [option_map]. unfold byte_at. rewrite Z.shiftr_div_pow2 by lia. do 4 f_equal. lia.
    + rewrite <- (Z2Nat.id bytes Hb) at 2. clear.
      assert (H : forall k i, le_val (map (byte_at v) (seq i k)) = (v / 2 ^ (8 * Z.of_nat i)) mod 2 ^ (8 * Z.of_nat k)).
      { induction k as [|k IH]; intros i; cbn [seq map le_val].
        - cbn. rewrite Z.mod_1_r. reflexivity.
        - rewrite IH. unfold byte_at. rewrite Z.shiftr_div_pow2 by lia.
          replace (2 ^ (8 * Z.of_nat (S k))) with (256 * 2 ^ (8 * Z.of_nat k)).
          2:{ change 256 with (2 ^ 8). rewrite <- Z.pow_add_r by lia. f_equal. lia. }
          rewrite Z.rem_mul_r by (try apply Z.pow_nonzero; lia). f_equal. f_equal. f_equal.
          rewrite Z.div_div by (try apply Z.pow_nonzero; try apply Z.pow_pos_nonneg; lia).
          f_equal. change 256 with (2 ^ 8). rewrite <- Z.pow_add_r by lia. f_equal. lia. }
      rewrite H. cbn [Z.of_nat]. change (2 ^ (8 * 0)) with 1. rewrite Z.div_1_r. reflexivity.
Qed.

(** Any array of 1 to 4 bytes converts to the integral type of at least... its own width exactly. *)
Lemma from_loop_long bits : forall arr acc i, 0 <= i -> i + Zlen arr > 4 -> i <= 4 ->
  from_loop bits acc i arr = UB.
Proof.
  induction arr as [|b arr IH]; intros acc i Hi H H4; [znil; lia|].
  cbn [from_loop]. unfold from_step. destruct (8 * i >=? 32) eqn:E; [reflexivity|]. cbn [bind].
  apply IH; [lia| |lia]. rewrite Zlen_cons in H. lia.
Qed.

(** * Decimal strings *)

Lemma dec_small n : 0 <= n < 10 -> dec n = [48 + n].
Proof.
  intros H. apply (canonical_unique n); [apply dec_canonical; lia|].
  unfold canonical, is_digit, dval. cbn [forallb fold_left hd].
  split; [lia|]. split; [discriminate|]. split; [lia|]. intros E. f_equal. lia.
Qed.
Lemma dec_step n : 10 <= n -> dec n = dec (n / 10) ++ [48 + n mod 10].
Proof.
  intros H. apply (canonical_unique n); [apply dec_canonical; lia|].
  destruct (dec_canonical (n / 10) ltac:(lia)) as (H1 & H2 & H3 & H4).
  split; [|split; [|split]].
  - rewrite forallb_app, H1. cbn [forallb andb]. unfold is_digit. lia.
  - intros E. apply app_eq_nil in E as [_ E]. discriminate.
  - rewrite dval_snoc, H3. lia.
  - intros E. destruct (dec (n / 10)) as [|c t] eqn:ED; [congruence|]. cbn [app hd] in *.
    specialize (H4 E). injection H4 as -> ->. unfold dval in H3. cbn in H3. lia.
Qed.
Lemma dec_len_pos n : 0 <= n -> 0 < Zlen (dec n).
Proof. intros H. destruct (dec_canonical n H) as (_ & H2 & _). unfold Zlen. destruct (dec n); [congruence|cbn [length]; lia]. Qed.

(** [at_mem mem p s]: the characters s are stored from address p on. *)
Definition at_mem (mem : list Z) (p : Z) (s : list Z) : Prop :=
  forall i, 0 <= i < Zlen s -> zget mem (p + i) = zget s i.
(** Cells outside [lo, hi) are untouched. *)
Definition same_outside (lo hi : Z) (mem mem' : list Z) : Prop :=
  Zlen mem' = Zlen mem /\ forall a, a < lo \/ hi <= a -> zget mem' a = zget mem a.

Lemma store_ok mem p c : 0 <= p < Zlen mem -> store mem p c = Ok (zset mem p c).
Proof. intros H. unfold store. replace ((0 <=? p) && (p <? Zlen mem)) with true by lia. reflexivity. Qed.

Lemma same_outside_zset lo hi mem p c : lo <= p < hi -> same_outside lo hi mem (zset mem p c).
Proof. intros H. split; [apply Zlen_zset|]. intros a Ha. apply zget_zset_neq. lia. Qed.
Lemma same_outside_trans lo hi a b c : same_outside lo hi a b -> same_outside lo hi b c -> same_outside lo hi a c.
Proof. intros [H1 H2] [H3 H4]. split; [congruence|]. intros x Hx. rewrite H4, H2; auto. Qed.
Lemma same_outside_mono lo hi lo' hi' a b : lo' <= lo -> hi <= hi' -> same_outside lo hi a b -> same_outside lo' hi' a b.
Proof. intros Hl Hh [H1 H2]. split; [exact H1|]. intros x Hx. apply H2. lia. Qed.

Lemma wrap8_digit d : 0 <= d < 10 -> wrap_s 8 (48 + d) = 48 + d.
Proof. intros H. unfold wrap_s. change (2 ^ 8) with 256. change (2 ^ (8 - 1)) with 128. rewrite Z.mod_small by lia. cbn zeta. iflia. Qed.

Lemma digit_loop_ok : forall fuel n lo p mem, 0 <= n -> n < 2 ^ Z.of_nat fuel -> (0 < fuel)%nat -> 0 <= lo -> p <= Zlen mem ->
  exists mem', digit_loop fuel n lo p mem = Ok (if Zlen (dec n) <=? p - lo then Some (p - Zlen (dec n)) else None, mem') /\
    same_outside lo p mem mem' /\ (Zlen (dec n) <= p - lo -> at_mem mem' (p - Zlen (dec n)) (dec n)).
Proof.
  induction fuel as [|f IH]; intros n lo p mem Hn Hb Hf Hlo Hp; [lia|]. cbn [digit_loop].
  rewrite Z.rem_mod_nonneg, Z.quot_div_nonneg by lia.
  pose proof (dec_len_pos n Hn) as Hlen.
  destruct (p - 1 <? lo) eqn:E.
  - exists mem. replace (Zlen (dec n) <=? p - lo) with false by lia. split; [reflexivity|]. split; [split; auto|]. intros; lia.
  - rewrite store_ok by lia. cbn [bind]. rewrite wrap8_digit by (apply Z.mod_pos_bound; lia).
    destruct (n / 10 =? 0) eqn:E0.
    + assert (H10 : n < 10) by lia. rewrite (dec_small n) in * by lia. rewrite Z.mod_small by lia.
      change (Zlen [48 + n]) with 1. exists (zset mem (p - 1) (48 + n)).
      replace (1 <=? p - lo) with true by lia. split; [reflexivity|].
      split; [apply same_outside_zset; lia|]. intros _ i Hi. assert (i = 0) as -> by (change (Zlen [48 + n]) with 1 in Hi; lia).
      rewrite Z.add_0_r. rewrite zget_zset_eq by lia. reflexivity.
    + assert (H10 : 10 <= n) by lia. destruct f as [|f]; [cbn in Hb; lia|].
      destruct (IH (n / 10) lo (p - 1) (zset mem (p - 1) (48 + n mod 10))) as (mem' & HR & HO & HA); try lia.
      { rewrite Nat2Z.inj_succ, Z.pow_succ_r in Hb by lia. lia. }
      { rewrite Zlen_zset. lia. }
      exists mem'. rewrite HR. rewrite (dec_step n H10), Zlen_app. change (Zlen [48 + n mod 10]) with 1.
      replace (Zlen (dec (n / 10)) + 1 <=? p - lo) with (Zlen (dec (n / 10)) <=? p - 1 - lo) by lia.
      replace (p - (Zlen (dec (n / 10)) + 1)) with (p - 1 - Zlen (dec (n / 10))) by lia.
      split; [reflexivity|]. split.
      * eapply same_outside_trans; [apply (same_outside_zset lo p mem (p - 1) (48 + n mod 10)); lia|].
        eapply same_outside_mono; [| |exact HO]; lia.
      * intros HL i Hi. rewrite Zlen_app in Hi. change (Zlen [48 + n mod 10]) with 1 in Hi.
        destruct (Z_lt_le_dec i (Zlen (dec (n / 10)))) as [Hlt|Hge].
        -- rewrite zget_app_l by lia. apply HA; lia.
        -- assert (i = Zlen (dec (n / 10))) as -> by lia. rewrite zget_app_r by lia. rewrite Z.sub_diag.
           replace (p - 1 - Zlen (dec (n / 10)) + Zlen (dec (n / 10))) with (p - 1) by lia.
           destruct HO as [_ HO]. rewrite HO by lia. rewrite zget_zset_eq by lia. reflexivity.
Qed.

Lemma log2_fuel n : 0 <= n -> n < 2 ^ Z.of_nat (S (Z.to_nat (Z.log2 (Z.abs n)))).
Proof.
  intros H. rewrite Z.abs_eq by lia. destruct (Z.eq_dec n 0) as [->|]; [cbn; lia|].
  pose proof (Z.log2_spec n ltac:(lia)). pose proof (Z.log2_nonneg n).
  rewrite Nat2Z.inj_succ, Z2Nat.id by lia. lia.
Qed.

(** What a decimal conversion of z into the buffer [lo, hi] must do: the numeral right-aligned before a
    terminating null at hi if it fits, NULL otherwise; nothing outside the buffer changes. *)
Definition conv_spec (z lo hi : Z) (mem : list Z) (r : res (option Z * list Z)) : Prop :=
  exists o mem', r = Ok (o, mem') /\ same_outside lo (hi + 1) mem mem' /\ zget mem' hi = Some 0 /\
   exists s, numeral z s /\
    ((Zlen s <= hi - lo /\ o = Some (hi - Zlen s) /\ at_mem mem' (hi - Zlen s) s) \/ (hi - lo < Zlen s /\ o = None)).

Lemma conv_unsigned_ok n lo hi mem : 0 <= n -> 0 <= lo <= hi + 1 -> 0 <= hi < Zlen mem ->
  exists mem', conv_unsigned n lo hi mem = Ok (if Zlen (dec n) <=? hi - lo then Some (hi - Zlen (dec n)) else None, mem') /\
   (Zlen mem' = Zlen mem /\ forall a, (a < lo \/ hi <= a) -> a <> hi -> zget mem' a = zget mem a) /\ zget mem' hi = Some 0 /\
   (Zlen (dec n) <= hi - lo -> at_mem mem' (hi - Zlen (dec n)) (dec n)).
Proof.
  intros Hn Hlo Hhi. unfold conv_unsigned. rewrite store_ok by lia. cbn [bind].
  destruct (digit_loop_ok (S (Z.to_nat (Z.log2 (Z.abs n)))) n lo hi (zset mem hi 0)) as (mem' & HR & [HL HO] & HA); try lia.
  { apply log2_fuel; lia. }
  { rewrite Zlen_zset. lia. }
  exists mem'. rewrite HR. split; [reflexivity|]. split; [split|split].
  - rewrite HL. apply Zlen_zset.
  - intros a Ha Hne. rewrite HO by lia. apply zget_zset_neq. lia.
  - rewrite HO by lia. apply zget_zset_eq. lia.
  - exact HA.
Qed.

Lemma conv_unsigned_spec n lo hi mem : 0 <= n -> 0 <= lo <= hi -> hi < Zlen mem ->
  conv_spec n lo hi mem (conv_unsigned n lo hi mem).
Proof.
  intros Hn Hlo Hhi. destruct (conv_unsigned_ok n lo hi mem) as (mem' & HR & [HL HO] & H0 & HA); try lia.
  eexists _, mem'. split; [exact HR|]. split; [split; [exact HL|intros a Ha; apply HO; lia]|]. split; [exact H0|].
  exists (dec n). split; [left; split; [lia|apply dec_canonical; lia]|].
  destruct (Zlen (dec n) <=? hi - lo) eqn:E; [left|right]; split; try lia; try reflexivity.
  split; [reflexivity|]. apply HA. lia.
Qed.

Lemma conv_signed_spec bits n lo hi mem : 0 < bits -> - 2 ^ (bits - 1) <= n < 2 ^ (bits - 1) ->
  (bits < 32 \/ n <> - 2 ^ (bits - 1)) -> 0 <= lo <= hi -> hi < Zlen mem ->
  conv_spec n lo hi mem (conv_signed bits n lo hi mem).
Proof.
  intros Hbits Hn Hmin Hlo Hhi. unfold conv_signed.
  assert (H2 : 2 ^ bits = 2 * 2 ^ (bits - 1)) by (rewrite <- Z.pow_succ_r by lia; f_equal; lia).
  assert (Hp : 0 < 2 ^ (bits - 1)) by (apply Z.pow_pos_nonneg; lia).
  destruct (n >=? 0) eqn:E.
  - rewrite Z.mod_small by lia. apply conv_unsigned_spec; lia.
  - assert (Hneg : neg_op bits n = Ok (- n)).
    { unfold neg_op. cbn zeta.
      assert (n =? - 2 ^ (Z.max 32 bits - 1) = false) as ->; [|reflexivity].
      destruct (Z_lt_le_dec bits 32).
      - rewrite Z.max_l by lia. assert (2 ^ (bits - 1) < 2 ^ (32 - 1)) by (apply Z.pow_lt_mono_r; lia). lia.
      - rewrite Z.max_r by lia. lia. }
    rewrite Hneg. cbn [bind]. rewrite Z.mod_small by lia.
    destruct (conv_unsigned_ok (- n) (lo + 1) hi mem) as (mem' & HR & [HL HO] & H0 & HA); try lia.
    rewrite HR. cbn [bind fst snd]. pose proof (dec_len_pos (- n) ltac:(lia)) as Hlen.
    assert (Hnum : numeral n (45 :: dec (- n))).
    { right. split; [lia|]. eexists. split; [reflexivity|]. apply dec_canonical; lia. }
    destruct (Zlen (dec (- n)) <=? hi - (lo + 1)) eqn:E1.
    + rewrite store_ok by lia. cbn [bind]. eexists _, _. split; [reflexivity|]. split; [|split].
      * split; [rewrite Zlen_zset; exact HL|]. intros a Ha. rewrite zget_zset_neq by lia. apply HO; lia.
      * rewrite zget_zset_neq by lia. exact H0.
      * exists (45 :: dec (- n)). split; [exact Hnum|]. left. rewrite Zlen_cons. split; [lia|].
        replace (hi - (1 + Zlen (dec (- n)))) with (hi - Zlen (dec (- n)) - 1) by lia.
        split; [reflexivity|]. intros i Hi. rewrite Zlen_cons in Hi.
        destruct (Z.eq_dec i 0) as [->|Hi0].
        -- rewrite Z.add_0_r, zget_zset_eq by lia. reflexivity.
        -- rewrite zget_zset_neq by lia. rewrite zget_cons_pos by lia.
           rewrite <- HA by lia. f_equal. lia.
    + eexists _, _. split; [reflexivity|]. split; [|split; [exact H0|]].
      * split; [exact HL|]. intros a Ha. apply HO; lia.
      * exists (45 :: dec (- n)). split; [exact Hnum|]. right. rewrite Zlen_cons. split; [lia|reflexivity].
Qed.

(** The types and values for which the routine used is the right one. *)
Definition conv_good (t : ity) (n : Z) : Prop :=
  in_ity t n /\ (t = TChar -> 0 <= n) /\
  match t with TInt | TLong | TLLong => n <> - 2 ^ (ibits t - 1) | _ => True end.

Lemma conv_cstr_ok t n lo hi mem : conv_good t n -> 0 <= lo <= hi -> hi < Zlen mem ->
  conv_spec n lo hi mem (conv_cstr t n lo hi mem).
Proof.
  intros (Ht & Hc & Hm) Hlo Hhi. unfold in_ity in Ht.
  destruct t; cbn [isigned ibits conv_cstr] in *;
    first [apply conv_unsigned_spec; lia
          | apply conv_signed_spec; first [lia | assumption | auto; fail | right; assumption | left; lia]
          | apply conv_unsigned_spec; [apply Hc; reflexivity|lia|lia]].
Qed.

(** * std::string conversion *)

Lemma str_loop_ok : forall fuel n p mem, 0 <= n -> n < 2 ^ Z.of_nat fuel -> (0 < fuel)%nat ->
  Zlen (dec n) <= p -> p <= Zlen mem ->
  exists mem', str_loop fuel n p mem = Ok (p - Zlen (dec n), mem') /\
    same_outside (p - Zlen (dec n)) p mem mem' /\ at_mem mem' (p - Zlen (dec n)) (dec n).
Proof.
  induction fuel as [|f IH]; intros n p mem Hn Hb Hf Hp Hm; [lia|]. cbn [str_loop].
  rewrite Z.rem_mod_nonneg, Z.quot_div_nonneg by lia.
  pose proof (dec_len_pos n Hn) as Hlen.
  assert (Hd : uint_to_char true (n mod 10) = Ok (48 + n mod 10, None)).
  { unfold uint_to_char. replace (n mod 10 >? 9) with false by lia. cbn [andb].
    rewrite Z.mod_mod by lia. rewrite wrap8_digit by lia. reflexivity. }
  rewrite Hd. cbn [bind fst]. rewrite store_ok by lia. cbn [bind].
  destruct (n / 10 >? 0) eqn:E0.
  - assert (H10 : 10 <= n) by lia. destruct f as [|f]; [cbn in Hb; lia|].
    rewrite (dec_step n H10), Zlen_app in *. change (Zlen [48 + n mod 10]) with 1 in *.
    destruct (IH (n / 10) (p - 1) (zset mem (p - 1) (48 + n mod 10))) as (mem' & HR & HO & HA); try lia.
    { rewrite Nat2Z.inj_succ, Z.pow_succ_r in Hb by lia. lia. }
    { rewrite Zlen_zset. lia. }
    exists mem'. rewrite HR. replace (p - (Zlen (dec (n / 10)) + 1)) with (p - 1 - Zlen (dec (n / 10))) by lia.
    split; [reflexivity|]. pose proof (Zlen_nonneg (dec (n / 10))). split.
    + eapply same_outside_trans; [apply (same_outside_zset (p - 1 - Zlen (dec (n / 10))) p mem (p - 1)); lia|].
      eapply same_outside_mono; [| |exact HO]; lia.
    + intros i Hi. rewrite Zlen_app in Hi. change (Zlen [48 + n mod 10]) with 1 in Hi.
      destruct (Z_lt_le_dec i (Zlen (dec (n / 10)))) as [Hlt|Hge].
      * rewrite zget_app_l by lia. apply HA; lia.
      * assert (i = Zlen (dec (n / 10))) as -> by lia. rewrite zget_app_r by lia. rewrite Z.sub_diag.
        replace (p - 1 - Zlen (dec (n / 10)) + Zlen (dec (n / 10))) with (p - 1) by lia.
        destruct HO as [_ HO]. rewrite HO by lia. rewrite zget_zset_eq by lia. reflexivity.
  - assert (H10 : n < 10) by lia. rewrite (dec_small n) in * by lia. rewrite Z.mod_small by lia.
    change (Zlen [48 + n]) with 1 in *. eexists. split; [reflexivity|].
    split; [apply same_outside_zset; lia|]. intros i Hi. assert (i = 0) as -> by (change (Zlen [48 + n]) with 1 in Hi; lia).
    rewrite Z.add_0_r. rewrite zget_zset_eq by lia. reflexivity.
Qed.

Lemma at_mem_firstn mem p s : 0 <= p -> p + Zlen s <= Zlen mem -> at_mem mem p s ->
  firstn (Z.to_nat (Zlen s)) (skipn (Z.to_nat p) mem) = s.
Proof.
  intros Hp Hl HA.
  assert (Hlen : length (firstn (Z.to_nat (Zlen s)) (skipn (Z.to_nat p) mem)) = length s).
  { rewrite firstn_length, skipn_length. unfold Zlen in *. lia. }
  assert (HlenZ : Zlen (firstn (Z.to_nat (Zlen s)) (skipn (Z.to_nat p) mem)) = Zlen s).
  { unfold Zlen at 1. rewrite Hlen. reflexivity. }
  apply list_ext; [exact HlenZ|]. intros i Hi. rewrite HlenZ in Hi.
  rewrite <- HA by exact Hi. unfold zget. replace (i <? 0) with false by lia. replace (p + i <? 0) with false by lia.
  rewrite <- (firstn_skipn (Z.to_nat p) mem) at 2.
  rewrite nth_error_app2; rewrite firstn_length_le by (unfold Zlen in *; lia); [|lia].
  replace (Z.to_nat (p + i) - Z.to_nat p)%nat with (Z.to_nat i) by lia.
  rewrite <- (firstn_skipn (Z.to_nat (Zlen s)) (skipn (Z.to_nat p) mem)) at 2.
  rewrite nth_error_app1; [reflexivity|]. rewrite Hlen. unfold Zlen in *. lia.
Qed.

Lemma int_to_string_ok buf n : Zlen buf = 12 -> int_min < n <= int_max ->
  exists s, int_to_string buf n = Ok s /\ numeral n s.
Proof.
  intros Hbuf Hn. unfold int_min, int_max in Hn. change (2 ^ 31) with 2147483648 in Hn.
  unfold int_to_string. rewrite store_ok by lia. cbn [bind].
  set (m := if n <? 0 then - n else n).
  assert (Hm : (if n <? 0 then int_op (- n) else Ok n) = Ok m).
  { unfold m, int_op, in_int, int_min, int_max. change (2 ^ 31) with 2147483648. destruct (n <? 0) eqn:E; [|reflexivity].
    replace ((- (2147483648) <=? - n) && (- n <=? 2147483648 - 1)) with true by lia. reflexivity. }
  rewrite Hm. cbn [bind]. assert (Hm0 : 0 <= m < 10 ^ 10) by (unfold m; change (10 ^ 10) with 10000000000; iflia).
  assert (Hlen : Zlen (dec m) <= 10) by (eapply canonical_len; [apply dec_canonical; lia|lia|lia]).
  pose proof (dec_len_pos m ltac:(lia)) as Hpos.
  destruct (str_loop_ok (S (Z.to_nat (Z.log2 m))) m 11 (zset buf 11 0)) as (mem' & HR & [HL HO] & HA); try lia.
  { rewrite <- (Z.abs_eq m) at 2 by lia. apply log2_fuel. lia. }
  { rewrite Zlen_zset. lia. }
  rewrite HR. cbn [bind fst snd]. rewrite Zlen_zset in HL.
  destruct (n <? 0) eqn:E.
  - rewrite store_ok by lia. cbn [bind fst snd].
    exists (45 :: dec m). split.
    + f_equal. replace (11 - (11 - Zlen (dec m) - 1)) with (Zlen (45 :: dec m)) by (rewrite Zlen_cons; lia).
      apply at_mem_firstn; [lia|rewrite Zlen_cons, Zlen_zset; lia|].
      intros i Hi. rewrite Zlen_cons in Hi. destruct (Z.eq_dec i 0) as [->|Hi0].
      * rewrite Z.add_0_r, zget_zset_eq by lia. reflexivity.
      * rewrite zget_zset_neq by lia. rewrite zget_cons_pos by lia. rewrite <- HA by lia. f_equal. lia.
    + right. split; [lia|]. exists (dec m). split; [reflexivity|]. unfold m. apply dec_canonical. lia.
  - cbn [bind fst snd]. exists (dec m). split.
    + f_equal. replace (11 - (11 - Zlen (dec m))) with (Zlen (dec m)) by lia.
      apply at_mem_firstn; [lia|lia|exact HA].
    + left. split; [lia|]. unfold m. apply dec_canonical. lia.
Qed.

(** * Reading integers *)

(** White space of the C locale: space, tab, line feed, vertical tab, form feed, carriage return. *)
Definition white (c : Z) : bool := (c =? 32) || ((9 <=? c) && (c <=? 13)).
(** The texts accepted as an int: white space, an optional sign, digits, in range, nothing after. *)
Definition int_text (s : list Z) (v : Z) : Prop :=
  exists ws sg ds, s = ws ++ sg ++ ds /\ forallb white ws = true /\ (sg = [] \/ sg = [43] \/ sg = [45]) /\
    ds <> [] /\ forallb is_digit ds = true /\ v = (if list_eq_dec Z.eq_dec sg [45] then - dval ds else dval ds) /\
    int_min <= v <= int_max.

Lemma skip_ws_app ws s : forallb is_ws ws = true -> (match s with [] => True | c :: _ => is_ws c = false end) ->
  skip_ws (ws ++ s) = s.
Proof.
  induction ws as [|w ws IH]; cbn [app forallb skip_ws]; intros H Hs.
  - destruct s as [|c s]; [reflexivity|]. cbn. rewrite Hs. reflexivity.
  - apply andb_true_iff in H as [Hw H]. rewrite Hw. auto.
Qed.
Lemma skip_ws_split s : exists ws, s = ws ++ skip_ws s /\ forallb is_ws ws = true.
Proof.
  induction s as [|c s IH]; [exists []; auto|]. cbn [skip_ws]. destruct (is_ws c) eqn:E.
  - destruct IH as (ws & H1 & H2). exists (c :: ws). cbn [app forallb]. rewrite E, H2. split; [congruence|reflexivity].
  - exists []. auto.
Qed.
Lemma take_digits_all d : forallb is_digit d = true -> take_digits d = (d, []).
Proof.
  induction d as [|c d IH]; [reflexivity|]. cbn [forallb take_digits]. intros H. apply andb_true_iff in H as [Hc H].
  rewrite Hc, IH by exact H. reflexivity.
Qed.
Lemma take_digits_split s : s = fst (take_digits s) ++ snd (take_digits s) /\ forallb is_digit (fst (take_digits s)) = true.
Proof.
  induction s as [|c s [IH1 IH2]]; [auto|]. cbn [take_digits]. destruct (is_digit c) eqn:E; [|auto].
  destruct (take_digits s) as [d r]. cbn [fst snd app forallb] in *. rewrite E, IH2. split; [congruence|reflexivity].
Qed.
Lemma digit_not_ws c : is_digit c = true -> is_ws c = false.
Proof. unfold is_digit, is_ws. lia. Qed.

(** The sign step of [read_int] on a text that does not start with white space. *)
Definition sign_split (s1 : list Z) : bool * list Z :=
  match s1 with 45 :: s' => (true, s') | 43 :: s' => (false, s') | _ => (false, s1) end.
Lemma sign_split_plain c s : c <> 45 -> c <> 43 -> sign_split (c :: s) = (false, c :: s).
Proof.
  intros H1 H2. unfold sign_split. destruct c as [|p|p]; try reflexivity.
  repeat (destruct p as [p|p|]; try reflexivity; try congruence).
Qed.
Lemma sign_split_cases s1 : (exists s', s1 = 45 :: s' /\ sign_split s1 = (true, s')) \/
  (exists s', s1 = 43 :: s' /\ sign_split s1 = (false, s')) \/ (sign_split s1 = (false, s1)).
Proof.
  destruct s1 as [|c s]; [right; right; reflexivity|].
  destruct (Z.eq_dec c 45) as [->|]; [left; eexists; split; reflexivity|].
  destruct (Z.eq_dec c 43) as [->|]; [right; left; eexists; split; reflexivity|].
  right; right. apply sign_split_plain; auto.
Qed.

Lemma read_int_unfold s : read_int s =
  let '(neg, s2) := sign_split (skip_ws s) in
  let '(d, r) := take_digits s2 in
  if (length d =? 0)%nat then (0, false, r)
  else
    let v := if neg : bool then - dval d else dval d in
    if v <? int_min then (int_min, false, r) else if v >? int_max then (int_max, false, r) else (v, true, r).
Proof. reflexivity. Qed.

Lemma string_to_int_ok debug s v : string_to_int debug s = Ok (v, None) <-> int_text s v.
Proof.
  unfold string_to_int. rewrite read_int_unfold. split.
  - intros H. destruct (skip_ws_split s) as (ws & Hs & Hws).
    destruct (sign_split (skip_ws s)) as [neg s2] eqn:ES.
    assert (Hsg : exists sg, skip_ws s = sg ++ s2 /\ ((neg = false /\ (sg = [] \/ sg = [43])) \/ (neg = true /\ sg = [45]))).
    { destruct (sign_split_cases (skip_ws s)) as [(s' & E1 & E2)|[(s' & E1 & E2)|E2]]; rewrite ES in E2; injection E2 as -> ->.
      - exists [45]. auto.
      - exists [43]. auto.
      - exists []. auto. }
    destruct Hsg as (sg & Hsg & Hcase). destruct (take_digits_split s2) as [Hd1 Hd2].
    destruct (take_digits s2) as [d r]. cbn [fst snd] in Hd1, Hd2.
    assert (Hr : r = [] /\ d <> [] /\ v = (if neg then - dval d else dval d) /\ int_min <= v <= int_max).
    { destruct d as [|c d]; cbn [length Nat.eqb] in H.
      - cbn [negb orb andb] in H. destruct debug; discriminate.
      - cbn zeta in H.
        destruct ((if neg then - dval (c :: d) else dval (c :: d)) <? int_min) eqn:E1;
          [cbn [negb orb andb] in H; destruct debug; discriminate|].
        destruct ((if neg then - dval (c :: d) else dval (c :: d)) >? int_max) eqn:E2;
          [cbn [negb orb andb] in H; destruct debug; discriminate|].
        destruct r as [|x r]; [|cbn in H; destruct debug; discriminate].
        cbn [length Nat.eqb negb orb andb] in H.
        assert (v = (if neg then - dval (c :: d) else dval (c :: d))) by (injection H as <-; reflexivity).
        repeat split; try discriminate; try assumption; lia. }
    destruct Hr as (-> & Hne & Hv & Hrange). rewrite app_nil_r in Hd1.
    exists ws, sg, s2. split; [rewrite <- Hsg; exact Hs|]. split; [exact Hws|].
    split; [tauto|]. subst s2. split; [exact Hne|]. split; [exact Hd2|]. split; [|exact Hrange].
    rewrite Hv. destruct Hcase as [[-> [-> | ->]]|[-> ->]]; reflexivity.
  - intros (ws & sg & ds & -> & Hws & Hsg & Hne & Hd & Hv & Hr).
    assert (Hfirst : match sg ++ ds with [] => True | c :: _ => is_ws c = false end).
    { destruct Hsg as [-> | [-> | ->]]; try reflexivity. destruct ds as [|c ds]; [congruence|].
      cbn. apply digit_not_ws. cbn in Hd. apply andb_true_iff in Hd. tauto. }
    rewrite (skip_ws_app _ _ Hws Hfirst).
    assert (HS : sign_split (sg ++ ds) = (if list_eq_dec Z.eq_dec sg [45] then true else false, ds)).
    { destruct Hsg as [-> | [-> | ->]]; try reflexivity. cbn [app]. destruct ds as [|c ds]; [congruence|].
      rewrite sign_split_plain; [reflexivity| |]; intros ->; cbn in Hd; discriminate. }
    rewrite HS. rewrite (take_digits_all _ Hd).
    destruct ds as [|c ds]; [congruence|]. cbn [length Nat.eqb]. cbn zeta.
    set (w := if (if list_eq_dec Z.eq_dec sg [45] then true else false) then - dval (c :: ds) else dval (c :: ds)).
    assert (Hw : w = v) by (rewrite Hv; unfold w; destruct (list_eq_dec Z.eq_dec sg [45]); reflexivity).
    rewrite Hw. replace (v <? int_min) with false by lia. replace (v >? int_max) with false by lia. reflexivity.
Qed.

Lemma numeral_int_text z s : numeral z s -> int_min <= z <= int_max -> int_text s z.
Proof.
  intros [[Hz (H1 & H2 & H3 & _)]|[Hz (t & -> & H1 & H2 & H3 & _)]] Hr.
  - exists [], [], s. cbn [app list_eq_dec]. do 5 (split; [auto|]). split; [symmetry; exact H3|exact Hr].
  - exists [], [45], t. do 5 (split; [auto|]). split; [|exact Hr].
    destruct (list_eq_dec Z.eq_dec [45] [45]); [lia|congruence].
Qed.

(** * Hex strings *)

(** The value of a hexadecimal digit. *)
Definition hexdigit (c : Z) : option Z :=
  if (48 <=? c) && (c <=? 57) then Some (c - 48)
  else if (97 <=? c) && (c <=? 102) then Some (c - 97 + 10)
  else if (65 <=? c) && (c <=? 70) then Some (c - 65 + 10)
  else None.
Lemma hexval_spec c : hexval c = hexdigit c.
Proof. reflexivity. Qed.
(** Texts made of 0xHH tokens and spaces, with the bytes they list (0..255). *)
Inductive hex_text : list Z -> list Z -> Prop :=
| HexNil : hex_text [] []
| HexSpace s l : hex_text s l -> hex_text (32 :: s) l
| HexTok a b va vb s l : hexdigit a = Some va -> hexdigit b = Some vb -> hex_text s l ->
    hex_text (48 :: 120 :: a :: b :: s) (16 * va + vb :: l).
(** The same followed by an unfinished token. *)
Definition hex_cut (s l : list Z) : Prop :=
  exists s0 t, s = s0 ++ t /\ hex_text s0 l /\ (t = [48] \/ t = [48; 120] \/ exists a va, t = [48; 120; a] /\ hexdigit a = Some va).

Lemma hexval_range c v : hexval c = Some v -> 0 <= v < 16.
Proof. unfold hexval. ifs; intros H; try discriminate; injection H as <-; lia. Qed.

Lemma wrap8_byte va vb : 0 <= va < 16 -> 0 <= vb < 16 ->
  wrap_s 8 (wrap_s 8 (Z.shiftl va 4) + vb) = wrap_s 8 (16 * va + vb).
Proof.
  intros Ha Hb. rewrite Z.shiftl_mul_pow2 by lia. change (2 ^ 4) with 16. unfold wrap_s.
  change (2 ^ 8) with 256. change (2 ^ (8 - 1)) with 128. cbn zeta.
  rewrite (Z.mod_small (va * 16)) by lia. rewrite (Z.mod_small (16 * va + vb)) by lia.
  destruct (va * 16 <? 128) eqn:E1.
  - rewrite Z.mod_small by lia. replace (va * 16 + vb) with (16 * va + vb) by lia. reflexivity.
  - replace ((va * 16 - 256 + vb) mod 256) with (16 * va + vb); [reflexivity|].
    apply (Z.mod_unique _ _ (-1)); lia.
Qed.

Lemma hex_text_ok debug : forall s l, hex_text s l -> forall byte out,
  hex_loop debug WZero byte out s = Ok (out ++ map (wrap_s 8) l, None).
Proof.
  induction 1 as [|s l H IH|a b va vb s l Ha Hb H IH]; intros byte out; cbn [hex_loop map].
  - rewrite app_nil_r. reflexivity.
  - change (32 =? 48) with false. change (32 =? 32) with true. apply IH.
  - change (48 =? 48) with true. change (120 =? 120) with true. cbn iota. rewrite hexval_spec, Ha, hexval_spec, Hb.
    rewrite IH. rewrite wrap8_byte by (eapply hexval_range; eassumption). rewrite <- app_assoc. reflexivity.
Qed.

Lemma hex_inv debug : forall s byte out r, hex_loop debug WZero byte out s = Ok (r, None) ->
  exists l, r = out ++ map (wrap_s 8) l /\ (hex_text s l \/ hex_cut s l).
Proof.
  intros s. remember (length s) as n eqn:Hn. assert (Hle : (length s <= n)%nat) by lia. clear Hn. revert s Hle.
  induction n as [|n IH]; intros s Hle byte out r H.
  - destruct s; [|cbn in Hle; lia]. injection H as <-. exists []. rewrite app_nil_r. split; [reflexivity|left; constructor].
  - destruct s as [|c s]; [injection H as <-; exists []; rewrite app_nil_r; split; [reflexivity|left; constructor]|].
    cbn [hex_loop] in H. cbn [length] in Hle. destruct (c =? 48) eqn:E0.
    + assert (c = 48) as -> by lia. destruct s as [|x s].
      { injection H as <-. exists []. rewrite app_nil_r. split; [reflexivity|].
        right. exists [], [48]. split; [reflexivity|]. split; [constructor|auto]. }
      cbn [hex_loop] in H. cbn [length] in Hle. destruct (x =? 120) eqn:E1; [|destruct debug; discriminate].
      assert (x = 120) as -> by lia. destruct s as [|a s].
      { injection H as <-. exists []. rewrite app_nil_r. split; [reflexivity|].
        right. exists [], [48; 120]. split; [reflexivity|]. split; [constructor|auto]. }
      cbn [hex_loop] in H. cbn [length] in Hle. destruct (hexval a) as [va|] eqn:Ea; [|destruct debug; discriminate].
      destruct s as [|b s].
      { injection H as <-. exists []. rewrite app_nil_r. split; [reflexivity|].
        right. exists [], [48; 120; a]. split; [reflexivity|]. split; [constructor|]. right; right. eauto. }
      cbn [hex_loop] in H. cbn [length] in Hle. destruct (hexval b) as [vb|] eqn:Eb; [|destruct debug; discriminate].
      destruct (IH s ltac:(lia) _ _ _ H) as (l & -> & Hl).
      exists (16 * va + vb :: l). split.
      * cbn [map]. rewrite wrap8_byte by (eapply hexval_range; eassumption). rewrite <- app_assoc. reflexivity.
      * destruct Hl as [Hl|(s0 & t & -> & Hs0 & Ht)]; [left; constructor; auto|].
        right. exists (48 :: 120 :: a :: b :: s0), t. split; [reflexivity|]. split; [constructor; auto|exact Ht].
    + destruct (c =? 32) eqn:E1; [|destruct debug; discriminate]. assert (c = 32) as -> by lia.
      destruct (IH s ltac:(lia) _ _ _ H) as (l & -> & Hl). exists l. split; [reflexivity|].
      destruct Hl as [Hl|(s0 & t & -> & Hs0 & Ht)]; [left; constructor; auto|].
      right. exists (32 :: s0), t. split; [reflexivity|]. split; [constructor; auto|exact Ht].
Qed.

Lemma hex_outcomes debug : forall s st byte out,
  (exists r, hex_loop debug st byte out s = Ok (r, None)) \/
  hex_loop debug st byte out s = (if debug then Throw ConversionError else Ok ([], Some ConversionError)).
Proof.
  induction s as [|c s IH]; intros st byte out; [left; eexists; reflexivity|].
  cbn [hex_loop]. destruct st; repeat (match goal with |- context [if ?b =? ?c then _ else _] => destruct (b =? c)
    | |- context [match hexval ?c with _ => _ end] => destruct (hexval c) end); auto.
Qed.

(** * Float formats *)

Definition fmt_spec (p : Z) : list Z :=
  if p <? 0 then [37; 102]                                  (* "%f" *)
  else [37; 46] ++ dec (Z.min p 20) ++ [102].               (* "%.<p>f" *)

Lemma fmt_set_shape fs p : Zlen fs = 6 -> zget fs 0 = Some 37 -> zget fs 5 = Some 0 ->
  Zlen (fmt_set fs p) = 6 /\ zget (fmt_set fs p) 0 = Some 37 /\ zget (fmt_set fs p) 5 = Some 0 /\
  cstr (fmt_set fs p) = Some (fmt_spec p).
Proof.
  intros HL H0 H5.
  destruct fs as [|c0 [|c1 [|c2 [|c3 [|c4 [|c5 [|c6 fs]]]]]]];
    try (exfalso; revert HL; unfold Zlen; cbn [length]; lia).
  cbn in H0, H5. injection H0 as ->. injection H5 as ->.
  unfold fmt_set, fmt_spec. destruct (p <? 0) eqn:E; [repeat split; reflexivity|].
  destruct (p <? 10) eqn:E1.
  - rewrite Z.min_l, dec_small by lia. 
    assert (Hd : (48 + p =? 0) = false) by lia. remember (48 + p) as d eqn:Ed. clear Ed.
    split; [reflexivity|]. split; [reflexivity|]. split; [reflexivity|].
    change (cstr [37; 46; d; 102; 0; 0] = Some [37; 46; d; 102]). cbn -[Z.eqb]. rewrite Hd. reflexivity.
  - destruct (p <? 20) eqn:E2.
    + rewrite Z.min_l by lia. rewrite dec_step by lia. assert (p / 10 = 1) as -> by lia.
      change (dec 1) with [49]. assert (p mod 10 = p - 10) as -> by lia.
      assert (Hd : (48 + (p - 10) =? 0) = false) by lia. remember (48 + (p - 10)) as d eqn:Ed. clear Ed.
      split; [reflexivity|]. split; [reflexivity|]. split; [reflexivity|].
      change (cstr [37; 46; 49; d; 102; 0] = Some [37; 46; 49; d; 102]). cbn -[Z.eqb]. rewrite Hd. reflexivity.
    + rewrite Z.min_r by lia. repeat split; reflexivity.
Qed.

Lemma fmt_history_ok : forall ps fs, Zlen fs = 6 -> zget fs 0 = Some 37 -> zget fs 5 = Some 0 ->
  Zlen (fold_left fmt_set ps fs) = 6 /\ zget (fold_left fmt_set ps fs) 0 = Some 37 /\ zget (fold_left fmt_set ps fs) 5 = Some 0.
Proof.
  induction ps as [|p ps IH]; intros fs H1 H2 H3; [auto|]. cbn [fold_left].
  destruct (fmt_set_shape fs p H1 H2 H3) as (A & B & C & _). auto.
Qed.

(** * Errors *)

Lemma errs_after_spec : forall l e, errs_after e l = match find (fun o => match o with Some _ => true | None => false end) (rev l) with
  | Some (Some e') => e' | _ => e end.
Proof.
  induction l as [|r l IH] using rev_ind; intros e; [reflexivity|].
  assert (H : forall l e r, errs_after e (l ++ [r]) = err_after (errs_after e l) r).
  { clear. induction l as [|x l IH]; intros e r; [reflexivity|]. cbn. apply IH. }
  rewrite H, rev_app_distr. cbn [rev app find]. destruct r; [reflexivity|]. cbn [err_after]. apply IH.
Qed.

(** * Booleans *)
Lemma store_all_ok : forall s mem p, 0 <= p -> p + Zlen s <= Zlen mem ->
  exists mem', store_all mem p s = Ok mem' /\ same_outside p (p + Zlen s) mem mem' /\ at_mem mem' p s.
Proof.
  induction s as [|c s IH]; intros mem p Hp HL; cbn [store_all].
  - exists mem. split; [reflexivity|]. split; [split; auto|]. intros i Hi. znil. lia.
  - rewrite Zlen_cons in HL. pose proof (Zlen_nonneg s). rewrite store_ok by lia. cbn [bind].
    destruct (IH (zset mem p c) (p + 1)) as (mem' & HR & [HL' HO] & HA); [lia|rewrite Zlen_zset; lia|].
    exists mem'. split; [exact HR|]. rewrite Zlen_cons. rewrite Zlen_zset in HL'. split.
    + split; [exact HL'|]. intros a Ha. rewrite HO by lia. apply zget_zset_neq. lia.
    + intros i Hi. rewrite Zlen_cons in Hi. destruct (Z.eq_dec i 0) as [->|].
      * rewrite Z.add_0_r. rewrite HO by lia. rewrite zget_zset_eq by lia. reflexivity.
      * rewrite zget_cons_pos by lia. rewrite <- HA by lia. f_equal. lia.
Qed.
Lemma conv_bool_ok (b : bool) lo mem : 0 <= lo -> lo + (if b then 5 else 6) <= Zlen mem ->
  exists mem', conv_bool b lo mem = Ok (lo, mem') /\ same_outside lo (lo + (if b then 5 else 6)) mem mem' /\
    at_mem mem' lo ((if b then true_str else false_str) ++ [0]).
Proof.
  intros Hlo HL. unfold conv_bool. rewrite store_ok by (destruct b; lia). cbn [bind].
  set (s := (if b then true_str else false_str) ++ [0]).
  assert (Hs : Zlen s = if b then 5 else 6) by (unfold s; destruct b; reflexivity).
  destruct (store_all_ok s (zset mem lo 0) lo) as (mem' & HR & HO & HA); [lia|rewrite Zlen_zset, Hs; lia|].
  rewrite HR. cbn [bind]. exists mem'. split; [reflexivity|]. split; [|exact HA].
  eapply same_outside_trans; [apply (same_outside_zset lo (lo + (if b then 5 else 6)) mem lo 0); destruct b; lia|].
  eapply same_outside_mono; [| |exact HO]; rewrite ?Hs; lia.
Qed.
