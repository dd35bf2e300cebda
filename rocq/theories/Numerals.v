(** Decimal numerals as character codes: specification shared by several areas.
    Not a model of ecl code; the decimal output of the C++ standard library ([ostream << long])
    is assumed to be the canonical numeral [num_str] defined here. *)
From Verif Require Import Base.

Definition is_digit (c : Z) : bool := (48 <=? c) && (c <=? 57).
(** Value of a digit string. *)
Definition dval (s : list Z) : Z := fold_left (fun a c => 10 * a + (c - 48)) s 0.

(** [canonical n s]: s is the decimal numeral of n >= 0 without superfluous leading zeros. *)
Definition canonical (n : Z) (s : list Z) : Prop :=
  forallb is_digit s = true /\ s <> [] /\ dval s = n /\ (hd 0 s = 48 -> s = [48]).
(** Signed numerals. *)
Definition numeral (z : Z) (s : list Z) : Prop :=
  (0 <= z /\ canonical z s) \/ (z < 0 /\ exists t, s = 45 :: t /\ canonical (- z) t).

(** Digits, least significant first, of a non-negative number. *)
Fixpoint rev_digits (fuel : nat) (n : Z) : list Z :=
  match fuel with
  | O => []
  | S f => if n <? 10 then [48 + n] else (48 + n mod 10) :: rev_digits f (n / 10)
  end.
Definition dec (n : Z) : list Z := rev (rev_digits (S (Z.to_nat (Z.log2 n))) n).
Definition num_str (z : Z) : list Z := if z <? 0 then 45 :: dec (- z) else dec z.

Lemma dval_app s t : dval (s ++ t) = dval s * 10 ^ Zlen t + dval t.
Proof.
  unfold dval. rewrite fold_left_app. generalize (fold_left (fun a c => 10 * a + (c - 48)) s 0) as a.
  induction t as [|c t IH]; intros a; [cbn; lia|].
  cbn [fold_left]. rewrite IH. rewrite (IH (10 * 0 + (c - 48))). rewrite Zlen_cons.
  rewrite Z.pow_add_r by (pose proof (Zlen_nonneg t); lia). nia.
Qed.

Lemma dval_snoc s c : dval (s ++ [c]) = 10 * dval s + (c - 48).
Proof. rewrite dval_app. change (Zlen [c]) with 1. change (dval [c]) with (10 * 0 + (c - 48)). lia. Qed.

Lemma dval_bound s : forallb is_digit s = true -> 0 <= dval s < 10 ^ Zlen s.
Proof.
  induction s as [|c s IH] using rev_ind; intros H; [cbn; lia|].
  rewrite forallb_app in H. apply andb_true_iff in H as [H1 H2]. cbn in H2.
  rewrite dval_snoc, Zlen_app. rewrite Z.pow_add_r by (try apply Zlen_nonneg; cbn; lia).
  specialize (IH H1). unfold is_digit in H2. change (10 ^ Zlen [c]) with 10. lia.
Qed.

Lemma rev_digits_spec fuel : forall n, 0 <= n -> n < 2 ^ Z.of_nat fuel -> (0 < fuel)%nat ->
  forallb is_digit (rev (rev_digits fuel n)) = true /\ rev (rev_digits fuel n) <> [] /\
  dval (rev (rev_digits fuel n)) = n /\ (0 < n -> hd 0 (rev (rev_digits fuel n)) <> 48).
Proof.
  induction fuel as [|f IH]; intros n Hn Hb Hf; [lia|]. cbn [rev_digits].
  destruct (n <? 10) eqn:E.
  - cbn [rev app forallb hd]. unfold is_digit.
    split; [lia|split; [discriminate|split; [|lia]]]. unfold dval. cbn [fold_left]. lia.
  - cbn [rev]. destruct f as [|f].
    { cbn in Hb. lia. }
    assert (Hd : 0 <= n / 10 < 2 ^ Z.of_nat (S f)).
    { rewrite Nat2Z.inj_succ, Z.pow_succ_r in Hb by lia. lia. }
    destruct (IH (n / 10)) as (H1 & H2 & H3 & H4); try lia.
    split; [|split; [|split]].
    + rewrite forallb_app, H1. cbn [forallb andb]. unfold is_digit. lia.
    + intros H. apply app_eq_nil in H as [_ H]. discriminate.
    + rewrite dval_snoc, H3. lia.
    + intros _. destruct (rev (rev_digits (S f) (n / 10))) as [|c t]; [congruence|]. cbn in *. apply H4. lia.
Qed.

Lemma dec_canonical n : 0 <= n -> canonical n (dec n).
Proof.
  intros Hn. unfold dec.
  assert (Hb : n < 2 ^ Z.of_nat (S (Z.to_nat (Z.log2 n)))).
  { destruct (Z.eq_dec n 0) as [->|]; [cbn; lia|].
    pose proof (Z.log2_spec n ltac:(lia)). pose proof (Z.log2_nonneg n).
    rewrite Nat2Z.inj_succ, Z2Nat.id by lia. lia. }
  destruct (rev_digits_spec _ n Hn Hb) as (H1 & H2 & H3 & H4); [lia|].
  repeat split; auto. intros Hh. destruct (Z.eq_dec n 0) as [->|]; [reflexivity|].
  exfalso. apply H4; [lia|exact Hh].
Qed.

Lemma num_str_numeral z : numeral z (num_str z).
Proof.
  unfold numeral, num_str. destruct (z <? 0) eqn:E.
  - right. split; [lia|]. eexists. split; [reflexivity|]. apply dec_canonical. lia.
  - left. split; [lia|]. apply dec_canonical. lia.
Qed.

(** A digit string is determined by its length and value. *)
Lemma dval_inj s : forall t, forallb is_digit s = true -> forallb is_digit t = true ->
  length s = length t -> dval s = dval t -> s = t.
Proof.
  induction s as [|c s IH] using rev_ind; intros t Hs Ht HL HV.
  - destruct t; [reflexivity|discriminate].
  - destruct t as [|d t _] using rev_ind.
    + rewrite app_length in HL. cbn in HL. lia.
    + rewrite !app_length in HL. cbn in HL.
      rewrite forallb_app in Hs, Ht. apply andb_true_iff in Hs as [Hs1 Hs2]. apply andb_true_iff in Ht as [Ht1 Ht2].
      cbn in Hs2, Ht2. unfold is_digit in Hs2, Ht2. rewrite !dval_snoc in HV.
      pose proof (dval_bound s Hs1). pose proof (dval_bound t Ht1).
      assert (dval s = dval t /\ c = d) as [HV1 ->] by lia.
      f_equal. apply IH; auto. lia.
Qed.

Lemma dval_cons c s : dval (c :: s) = (c - 48) * 10 ^ Zlen s + dval s.
Proof. change (c :: s) with ([c] ++ s). rewrite dval_app. f_equal. Qed.

Lemma canonical_unique n s t : canonical n s -> canonical n t -> s = t.
Proof.
  intros (Hs1 & Hs2 & Hs3 & Hs4) (Ht1 & Ht2 & Ht3 & Ht4).
  assert (Hlen : forall a b, forallb is_digit a = true -> forallb is_digit b = true -> a <> [] -> b <> [] ->
     (hd 0 b = 48 -> b = [48]) -> dval a = dval b -> (length a < length b)%nat -> False).
  { intros a b Ha Hb Hna Hnb Hz HV HL. destruct b as [|c b]; [congruence|].
    rewrite dval_cons in HV. cbn [forallb] in Hb. apply andb_true_iff in Hb as [Hc Hb].
    unfold is_digit in Hc. cbn [hd] in Hz. cbn [length] in HL.
    destruct (Z.eq_dec c 48) as [->|Hc48].
    - specialize (Hz eq_refl). injection Hz as ->. cbn in HL. destruct a; [congruence|cbn in HL; lia].
    - pose proof (dval_bound a Ha) as Hba. pose proof (dval_bound b Hb) as Hbb.
      assert (10 ^ Zlen a <= 10 ^ Zlen b) by (apply Z.pow_le_mono_r; unfold Zlen; lia). nia. }
  apply dval_inj; auto; [|congruence].
  destruct (Nat.lt_trichotomy (length s) (length t)) as [H|[H|H]]; auto; exfalso.
  - apply (Hlen s t); auto; congruence.
  - apply (Hlen t s); auto; congruence.
Qed.

Lemma numeral_unique z s t : numeral z s -> numeral z t -> s = t.
Proof.
  intros [[Hz Hs]|[Hz (s' & -> & Hs)]] [[Hz' Ht]|[Hz' (t' & -> & Ht)]]; try lia.
  - eapply canonical_unique; eauto.
  - f_equal. eapply canonical_unique; eauto.
Qed.

(** The length of a canonical numeral. *)
Lemma canonical_len n s k : canonical n s -> 0 < k -> (Zlen s <= k <-> n < 10 ^ k).
Proof.
  intros (H1 & H2 & H3 & H4) Hk. pose proof (dval_bound s H1) as Hb. split; intros H.
  - assert (10 ^ Zlen s <= 10 ^ k) by (apply Z.pow_le_mono_r; lia). lia.
  - destruct (Z_le_gt_dec (Zlen s) k) as [|Hgt]; [assumption|exfalso].
    destruct s as [|c s]; [congruence|]. cbn [forallb] in H1. apply andb_true_iff in H1 as [Hc Hs].
    unfold is_digit in Hc. rewrite Zlen_cons in *. rewrite dval_cons in H3. pose proof (dval_bound s Hs) as Hbs.
    cbn [hd] in H4. destruct (Z.eq_dec c 48) as [->|].
    + specialize (H4 eq_refl). injection H4 as ->. znil. lia.
    + assert (10 ^ k <= 10 ^ Zlen s) by (apply Z.pow_le_mono_r; lia). nia.
Qed.
