From Flocq Require Import Core.
From Coq Require Import Reals ZArith List Lra Lia Psatz.
Import ListNotations.
From Verif Require Import RandModel.
Open Scope R_scope.

Lemma prec_pos k : (0 < precision k)%Z. Proof. destruct k; reflexivity. Qed.
Global Instance prec_gt k : Prec_gt_0 (precision k). Proof. exact (prec_pos k). Qed.
Lemma rnd_le k x y : x <= y -> rnd k x <= rnd k y.
Proof. intros H. unfold rnd. apply round_le; [apply FLT_exp_valid; exact (prec_gt k) | apply valid_rnd_N | exact H]. Qed.
Lemma rnd_id k m e : (Z.abs m < 2 ^ precision k)%Z -> (least k <= e)%Z -> rnd k (IZR m * bpow radix2 e) = IZR m * bpow radix2 e.
Proof.
  intros Hm He. unfold rnd. apply round_generic; [apply valid_rnd_N|]. apply generic_format_FLT.
  apply (FLT_spec _ _ _ _ (Float radix2 m e)); [reflexivity | exact Hm | exact He].
Qed.
Lemma rnd_int k m : (Z.abs m < 2 ^ precision k)%Z -> rnd k (IZR m) = IZR m.
Proof.
  intros Hm. replace (IZR m) with (IZR m * bpow radix2 0) by (cbn; lra). apply rnd_id; [exact Hm | destruct k; cbn; lia].
Qed.
Lemma rnd_opp k x : rnd k (- x) = - rnd k x.
Proof. apply round_NE_opp. Qed.
Lemma rnd_abs k x b : rnd k b = b -> Rabs x <= b -> Rabs (rnd k x) <= b.
Proof.
  intros Hb H. destruct (Rabs_le_inv _ _ H) as [L U]. apply Rabs_le. pose proof (rnd_le k _ _ L) as L'. pose proof (rnd_le k _ _ U) as U'. rewrite rnd_opp, Hb in L'. rewrite Hb in U'. split; assumption.
Qed.
Lemma rnd_idem k x : rnd k (rnd k x) = rnd k x.
Proof. unfold rnd. apply round_generic; [apply valid_rnd_N|]. apply generic_format_round; [apply FLT_exp_valid; exact (prec_gt k) | apply valid_rnd_N]. Qed.

(** ** uniform *)
Lemma rand_max_pos k : 1 <= rnd k (IZR RAND_MAX).
Proof. rewrite <- (rnd_int k 1) by (destruct k; reflexivity). apply rnd_le. apply IZR_le. unfold RAND_MAX. lia. Qed.
Lemma unit_bounds k r : (0 <= r <= RAND_MAX)%Z -> 0 <= unit_of k r <= 1.
Proof.
  intros [H0 H1]. pose proof (rand_max_pos k) as P.
  assert (A : 0 <= rnd k (IZR r)). { rewrite <- (rnd_int k 0) by (destruct k; reflexivity). apply rnd_le, IZR_le, H0. }
  assert (B : rnd k (IZR r) <= rnd k (IZR RAND_MAX)) by (apply rnd_le, IZR_le, H1).
  assert (Q : 0 <= rnd k (IZR r) / rnd k (IZR RAND_MAX) <= 1).
  { split; [apply Rmult_le_pos; [exact A | left; apply Rinv_0_lt_compat; lra]|].
    apply (Rmult_le_reg_r (rnd k (IZR RAND_MAX))); [lra|]. unfold Rdiv. rewrite Rmult_assoc, Rinv_l by lra. lra. }
  unfold unit_of. split.
  - rewrite <- (rnd_int k 0) at 1 by (destruct k; reflexivity). apply rnd_le, Q.
  - rewrite <- (rnd_int k 1) by (destruct k; reflexivity). apply rnd_le, Q.
Qed.
Lemma unit_0 k : unit_of k 0 = 0.
Proof. unfold unit_of. rewrite (rnd_int k 0) by (destruct k; reflexivity). unfold Rdiv. rewrite Rmult_0_l. apply (rnd_int k 0). destruct k; reflexivity. Qed.
Lemma unit_1 k : unit_of k RAND_MAX = 1.
Proof.
  unfold unit_of. unfold Rdiv. rewrite Rinv_r by (pose proof (rand_max_pos k); lra). apply (rnd_int k 1). destruct k; reflexivity.
Qed.
Lemma unit_monotone k r s : (0 <= r <= s)%Z -> (s <= RAND_MAX)%Z -> unit_of k r <= unit_of k s.
Proof.
  intros H H1. unfold unit_of. apply rnd_le. pose proof (rand_max_pos k). apply Rmult_le_compat_r; [left; apply Rinv_0_lt_compat; lra|].
  apply rnd_le, IZR_le. lia.
Qed.
Lemma half_id : rnd Double (1 / 2) = 1 / 2.
Proof. replace (1 / 2) with (IZR 1 * bpow radix2 (-1)) by (cbn; lra). apply rnd_id; [reflexivity | cbn; lia]. Qed.
Lemma as_double k x : rnd k x = x -> rnd Double x = x.
Proof.
  destruct k; [|auto]. intros H. unfold rnd in *.
  assert (G : generic_format radix2 (FLT_exp (least Single) (precision Single)) x).
  { rewrite <- H. apply generic_format_round; [apply FLT_exp_valid; exact (prec_gt Single) | apply valid_rnd_N]. }
  apply round_generic; [apply valid_rnd_N|].
  apply FLT_format_generic in G; [|exact (prec_gt Single)]. destruct G as [f E M L].
  apply generic_format_FLT. apply (FLT_spec _ _ _ _ f); [exact E | cbn in *; lia | cbn in *; lia].
Qed.
Lemma ranged_bounds k range r : (0 <= r <= RAND_MAX)%Z -> rnd k range = range -> 0 <= range -> - range <= ranged_of k range r <= range.
Proof.
  intros Hr F P. pose proof (unit_bounds k r Hr) as U. pose proof (as_double k range F) as FD.
  assert (A : Rabs (rnd Double (unit_of k r - 1 / 2)) <= 1 / 2) by (apply rnd_abs; [apply half_id | apply Rabs_le; lra]).
  assert (B : Rabs (rnd Double (rnd Double (unit_of k r - 1 / 2) * 2)) <= 1).
  { apply rnd_abs; [apply (rnd_int Double 1); reflexivity|]. rewrite Rabs_mult, (Rabs_right 2) by lra. lra. }
  assert (C : Rabs (ranged_of k range r) <= range).
  { unfold ranged_of. apply rnd_abs; [exact F|]. apply rnd_abs; [exact FD|]. rewrite Rabs_mult, (Rabs_right range) by lra.
    rewrite <- (Rmult_1_l range) at 2. apply Rmult_le_compat_r; assumption. }
  destruct (Rabs_le_inv _ _ C). split; assumption.
Qed.

(** ** gaussian *)
(** In doubles no coordinate is zero: RAND_MAX is odd. *)
Lemma rand_max_double : rnd Double (IZR RAND_MAX) = IZR RAND_MAX.
Proof. apply rnd_int. reflexivity. Qed.
Lemma near_half_lo : rnd Double (1 / 2 - bpow radix2 (-33)) = 1 / 2 - bpow radix2 (-33).
Proof.
  replace (1 / 2 - bpow radix2 (-33)) with (IZR (2 ^ 32 - 1) * bpow radix2 (-33)) by (cbn; lra). apply rnd_id; [reflexivity | cbn; lia].
Qed.
Lemma near_half_hi : rnd Double (1 / 2 + bpow radix2 (-33)) = 1 / 2 + bpow radix2 (-33).
Proof.
  replace (1 / 2 + bpow radix2 (-33)) with (IZR (2 ^ 32 + 1) * bpow radix2 (-33)) by (cbn; lra). apply rnd_id; [reflexivity | cbn; lia].
Qed.
Lemma coord_double r : (0 <= r <= RAND_MAX)%Z -> bpow radix2 (-32) <= Rabs (coord_of Double r) <= 1.
Proof.
  intros Hr.
  assert (E : rnd Double (IZR r) = IZR r) by (apply rnd_int; unfold RAND_MAX in Hr; cbn; lia).
  assert (U : unit_of Double r <= 1 / 2 - bpow radix2 (-33) \/ 1 / 2 + bpow radix2 (-33) <= unit_of Double r).
  { unfold unit_of. rewrite E, rand_max_double.
    destruct (Z_le_gt_dec (2 * r) RAND_MAX) as [L | G].
    - left. rewrite <- near_half_lo. apply rnd_le. assert (L' : (2 * r <= RAND_MAX - 1)%Z) by (unfold RAND_MAX in *; lia).
      apply IZR_le in L'. rewrite mult_IZR, minus_IZR in L'. unfold RAND_MAX in *. cbn -[IZR]. cbn in L'. lra.
    - right. rewrite <- near_half_hi. apply rnd_le. assert (L' : (RAND_MAX + 1 <= 2 * r)%Z) by lia.
      apply IZR_le in L'. rewrite mult_IZR, plus_IZR in L'. unfold RAND_MAX in *. cbn -[IZR]. cbn in L'. lra. }
  pose proof (unit_bounds Double r Hr) as B. unfold coord_of. set (u := unit_of Double r) in *.
  assert (P33 : bpow radix2 (-33) = / 2 * bpow radix2 (-32)) by (cbn; lra). assert (P32 : 0 < bpow radix2 (-32)) by apply bpow_gt_0.
  assert (one : rnd Double 1 = 1) by (apply (rnd_int Double 1); reflexivity).
  assert (tiny : rnd Double (bpow radix2 (-32)) = bpow radix2 (-32)).
  { replace (bpow radix2 (-32)) with (IZR 1 * bpow radix2 (-32)) by lra. apply rnd_id; [reflexivity | cbn; lia]. }
  assert (D : rnd Double (2 * u) = 2 * u).
  { assert (F : rnd Double u = u) by (unfold u, unit_of; apply rnd_idem).
    assert (G : generic_format radix2 (FLT_exp (least Double) (precision Double)) u).
    { unfold rnd in F. rewrite <- F. apply generic_format_round; [apply FLT_exp_valid; exact (prec_gt Double) | apply valid_rnd_N]. }
    apply FLT_format_generic in G; [|exact (prec_gt Double)]. destruct G as [[m e] Eu M L]. unfold rnd. apply round_generic; [apply valid_rnd_N|].
    apply generic_format_FLT. apply (FLT_spec _ _ _ _ (Float radix2 m (e + 1))); [|exact M | cbn in *; lia].
    rewrite Eu. unfold F2R. cbn [Fnum Fexp]. rewrite bpow_plus. cbn. ring. }
  rewrite D. split.
  - destruct U as [U | U].
    + assert (X : rnd Double (rnd Double (2 * u - 1)) <= - bpow radix2 (-32)).
      { rewrite rnd_idem. apply Rle_trans with (rnd Double (- bpow radix2 (-32))); [apply rnd_le; lra | rewrite rnd_opp, tiny; lra]. }
      rewrite Rabs_left by lra. lra.
    + assert (X : bpow radix2 (-32) <= rnd Double (rnd Double (2 * u - 1))).
      { rewrite rnd_idem. apply Rle_trans with (rnd Double (bpow radix2 (-32))); [rewrite tiny; lra | apply rnd_le; lra]. }
      rewrite Rabs_right by lra. lra.
  - apply rnd_abs; [exact one|]. apply rnd_abs; [exact one|]. apply Rabs_le. lra.
Qed.
Lemma weight_double r1 r2 : (0 <= r1 <= RAND_MAX)%Z -> (0 <= r2 <= RAND_MAX)%Z ->
  bpow radix2 (-64) <= weight Double (coord_of Double r1) (coord_of Double r2).
Proof.
  intros H1 H2. pose proof (coord_double r1 H1) as [A _]. pose proof (coord_double r2 H2) as [B _].
  set (x := coord_of Double r1) in *. set (y := coord_of Double r2) in *.
  assert (t : forall e, (-1074 <= e)%Z -> rnd Double (bpow radix2 e) = bpow radix2 e).
  { intros e He. replace (bpow radix2 e) with (IZR 1 * bpow radix2 e) by lra. apply rnd_id; [reflexivity | exact He]. }
  assert (S : forall z, bpow radix2 (-32) <= Rabs z -> bpow radix2 (-64) <= rnd Double (z * z)).
  { intros z Hz. rewrite <- (t (-64)%Z) by lia. apply rnd_le. replace (-64)%Z with (-32 + -32)%Z by lia. rewrite bpow_plus.
    replace (z * z) with (Rabs z * Rabs z) by (rewrite <- Rabs_mult; apply Rabs_right; nra).
    pose proof (bpow_gt_0 radix2 (-32)). nra. }
  unfold weight. rewrite <- (t (-64)%Z) by lia. apply rnd_le. pose proof (S x A). pose proof (S y B). pose proof (bpow_gt_0 radix2 (-64)). lra.
Qed.
(** In floats the middle of rand's range gives a zero coordinate. *)
Lemma max_single : rnd Single (IZR RAND_MAX) = IZR (2 ^ 31).
Proof.
  unfold rnd, round, scaled_mantissa, cexp.
  rewrite (mag_unique radix2 (IZR RAND_MAX) 31).
  2:{ rewrite Rabs_right by (apply Rle_ge, IZR_le; unfold RAND_MAX; lia). unfold RAND_MAX. cbn. lra. }
  change (FLT_exp (least Single) (precision Single) 31) with 7%Z.
  rewrite (Znearest_imp _ _ 16777216).
  - unfold F2R. cbn. lra.
  - unfold RAND_MAX. cbn. rewrite Rabs_left; lra.
Qed.
Lemma coord_single_mid : coord_of Single 1073741824 = 0.
Proof.
  assert (U : unit_of Single 1073741824 = 1 / 2).
  { unfold unit_of. rewrite max_single. replace (IZR 1073741824) with (IZR 1 * bpow radix2 30) by (cbn; lra).
    rewrite rnd_id by (cbn; lia). replace (IZR 1 * bpow radix2 30 / IZR (2 ^ 31)) with (IZR 1 * bpow radix2 (-1)) by (cbn; lra).
    rewrite rnd_id by (cbn; lia). cbn; lra. }
  unfold coord_of. rewrite U. replace (2 * (1 / 2)) with (IZR 1) by (cbn; lra). rewrite (rnd_int Double 1) by reflexivity.
  replace (1 - 1) with (IZR 0) by (cbn; lra). rewrite (rnd_int Double 0), (rnd_int Single 0) by reflexivity. reflexivity.
Qed.
Lemma weight_single_mid : weight Single 0 0 = 0.
Proof. unfold weight. rewrite Rmult_0_l. rewrite (rnd_int Single 0) by reflexivity. rewrite Rplus_0_l. apply (rnd_int Single 0). reflexivity. Qed.

(** ** The loop *)
Definition honest (l : lib) : Prop := forall g, (0 <= fst (draw l g) <= RAND_MAX)%Z.
Lemma tries_sound k l fuel g x1 x2 w g' : tries k l fuel g = Some (x1, x2, w, g') ->
  exists r1 r2 g0, x1 = coord_of k r1 /\ x2 = coord_of k r2 /\ w = weight k x1 x2 /\ w < 1 /\
  r1 = fst (draw l g0) /\ r2 = fst (draw l (snd (draw l g0))).
Proof.
  revert g. induction fuel as [|fuel IH]; cbn [tries]; intros g H; [discriminate|].
  destruct (draw l g) as [r1 g1] eqn:D1. destruct (draw l g1) as [r2 g2] eqn:D2. cbv zeta in H.
  destruct (Rle_dec 1 (weight k (coord_of k r1) (coord_of k r2))) as [L|L]; [exact (IH _ H)|].
  injection H as <- <- <- <-. exists r1, r2, g. rewrite D1. cbn [fst snd]. rewrite D2. cbn [fst]. repeat split; auto. lra.
Qed.
(** The pairs drawn, one after the other. *)
Fixpoint after (l : lib) (n : nat) (g : gstate l) : gstate l :=
  match n with O => g | S n' => after l n' (snd (draw l (snd (draw l g)))) end.
Definition pair_weight (k : kind) (l : lib) (g : gstate l) : R :=
  weight k (coord_of k (fst (draw l g))) (coord_of k (fst (draw l (snd (draw l g))))).
Lemma tries_halts k l n : forall g, pair_weight k l (after l n g) < 1 -> exists r, tries k l (S n) g = Some r.
Proof.
  induction n as [|n IH]; intros g H; cbn [after] in H; unfold pair_weight in H.
  - cbn [tries]. destruct (draw l g) as [r1 g1]. cbn [fst snd] in H. destruct (draw l g1) as [r2 g2]. cbn [fst snd] in H.
    destruct (Rle_dec _ _); [lra|]. eauto.
  - change (exists r, (let '(r1, g1) := draw l g in let '(r2, g2) := draw l g1 in
      let x1 := coord_of k r1 in let x2 := coord_of k r2 in let w := weight k x1 x2 in
      if Rle_dec 1 w then tries k l (S n) g2 else Some (x1, x2, w, g2)) = Some r).
    unfold pair_weight in IH. specialize (IH (snd (draw l (snd (draw l g))))).
    destruct (draw l g) as [r1 g1]. cbn [fst snd] in H, IH. destruct (draw l g1) as [r2 g2]. cbn [fst snd] in H, IH.
    cbv zeta. destruct (Rle_dec _ _); [|eauto]. exact (IH H).
Qed.
Lemma tries_needs k l n : forall g, (forall m, (m < n)%nat -> 1 <= pair_weight k l (after l m g)) -> tries k l n g = None.
Proof.
  induction n as [|n IH]; intros g H; [reflexivity|]. pose proof (H 0%nat ltac:(lia)) as H0. unfold pair_weight in H0. cbn [after] in H0.
  assert (H1 : forall m, (m < n)%nat -> 1 <= pair_weight k l (after l m (snd (draw l (snd (draw l g)))))) by (intros m Hm; apply (H (S m)); lia).
  apply IH in H1. cbn [tries]. destruct (draw l g) as [r1 g1]. cbn [fst snd] in *. destruct (draw l g1) as [r2 g2]. cbn [fst snd] in *.
  cbv zeta. destruct (Rle_dec _ _); [exact H1 | lra].
Qed.
(** More fuel changes nothing. *)
Lemma tries_more k l n : forall g r, tries k l n g = Some r -> forall m, (n <= m)%nat -> tries k l m g = Some r.
Proof.
  induction n as [|n IH]; intros g r H m Hm; [discriminate|]. destruct m as [|m]; [lia|]. cbn [tries] in *.
  destruct (draw l g) as [r1 g1]. destruct (draw l g1) as [r2 g2]. cbv zeta in *. destruct (Rle_dec _ _); [|exact H].
  apply (IH _ _ H). lia.
Qed.
(** ** Weights and values *)
Lemma scaled_sq w x1 x2 : 0 < w < 1 -> exists a b, scaled w x1 = Some a /\ scaled w x2 = Some b /\
  (x1 * x1 + x2 * x2 = w -> a * a + b * b = -2 * ln w) /\ a * a = x1 * x1 * (-2 * ln w / w).
Proof.
  intros [P L]. unfold scaled. destruct (Req_EM_T w 0); [lra|]. eexists _, _. split; [reflexivity|]. split; [reflexivity|].
  assert (Q : 0 <= -2 * ln w / w).
  { assert (ln w < 0) by (rewrite <- ln_1; apply ln_increasing; lra). apply Rmult_le_pos; [lra | left; apply Rinv_0_lt_compat; lra]. }
  pose proof (sqrt_sqrt _ Q) as S. split.
  - intros E. transitivity ((x1 * x1 + x2 * x2) * (sqrt (-2 * ln w / w) * sqrt (-2 * ln w / w))); [ring|]. rewrite E, S. field. lra.
  - transitivity (x1 * x1 * (sqrt (-2 * ln w / w) * sqrt (-2 * ln w / w))); [ring|]. rewrite S. reflexivity.
Qed.
