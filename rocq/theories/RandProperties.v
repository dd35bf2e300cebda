(** Random numbers: ranges, finiteness, termination, reproducibility. *)
From Flocq Require Import Core.
From Coq Require Import Reals ZArith List Lra Lia.
Import ListNotations.
From Verif Require Import RandModel RandProofs.
Open Scope R_scope.

(** rand() answers between 0 and RAND_MAX = 2^31 - 1. *)
Definition conforming (l : lib) : Prop := forall g, (0 <= fst (draw l g) <= 2147483647)%Z.
(** A number T can represent. *)
Definition representable (k : kind) (x : R) : Prop :=
  exists m e, x = IZR m * bpow radix2 e /\ (Z.abs m < 2 ^ match k with Single => 24 | Double => 53 end)%Z /\
              (match k with Single => -149 | Double => -1074 end <= e)%Z.
Lemma representable_rnd k x : representable k x -> rnd k x = x.
Proof. intros (m & e & -> & M & E). apply rnd_id; [destruct k; exact M | destruct k; exact E]. Qed.

(** * C182: uniform numbers stay in their range *)
Theorem C182_uniform : forall k l fuel range g, conforming l -> representable k range -> 0 <= range -> exists u v g1 g2,
  perform k l fuel Uniform g = Some ([Some u], g1) /\ 0 <= u <= 1 /\
  perform k l fuel (UniformIn range) g = Some ([Some v], g2) /\ - range <= v <= range.
Proof.
  intros k l fuel range g C F P. pose proof (C (gen g)) as D. cbn [perform]. destruct (draw l (gen g)) as [r g']. cbn [fst] in D.
  eexists _, _, _, _. split; [reflexivity|]. split; [apply unit_bounds; exact D|]. split; [reflexivity|].
  apply ranged_bounds; [exact D | apply representable_rnd; exact F | exact P].
Qed.
Print Assumptions C182_uniform.
(** Both ends occur, and a larger draw never gives a smaller number. *)
Theorem C182_ends : forall k, unit_of k 0 = 0 /\ unit_of k 2147483647 = 1 /\
  forall r s, (0 <= r <= s)%Z -> (s <= 2147483647)%Z -> unit_of k r <= unit_of k s.
Proof. intros k. split; [apply unit_0|]. split; [apply (unit_1 k)|]. intros r s H1 H2. apply (unit_monotone k r s H1 H2). Qed.
Print Assumptions C182_ends.
(** A library whose rand() counts. *)
Definition counting : lib := mkLib Z (fun s => Z.abs s) (fun g => (g mod 2147483648, g + 1)%Z).
Example C182_case : conforming counting /\ representable Single 10.
Proof.
  split; [intros g; cbn; pose proof (Z.mod_pos_bound g 2147483648 ltac:(lia)); lia|].
  exists 10%Z, 0%Z. split; [cbn; lra|]. split; cbn; lia.
Qed.

(** * C183: gaussian numbers are numbers *)
(** In doubles: whatever was called before, gaussian(std, mu) is within 14 std of mu. *)
Lemma half_kept y : bpow radix2 (-64) <= y -> y / 2 <= rnd Double y.
Proof.
  intros H. pose proof (bpow_gt_0 radix2 (-64)) as P. destruct (mag radix2 y) as [e E]. specialize (E ltac:(lra)). cbn in E. rewrite Rabs_right in E by lra.
  destruct E as [L U]. assert (Le : (-64 < e)%Z). { apply (lt_bpow radix2). lra. }
  assert (T : rnd Double (bpow radix2 (e - 1)) = bpow radix2 (e - 1)).
  { replace (bpow radix2 (e - 1)) with (IZR 1 * bpow radix2 (e - 1)) by lra. apply rnd_id; [reflexivity | cbn; lia]. }
  apply Rle_trans with (bpow radix2 (e - 1)).
  - assert (B : bpow radix2 e = 2 * bpow radix2 (e - 1)). { replace e with (1 + (e - 1))%Z at 1 by lia. rewrite bpow_plus. cbn. ring. } lra.
  - rewrite <- T. apply rnd_le, L.
Qed.
Lemma ln_weight w : bpow radix2 (-64) <= w < 1 -> 0 <= -2 * ln w <= 96.
Proof.
  intros [L U]. pose proof (bpow_gt_0 radix2 (-64)) as P. split.
  - assert (ln w < 0) by (rewrite <- ln_1; apply ln_increasing; lra). lra.
  - assert (A : ln (bpow radix2 (-64)) <= ln w). { destruct (Req_dec (bpow radix2 (-64)) w) as [-> | N]; [lra|]. left. apply ln_increasing; lra. }
    assert (B : ln (bpow radix2 (-64)) = - 64 * ln 2).
    { replace (bpow radix2 (-64)) with (/ 2 ^ 64) by (cbn; lra). rewrite ln_Rinv by (apply pow_lt; lra).
      replace (2 ^ 64) with (Rpower 2 64) by (rewrite <- (Rpower_pow 64 2) by lra; f_equal; cbn; lra). unfold Rpower. rewrite ln_exp. lra. }
    assert (ln 2 <= 3 / 4). { apply Rnot_lt_le. intros N. assert (X : exp (3 / 4) < 2). { rewrite <- (exp_ln 2) by lra. apply exp_increasing, N. }
      pose proof (exp_ineq1_le (1 / 8)) as Y0.
      assert (Y : 81 / 64 <= exp (1 / 4)) by (replace (1 / 4) with (1 / 8 + 1 / 8) by lra; rewrite exp_plus; nra).
      assert (Z : exp (3 / 4) = exp (1 / 4) * exp (1 / 4) * exp (1 / 4)) by (rewrite <- !exp_plus; f_equal; lra).
      assert (81 / 64 * (81 / 64) <= exp (1 / 4) * exp (1 / 4)) by (apply Rmult_le_compat; lra). nra. }
    lra.
Qed.
Lemma value_bound r1 r2 x : (0 <= r1 <= RAND_MAX)%Z -> (0 <= r2 <= RAND_MAX)%Z ->
  weight Double (coord_of Double r1) (coord_of Double r2) < 1 -> x = coord_of Double r1 \/ x = coord_of Double r2 ->
  exists v, scaled (weight Double (coord_of Double r1) (coord_of Double r2)) x = Some v /\ Rabs v <= 14.
Proof.
  intros H1 H2 L X. pose proof (weight_double r1 r2 H1 H2) as W. set (w := weight _ _ _) in *.
  pose proof (bpow_gt_0 radix2 (-64)) as P. destruct (scaled_sq w x x ltac:(lra)) as (v & _ & Ev & _ & _ & S).
  exists v. split; [exact Ev|]. pose proof (ln_weight w ltac:(lra)) as B.
  assert (Q : x * x <= 2 * w).
  { assert (G : forall r, (0 <= r <= RAND_MAX)%Z -> bpow radix2 (-64) <= coord_of Double r * coord_of Double r).
    { intros r H. pose proof (coord_double r H) as [A _]. replace (-64)%Z with (-32 + -32)%Z by lia. rewrite bpow_plus.
      replace (coord_of Double r * coord_of Double r) with (Rabs (coord_of Double r) * Rabs (coord_of Double r)) by (rewrite <- Rabs_mult; apply Rabs_right; nra).
      pose proof (bpow_gt_0 radix2 (-32)). nra. }
    pose proof (half_kept _ (G r1 H1)) as K1. pose proof (half_kept _ (G r2 H2)) as K2. pose proof (G r1 H1). pose proof (G r2 H2).
    assert (M : forall y, bpow radix2 (-64) <= y * y -> y * y / 2 <= rnd Double (y * y) -> rnd Double (rnd Double (y * y)) <= w -> y * y <= 2 * w).
    { intros y _ Ky Hy. rewrite rnd_idem in Hy. lra. }
    destruct X as [-> | ->]; (apply M; [auto | auto |]); unfold w, weight; apply rnd_le; lra. }
  assert (V : v * v <= 2 * 96).
  { rewrite S. replace (x * x * (-2 * ln w / w)) with (x * x / w * (-2 * ln w)) by (field; lra). apply Rmult_le_compat; try lra.
    - apply Rmult_le_pos; [nra | left; apply Rinv_0_lt_compat; lra].
    - apply (Rmult_le_reg_r w); [lra|]. unfold Rdiv. rewrite Rmult_assoc, Rinv_l by lra. lra. }
  apply Rabs_le. split; apply Rnot_lt_le; intros N; nra.
Qed.
Definition stored_ok {l} (g : glob l) : Prop := exists v, y2 g = Some v /\ Rabs v <= 14.
Lemma gaussian_ok l fuel std mu g v g' : honest l -> stored_ok g -> gaussian Double l fuel std mu g = Some (v, g') ->
  (exists x, v = Some x /\ Rabs (x - mu) <= 14 * Rabs std) /\ stored_ok g'.
Proof.
  intros Hl (y & Ey & By) H.
  assert (A : forall z, Rabs z <= 14 -> Rabs (mu + z * std - mu) <= 14 * Rabs std).
  { intros z Hz. replace (mu + z * std - mu) with (z * std) by ring. rewrite Rabs_mult. apply Rmult_le_compat_r; [apply Rabs_pos | exact Hz]. }
  unfold gaussian in H. destruct (use_last g).
  - injection H as <- <-. rewrite Ey. split; [eexists; split; [reflexivity | apply A, By] | exists y; auto].
  - destruct (tries Double l fuel (gen g)) as [[[[x1 x2] w] g1]|] eqn:T; [|discriminate]. injection H as <- <-.
    destruct (tries_sound _ _ _ _ _ _ _ _ T) as (r1 & r2 & g0 & -> & -> & -> & L & E1 & E2).
    assert (H1 : (0 <= r1 <= RAND_MAX)%Z) by (rewrite E1; apply Hl). assert (H2 : (0 <= r2 <= RAND_MAX)%Z) by (rewrite E2; apply Hl).
    destruct (value_bound r1 r2 _ H1 H2 L (or_introl eq_refl)) as (a & Ea & Ba). destruct (value_bound r1 r2 _ H1 H2 L (or_intror eq_refl)) as (b & Eb & Bb).
    rewrite Ea, Eb. split; [eexists; split; [reflexivity | apply A, Ba] | exists b; auto].
Qed.
Lemma perform_ok l fuel c g o g' : honest l -> stored_ok g -> perform Double l fuel c g = Some (o, g') -> stored_ok g'.
Proof.
  intros Hl S H. destruct c; cbn [perform] in H.
  - injection H as <- <-. exact S.
  - destruct (draw l (gen g)); injection H as <- <-. exact S.
  - destruct (draw l (gen g)); injection H as <- <-. exact S.
  - destruct (gaussian Double l fuel std mu g) as [[v g1]|] eqn:G; [|discriminate]. injection H as <- <-. apply (gaussian_ok _ _ _ _ _ _ _ Hl S G).
Qed.
Theorem C183_finite_partial : forall l fuel cs std mu out g v g', conforming l -> performs Double l fuel cs (glob0 l) = Some (out, g) ->
  perform Double l fuel (Gaussian std mu) g = Some ([v], g') -> exists x, v = Some x /\ Rabs (x - mu) <= 14 * Rabs std.
Proof.
  intros l fuel cs std mu out g v g' Hl R H.
  assert (S : stored_ok g).
  { assert (S0 : stored_ok (glob0 l)) by (exists 0; split; [reflexivity | rewrite Rabs_R0; lra]).
    revert out S0 R. generalize (glob0 l). induction cs as [|c cs IH]; cbn [performs]; intros g0 out S0 R; [injection R as <- <-; exact S0|].
    destruct (perform Double l fuel c g0) as [[o g1]|] eqn:P; [|discriminate]. destruct (performs Double l fuel cs g1) as [[o' g2]|] eqn:Q; [|discriminate].
    injection R as <- <-. apply (IH g1 o'); [apply (perform_ok _ _ _ _ _ _ Hl S0 P) | exact Q]. }
  cbn [perform] in H. destruct (gaussian Double l fuel std mu g) as [[x g1]|] eqn:G; [|discriminate]. injection H as <- <-.
  apply (gaussian_ok _ _ _ _ _ _ _ Hl S G).
Qed.
Print Assumptions C183_finite_partial.
(** In floats two successive draws next to the middle of the range have weight zero and give no number: here, 2^30 twice. *)
Theorem C183_float_refuted : forall l g fuel std mu, use_last g = false ->
  fst (draw l (gen g)) = 1073741824%Z -> fst (draw l (snd (draw l (gen g)))) = 1073741824%Z ->
  exists g', perform Single l (S fuel) (Gaussian std mu) g = Some ([None], g').
Proof.
  intros l g fuel std mu U D1 D2. cbn [perform]. unfold gaussian. rewrite U. cbn [tries].
  destruct (draw l (gen g)) as [r1 g1]. cbn [fst snd] in D1, D2. destruct (draw l g1) as [r2 g2]. cbn [fst snd] in D2. subst r1 r2. cbv zeta.
  rewrite coord_single_mid, weight_single_mid. destruct (Rle_dec 1 0); [lra|]. unfold scaled. destruct (Req_EM_T 0 0); [|lra]. eexists. reflexivity.
Qed.
Print Assumptions C183_float_refuted.
(** A conforming library that does so. *)
Definition middling : lib := mkLib unit (fun _ => tt) (fun g => (1073741824%Z, g)).
Example C183_float_case : conforming middling /\ exists g', perform Single middling 1 (Gaussian 1 0) (glob0 middling) = Some ([None], g').
Proof. split; [intros g; cbn; lia|]. apply C183_float_refuted; reflexivity. Qed.
Example C183_case : conforming middling /\ exists v g', perform Double middling 1 (Gaussian 1 0) (glob0 middling) = Some ([v], g').
Proof.
  split; [intros g; cbn; lia|]. cbn [perform]. unfold gaussian. cbn [glob0 use_last gen]. cbn [tries draw middling].
  cbv zeta. destruct (Rle_dec 1 _) as [L|L]; [exfalso|eexists _, _; reflexivity].
  assert (C : Rabs (coord_of Double 1073741824) <= 1 / 2).
  { unfold coord_of.
    assert (half : rnd Double (1 / 2) = 1 / 2) by apply half_id.
    assert (three : rnd Double (3 / 4) = 3 / 4) by (replace (3 / 4) with (IZR 3 * bpow radix2 (-2)) by (cbn; lra); apply rnd_id; [reflexivity | cbn; lia]).
    assert (th : rnd Double (3 / 2) = 3 / 2) by (replace (3 / 2) with (IZR 3 * bpow radix2 (-1)) by (cbn; lra); apply rnd_id; [reflexivity | cbn; lia]).
    assert (U : 1 / 2 <= unit_of Double 1073741824 <= 3 / 4).
    { unfold unit_of. rewrite (rnd_int Double 1073741824), rand_max_double by reflexivity. unfold RAND_MAX. split.
      - rewrite <- half at 1. apply rnd_le. lra.
      - rewrite <- three. apply rnd_le. lra. }
    assert (V : 1 <= rnd Double (2 * unit_of Double 1073741824) <= 3 / 2).
    { split; [rewrite <- (rnd_int Double 1) by reflexivity | rewrite <- th]; apply rnd_le; lra. }
    apply rnd_abs; [exact half|]. apply rnd_abs; [exact half|]. apply Rabs_le. lra. }
  assert (Q : rnd Double (1 / 4) = 1 / 4) by (replace (1 / 4) with (IZR 1 * bpow radix2 (-2)) by (cbn; lra); apply rnd_id; [reflexivity | cbn; lia]).
  set (x := coord_of Double 1073741824) in *. apply Rabs_le_inv in C.
  assert (S : rnd Double (x * x) <= 1 / 4) by (rewrite <- Q; apply rnd_le; nra).
  assert (W : weight Double x x <= 1 / 2) by (unfold weight; rewrite <- half_id; apply rnd_le; lra). lra.
Qed.

(** * C184: drawing a gaussian number returns *)
(** Two successive draws in the middle half of rand()'s range end the search. *)
Definition middle (r : Z) : Prop := (536870912 <= r <= 1610612735)%Z.
(** rand()'s state after [n] draws. *)
Fixpoint drawn (l : lib) (n : nat) (g : gstate l) : gstate l := match n with O => g | S n' => drawn l n' (snd (draw l g)) end.
Lemma drawn_snd l n : forall g, snd (draw l (drawn l n g)) = drawn l n (snd (draw l g)).
Proof. induction n as [|n IH]; intros g; cbn [drawn]; [reflexivity | apply IH]. Qed.
Lemma drawn_after l n : forall g, drawn l (2 * n) g = after l n g.
Proof. induction n as [|n IH]; intros g; [reflexivity|]. replace (2 * S n)%nat with (S (S (2 * n))) by lia. cbn [drawn after]. apply IH. Qed.
Lemma middle_coord k r : middle r -> Rabs (coord_of k r) <= 5 / 8.
Proof.
  intros [L U]. unfold coord_of.
  assert (T : forall k' m e, (Z.abs m < 2 ^ 24)%Z -> (-149 <= e)%Z -> rnd k' (IZR m * bpow radix2 e) = IZR m * bpow radix2 e).
  { intros k' m e Hm He. apply rnd_id; destruct k'; cbn in *; lia. }
  assert (R1 : IZR 536870912 <= rnd k (IZR r) <= IZR 1610612736).
  { split.
    - replace (IZR 536870912) with (IZR 1 * bpow radix2 29) by (cbn; lra). rewrite <- (T k 1%Z 29%Z) by lia. apply rnd_le.
      apply Rle_trans with (IZR 536870912); [cbn; lra | apply IZR_le, L].
    - replace (IZR 1610612736) with (IZR 3 * bpow radix2 29) by (cbn; lra). rewrite <- (T k 3%Z 29%Z) by lia. apply rnd_le.
      apply Rle_trans with (IZR 1610612735); [apply IZR_le, U | cbn; lra]. }
  assert (R2 : IZR 2130706432 <= rnd k (IZR RAND_MAX) <= IZR 2147483648).
  { split.
    - replace (IZR 2130706432) with (IZR 127 * bpow radix2 24) by (cbn; lra). rewrite <- (T k 127%Z 24%Z) by lia. apply rnd_le. unfold RAND_MAX. cbn; lra.
    - replace (IZR 2147483648) with (IZR 1 * bpow radix2 31) by (cbn; lra). rewrite <- (T k 1%Z 31%Z) by lia. apply rnd_le. unfold RAND_MAX. cbn; lra. }
  assert (U1 : 1 / 4 <= unit_of k r <= 13 / 16).
  { unfold unit_of. set (a := rnd k (IZR r)) in *. set (b := rnd k (IZR RAND_MAX)) in *.
    assert (B0 : 0 < / b) by (apply Rinv_0_lt_compat; lra).
    assert (I : b * / b = 1) by (apply Rinv_r; lra). split.
    - replace (1 / 4) with (IZR 1 * bpow radix2 (-2)) by (cbn; lra). rewrite <- (T k 1%Z (-2)%Z) by lia. apply rnd_le. cbn. unfold Rdiv. nra.
    - replace (13 / 16) with (IZR 13 * bpow radix2 (-4)) by (cbn; lra). rewrite <- (T k 13%Z (-4)%Z) by lia. apply rnd_le. cbn. unfold Rdiv. nra. }
  assert (V : 1 / 2 <= rnd Double (2 * unit_of k r) <= 13 / 8).
  { split.
    - replace (1 / 2) with (IZR 1 * bpow radix2 (-1)) by (cbn; lra). rewrite <- (T Double 1%Z (-1)%Z) by lia. apply rnd_le. cbn. lra.
    - replace (13 / 8) with (IZR 13 * bpow radix2 (-3)) by (cbn; lra). rewrite <- (T Double 13%Z (-3)%Z) by lia. apply rnd_le. cbn. lra. }
  assert (F : forall k', rnd k' (5 / 8) = 5 / 8).
  { intros k'. replace (5 / 8) with (IZR 5 * bpow radix2 (-3)) by (cbn; lra). apply T; lia. }
  apply rnd_abs; [apply F|]. apply rnd_abs; [apply F|]. apply Rabs_le. lra.
Qed.
Lemma middle_weight k r1 r2 : middle r1 -> middle r2 -> weight k (coord_of k r1) (coord_of k r2) < 1.
Proof.
  intros H1 H2. apply middle_coord with (k := k) in H1. apply middle_coord with (k := k) in H2.
  set (x := coord_of k r1) in *. set (y := coord_of k r2) in *. apply Rabs_le_inv in H1. apply Rabs_le_inv in H2.
  assert (T : forall m e, (Z.abs m < 2 ^ 24)%Z -> (-149 <= e)%Z -> rnd k (IZR m * bpow radix2 e) = IZR m * bpow radix2 e).
  { intros m e Hm He. apply rnd_id; destruct k; cbn in *; lia. }
  assert (F : rnd k (25 / 64) = 25 / 64) by (replace (25 / 64) with (IZR 25 * bpow radix2 (-6)) by (cbn; lra); apply T; lia).
  assert (G : rnd k (25 / 32) = 25 / 32) by (replace (25 / 32) with (IZR 25 * bpow radix2 (-5)) by (cbn; lra); apply T; lia).
  assert (A : rnd k (x * x) <= 25 / 64) by (rewrite <- F; apply rnd_le; nra).
  assert (B : rnd k (y * y) <= 25 / 64) by (rewrite <- F; apply rnd_le; nra).
  unfold weight. apply Rle_lt_trans with (25 / 32); [rewrite <- G; apply rnd_le; lra | lra].
Qed.
Theorem C184_returns : forall k l std mu g,
  use_last g = true \/ (exists n, middle (fst (draw l (drawn l (2 * n) (gen g)))) /\ middle (fst (draw l (drawn l (2 * n + 1) (gen g))))) ->
  exists fuel0 v g', forall fuel, (fuel0 <= fuel)%nat -> perform k l fuel (Gaussian std mu) g = Some ([v], g').
Proof.
  intros k l std mu g [U | (n & M1 & M2)].
  - exists 0%nat. eexists _, _. intros fuel _. cbn [perform]. unfold gaussian. rewrite U. reflexivity.
  - destruct (use_last g) eqn:U; [exists 0%nat; eexists _, _; intros fuel _; cbn [perform]; unfold gaussian; rewrite U; reflexivity|].
    assert (W : pair_weight k l (after l n (gen g)) < 1).
    { unfold pair_weight. rewrite <- drawn_after. apply middle_weight; [exact M1|].
      replace (2 * n + 1)%nat with (S (2 * n)) in M2 by lia. cbn [drawn] in M2. rewrite <- drawn_snd in M2. exact M2. }
    destruct (tries_halts k l n (gen g) W) as ([[[x1 x2] w] g1] & T). exists (S n). eexists _, _. intros fuel Hf. cbn [perform]. unfold gaussian. rewrite U.
    rewrite (tries_more _ _ _ _ _ T fuel Hf). reflexivity.
Qed.
Print Assumptions C184_returns.
(** A library that only answers 0 keeps it searching for ever. *)
Definition stuck : lib := mkLib unit (fun _ => tt) (fun g => (0%Z, g)).
Theorem C184_stuck : conforming stuck /\ forall k fuel std mu, perform k stuck fuel (Gaussian std mu) (glob0 stuck) = None.
Proof.
  split; [intros g; cbn; lia|]. intros k fuel std mu. cbn [perform]. unfold gaussian. cbn [use_last glob0 gen].
  rewrite tries_needs; [reflexivity|]. intros m _. unfold pair_weight. cbn [draw stuck fst snd].
  assert (T : forall k' z, (Z.abs z < 2 ^ 24)%Z -> rnd k' (IZR z) = IZR z) by (intros k' z Hz; apply rnd_int; destruct k'; cbn in *; lia).
  assert (C : coord_of k 0 = -1).
  { unfold coord_of. rewrite unit_0, Rmult_0_r. rewrite (T Double 0%Z) by reflexivity. rewrite Rminus_0_l, rnd_opp. rewrite (T Double 1%Z) by reflexivity.
    rewrite rnd_opp, (T k 1%Z) by reflexivity. lra. }
  rewrite C. unfold weight. replace (-1 * -1) with 1 by lra. rewrite (T k 1%Z) by reflexivity. replace (1 + 1) with 2 by lra. rewrite (T k 2%Z) by reflexivity. lra.
Qed.
Print Assumptions C184_stuck.
Example C184_case : exists n, middle (fst (draw counting (drawn counting (2 * n) 536870912%Z))) /\ middle (fst (draw counting (drawn counting (2 * n + 1) 536870912%Z))).
Proof. exists 0%nat. split; vm_compute; split; discriminate. Qed.

(** Two calls in a row give the two numbers of the polar method for the first pair of draws that falls inside the unit circle: the
    arithmetic of T is spelled out, no draw is used twice and nothing is left over. *)
Definition rounded (k : kind) (x : R) : R :=
  round radix2 (FLT_exp (match k with Single => -149 | Double => -1074 end) (match k with Single => 24 | Double => 53 end)) ZnearestE x.
Definition between_minus_one_and_one (k : kind) (r : Z) : R :=
  rounded k (rounded Double (rounded Double (2 * rounded k (rounded k (IZR r) / rounded k (IZR 2147483647))) - 1)).
Definition square_sum (k : kind) (x y : R) : R := rounded k (rounded k (x * x) + rounded k (y * y)).
Definition nth_draw (l : lib) (n : nat) (g : gstate l) : Z := fst (draw l (drawn l n g)).
Theorem C183_polar : forall k l fuel g s1 m1 s2 m2 v1 v2 g', use_last g = false ->
  performs k l fuel [Gaussian s1 m1; Gaussian s2 m2] g = Some ([v1; v2], g') ->
  exists n, let x i := between_minus_one_and_one k (nth_draw l i (gen g)) in
    (forall i, (i < n)%nat -> 1 <= square_sum k (x (2 * i)%nat) (x (2 * i + 1)%nat)) /\
    let w := square_sum k (x (2 * n)%nat) (x (2 * n + 1)%nat) in
    w < 1 /\ (w = 0 -> v1 = None /\ v2 = None) /\
    (w <> 0 -> v1 = Some (m1 + x (2 * n)%nat * sqrt (-2 * ln w / w) * s1) /\ v2 = Some (m2 + x (2 * n + 1)%nat * sqrt (-2 * ln w / w) * s2)) /\
    gen g' = drawn l (2 * n + 2) (gen g) /\ use_last g' = false.
Proof.
  intros k l fuel g s1 m1 s2 m2 v1 v2 g' U H.
  assert (T : forall fuel h x1 x2 w h', tries k l fuel h = Some (x1, x2, w, h') -> exists n, let x i := between_minus_one_and_one k (nth_draw l i h) in
    (forall i, (i < n)%nat -> 1 <= square_sum k (x (2 * i)%nat) (x (2 * i + 1)%nat)) /\ w = square_sum k (x (2 * n)%nat) (x (2 * n + 1)%nat) /\
    w < 1 /\ x1 = x (2 * n)%nat /\ x2 = x (2 * n + 1)%nat /\ h' = drawn l (2 * n + 2) h).
  { clear. induction fuel as [|fuel IH]; intros h x1 x2 w h' H; [discriminate|]. cbn [tries] in H.
    destruct (draw l h) as [r1 h1] eqn:D1. destruct (draw l h1) as [r2 h2] eqn:D2. cbv beta zeta in H.
    assert (SH : forall i, nth_draw l (S (S i)) h = nth_draw l i h2) by (intros i; unfold nth_draw; cbn [drawn]; rewrite D1; cbn [snd]; rewrite D2; reflexivity).
    assert (N0 : nth_draw l 0 h = r1) by (unfold nth_draw; cbn [drawn]; now rewrite D1).
    assert (N1 : nth_draw l 1 h = r2) by (unfold nth_draw; cbn [drawn]; rewrite D1; cbn [snd]; now rewrite D2).
    destruct (Rle_dec 1 (weight k (coord_of k r1) (coord_of k r2))) as [L|L].
    - destruct (IH _ _ _ _ _ H) as (n & A & B & C & D & E & F). exists (S n). cbv beta zeta in *.
      replace (2 * S n)%nat with (S (S (2 * n))) by lia. replace (S (S (2 * n)) + 1)%nat with (S (S (2 * n + 1))) by lia. rewrite !SH.
      repeat split; auto.
      + intros [|i] I; [change (2 * 0)%nat with 0%nat; change (0 + 1)%nat with 1%nat; rewrite N0, N1; exact L|].
        replace (2 * S i)%nat with (S (S (2 * i))) by lia. replace (S (S (2 * i)) + 1)%nat with (S (S (2 * i + 1))) by lia. rewrite !SH. apply A. lia.
      + rewrite F. replace (S (S (2 * n)) + 2)%nat with (S (S (2 * n + 2))) by lia. cbn [drawn]. rewrite D1. cbn [snd]. now rewrite D2.
    - injection H as <- <- <- <-. exists 0%nat. cbv beta zeta. change (2 * 0)%nat with 0%nat. change (0 + 1)%nat with 1%nat. change (0 + 2)%nat with 2%nat. rewrite N0, N1.
      repeat split; [intros i I; lia|apply Rnot_le_lt; exact L|]. cbn [drawn]. rewrite D1. cbn [snd]. now rewrite D2. }
  cbn [performs perform] in H. unfold gaussian at 1 in H. rewrite U in H. destruct (tries k l fuel (gen g)) as [[[[x1 x2] w] h]|] eqn:E; [|discriminate].
  unfold gaussian in H. cbn [use_last y2 gen] in H. cbn [app] in H. injection H as <- <- <-.
  destruct (T _ _ _ _ _ _ E) as (n & A & B & C & D & F & G). exists n. cbv beta zeta in *. rewrite <- B, <- D, <- F. split; [exact A|]. split; [exact C|].
  unfold scaled. split; [|split; [|split; [exact G|reflexivity]]].
  - intros Z. destruct (Req_EM_T w 0); [auto|contradiction].
  - intros Z. destruct (Req_EM_T w 0); [contradiction|auto].
Qed.
Print Assumptions C183_polar.

(** * C185: a seed determines the numbers that follow *)
Definition draws_uniform (c : call) : Prop := match c with Uniform | UniformIn _ => True | _ => False end.
(** Uniform numbers: whatever happened before. *)
Theorem C185_uniform : forall k l fuel1 fuel2 seed cs g1 g2, Forall draws_uniform cs -> exists out h1 h2,
  performs k l fuel1 (Construct seed :: cs) g1 = Some (out, h1) /\ performs k l fuel2 (Construct seed :: cs) g2 = Some (out, h2).
Proof.
  intros k l fuel1 fuel2 seed cs g1 g2 F.
  assert (A : forall h1 h2 : glob l, gen h1 = gen h2 -> exists out h1' h2', performs k l fuel1 cs h1 = Some (out, h1') /\ performs k l fuel2 cs h2 = Some (out, h2')).
  { induction F as [|c cs C F IH]; intros h1 h2 E; [eexists _, _, _; split; reflexivity|].
    destruct c; cbn in C; try contradiction; cbn [performs perform]; rewrite <- E; destruct (draw l (gen h1)) as [r g'].
    - destruct (IH (mkGlob g' (y2 h1) (use_last h1)) (mkGlob g' (y2 h2) (use_last h2)) eq_refl) as (out & a & b & P & Q). rewrite P, Q. eexists _, _, _. split; reflexivity.
    - destruct (IH (mkGlob g' (y2 h1) (use_last h1)) (mkGlob g' (y2 h2) (use_last h2)) eq_refl) as (out & a & b & P & Q). rewrite P, Q. eexists _, _, _. split; reflexivity. }
  cbn [performs perform]. destruct (A (mkGlob (start l seed) (y2 g1) (use_last g1)) (mkGlob (start l seed) (y2 g2) (use_last g2)) eq_refl) as (out & a & b & P & Q).
  rewrite P, Q. cbn [app]. eexists _, _, _. split; reflexivity.
Qed.
Print Assumptions C185_uniform.
(** Any numbers, if an even number of gaussian ones was drawn before. *)
Theorem C185_even_partial : forall k l fuel seed cs g1 g2 out h1, use_last g1 = false -> use_last g2 = false ->
  performs k l fuel (Construct seed :: cs) g1 = Some (out, h1) -> exists h2, performs k l fuel (Construct seed :: cs) g2 = Some (out, h2).
Proof.
  intros k l fuel seed cs g1 g2 out h1 U1 U2 H.
  assert (A : forall cs out (a b : glob l) a', gen a = gen b -> use_last a = use_last b -> (use_last a = true -> y2 a = y2 b) ->
    performs k l fuel cs a = Some (out, a') -> exists b', performs k l fuel cs b = Some (out, b')).
  { clear. induction cs as [|c cs IH]; intros out a b a' G U Y P; cbn [performs] in *; [injection P as <- <-; eauto|].
    destruct (perform k l fuel c a) as [[o a1]|] eqn:Pa; [|discriminate]. destruct (performs k l fuel cs a1) as [[o' a2]|] eqn:Q; [|discriminate].
    injection P as <- <-.
    assert (B : exists b1, perform k l fuel c b = Some (o, b1) /\ gen a1 = gen b1 /\ use_last a1 = use_last b1 /\ (use_last a1 = true -> y2 a1 = y2 b1)).
    { destruct c; cbn [perform] in *.
      - injection Pa as <- <-. eexists. split; [reflexivity|]. cbn. auto.
      - rewrite <- G. destruct (draw l (gen a)); injection Pa as <- <-. eexists. split; [reflexivity|]. cbn. auto.
      - rewrite <- G. destruct (draw l (gen a)); injection Pa as <- <-. eexists. split; [reflexivity|]. cbn. auto.
      - unfold gaussian in *. rewrite <- U, <- G. destruct (use_last a) eqn:Ua.
        + injection Pa as <- <-. rewrite <- (Y eq_refl). eexists. split; [reflexivity|]. cbn. repeat split; auto; discriminate.
        + destruct (tries k l fuel (gen a)) as [[[[x1 x2] w] g']|]; [|discriminate]. injection Pa as <- <-. eexists. split; [reflexivity|]. cbn. auto. }
    destruct B as (b1 & Pb & Gb & Ub & Yb). rewrite Pb. destruct (IH _ _ _ _ Gb Ub Yb Q) as (b' & Q'). rewrite Q'. eauto. }
  cbn [performs perform] in *. destruct (performs k l fuel cs (mkGlob (start l seed) (y2 g1) (use_last g1))) as [[o' a2]|] eqn:Q; [|discriminate].
  injection H as <- <-. destruct (A cs o' (mkGlob (start l seed) (y2 g1) (use_last g1)) (mkGlob (start l seed) (y2 g2) (use_last g2)) a2 eq_refl ltac:(cbn; congruence) ltac:(cbn; congruence) Q) as (b' & Q').
  rewrite Q'. eauto.
Qed.
Print Assumptions C185_even_partial.
(** After an odd number of gaussian draws the first number of a newly seeded generator does not depend on the seed: it is left over from
    whoever drew before. *)
Theorem C185_left_over_refuted : forall k l fuel std mu g v g1, use_last g = false -> perform k l fuel (Gaussian std mu) g = Some ([v], g1) ->
  exists w, forall seed std' mu', exists g2, performs k l fuel [Construct seed; Gaussian std' mu'] g1 =
    Some ([match w with Some x => Some (mu' + x * std') | None => None end], g2).
Proof.
  intros k l fuel std mu g v g1 U H. cbn [perform] in H. unfold gaussian in H. rewrite U in H.
  destruct (tries k l fuel (gen g)) as [[[[x1 x2] w] g']|]; [|discriminate]. injection H as <- <-. exists (scaled w x2). intros seed std' mu'.
  cbn [performs perform]. unfold gaussian. cbn [use_last y2 gen]. eexists. reflexivity.
Qed.
Print Assumptions C185_left_over_refuted.
Example C185_case : exists v g1, perform Double middling 1 (Gaussian 1 0) (glob0 middling) = Some ([v], g1).
Proof. exact (proj2 C183_case). Qed.

(** * C186: generators do not influence each other *)
(** Constructing a second generator restarts the first: with the same seed it repeats its number. *)
Theorem C186_shared_refuted : forall k l fuel seed g, exists v g', performs k l fuel [Construct seed; Uniform; Construct seed; Uniform] g = Some ([Some v; Some v], g').
Proof. intros k l fuel seed g. cbn [performs perform gen y2 use_last]. destruct (draw l (start l seed)) as [r g1]. cbn [app gen y2 use_last]. eexists _, _. reflexivity. Qed.
Print Assumptions C186_shared_refuted.

(** A program that never seeds draws what one that seeds with 1 first does. *)
Theorem C185_unseeded : forall k l fuel cs, performs k l fuel (Construct 1 :: cs) (glob0 l) = performs k l fuel cs (glob0 l).
Proof. intros k l fuel cs. cbn [performs perform]. unfold glob0 at 1 2. cbn [y2 use_last]. fold (glob0 l). destruct (performs k l fuel cs (glob0 l)) as [[o g]|]; reflexivity. Qed.
Print Assumptions C185_unseeded.

(** C186, continued. *)
(** What remains: the uniform numbers after the latest construction are those of its seed alone, whatever was constructed and drawn before. *)
Theorem C186_latest_seed_partial : forall k l fuel cs1 seed cs2 g g0 o g', (forall s m, ~ In (Gaussian s m) cs2) ->
  performs k l fuel (cs1 ++ Construct seed :: cs2) g = Some (o, g') ->
  exists o1 o2 g2, o = o1 ++ o2 /\ performs k l fuel (Construct seed :: cs2) g0 = Some (o2, g2) /\ gen g2 = gen g'.
Proof.
  intros k l fuel cs1 seed cs2. revert cs1.
  assert (S : forall cs2 (ga gb : glob l) o g', (forall s m, ~ In (Gaussian s m) cs2) -> gen ga = gen gb -> performs k l fuel cs2 ga = Some (o, g') ->
     exists g2, performs k l fuel cs2 gb = Some (o, g2) /\ gen g2 = gen g').
  { clear. induction cs2 as [|c cs2 IH]; intros ga gb o g' NG E P; cbn [performs] in *.
    - injection P as <- <-. exists gb. split; [reflexivity|congruence].
    - assert (NG' : forall s m, ~ In (Gaussian s m) cs2) by (intros s m J; apply (NG s m); now right).
      destruct c as [s| |r|s m]; cbn [perform] in *.
      + destruct (performs k l fuel cs2 (mkGlob (start l s) (y2 ga) (use_last ga))) as [[o1 g1]|] eqn:Q; [|discriminate]. injection P as <- <-.
        destruct (IH (mkGlob (start l s) (y2 ga) (use_last ga)) (mkGlob (start l s) (y2 gb) (use_last gb)) _ _ NG' eq_refl Q) as (g2 & -> & X). eauto.
      + rewrite <- E. destruct (draw l (gen ga)) as [r gn]. destruct (performs k l fuel cs2 (mkGlob gn (y2 ga) (use_last ga))) as [[o1 g1]|] eqn:Q; [|discriminate]. injection P as <- <-.
        destruct (IH (mkGlob gn (y2 ga) (use_last ga)) (mkGlob gn (y2 gb) (use_last gb)) _ _ NG' eq_refl Q) as (g2 & -> & X). eauto.
      + rewrite <- E. destruct (draw l (gen ga)) as [r' gn]. destruct (performs k l fuel cs2 (mkGlob gn (y2 ga) (use_last ga))) as [[o1 g1]|] eqn:Q; [|discriminate]. injection P as <- <-.
        destruct (IH (mkGlob gn (y2 ga) (use_last ga)) (mkGlob gn (y2 gb) (use_last gb)) _ _ NG' eq_refl Q) as (g2 & -> & X). eauto.
      + exfalso. apply (NG s m). now left. }
  induction cs1 as [|c cs1 IH]; intros g g0 o g' NG P; cbn [app performs] in P.
  - cbn [perform] in P. destruct (performs k l fuel cs2 _) as [[o1 g1]|] eqn:Q in P; [|discriminate]. injection P as <- <-.
    destruct (S cs2 (mkGlob (start l seed) (y2 g) (use_last g)) (mkGlob (start l seed) (y2 g0) (use_last g0)) _ _ NG eq_refl Q) as (g2 & R & X). exists [], o1, g2. split; [reflexivity|]. cbn [performs perform]. rewrite R. split; [reflexivity|exact X].
  - destruct (perform k l fuel c g) as [[oa ga]|]; [|discriminate]. destruct (performs k l fuel (cs1 ++ Construct seed :: cs2) ga) as [[ob gb]|] eqn:Q; [|discriminate].
    injection P as <- <-. destruct (IH ga g0 _ _ NG Q) as (o1 & o2 & g2 & -> & R & X). exists (oa ++ o1), o2, g2. rewrite app_assoc. auto.
Qed.
Print Assumptions C186_latest_seed_partial.

(** A case meeting the hypotheses of C186. *)
Example C186_case : exists o g', performs Double counting 1 ([Uniform; Construct 9; Uniform] ++ Construct 5%Z :: [Uniform; UniformIn 3]) (glob0 counting) = Some (o, g') /\ length o = 4%nat /\ gen g' = 7%Z.
Proof. eexists _, _. split; [cbn; reflexivity|]. split; reflexivity. Qed.
