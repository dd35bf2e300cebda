(** C263: mathematical constants. *)
From Flocq Require Import Core.
From Verif Require Import RBase ConstModel ConstProofs.
Open Scope R_scope.

(** [y] is the number nearest to [x] among those with [p] binary digits: no other such number is as near. *)
Definition digits (p : Z) (x : R) : Prop := exists m e : Z, (Z.abs m < 2 ^ p)%Z /\ x = IZR m * powerRZ 2 e.
Definition nearest (p : Z) (x y : R) : Prop := digits p y /\ forall z, digits p z -> z <> y -> Rabs (x - y) < Rabs (x - z).

Lemma bpow_powerRZ e : bpow radix2 e = powerRZ 2 e.
Proof. now rewrite bpow_powerRZ. Qed.
Lemma round_by prec emin x m e : Prec_gt_0 prec -> (emin <= e)%Z -> bpow radix2 (e + prec - 1) <= x < bpow radix2 (e + prec) -> Rabs (x * bpow radix2 (- e) - IZR m) < / 2 ->
  round radix2 (FLT_exp emin prec) ZnearestE x = IZR m * bpow radix2 e.
Proof.
  intros HP HE HX HM. assert (P : 0 < x) by (pose proof (bpow_gt_0 radix2 (e + prec - 1)); lra).
  assert (C : cexp radix2 (FLT_exp emin prec) x = e).
  { unfold cexp. rewrite (mag_unique_pos radix2 x (e + prec) HX). unfold FLT_exp. lia. }
  unfold round, scaled_mantissa, F2R. rewrite C. cbn [Fnum Fexp]. f_equal. f_equal. apply Znearest_imp. exact HM.
Qed.
Lemma bpow_int e k : (0 <= k)%Z -> bpow radix2 (e + k) = IZR (2 ^ k) * bpow radix2 e.
Proof. intros K. rewrite bpow_plus, Rmult_comm. f_equal. rewrite <- (IZR_Zpower radix2) by exact K. reflexivity. Qed.
Lemma nearest_by p x m e : (0 < p)%Z -> (2 ^ (p - 1) < m < 2 ^ p)%Z -> Rabs (x - IZR m * bpow radix2 e) < / 2 * bpow radix2 e -> nearest p x (IZR m * bpow radix2 e).
Proof.
  intros HP HM HX. set (u := bpow radix2 e) in *. assert (U : 0 < u) by apply bpow_gt_0. split.
  - exists m, e. split; [lia|]. now rewrite <- bpow_powerRZ.
  - intros z (m' & e' & M' & ->) NE. rewrite <- bpow_powerRZ in *.
    assert (D : u <= Rabs (IZR m * u - IZR m' * bpow radix2 e')).
    { destruct (Z.le_gt_cases e e') as [L|L].
      - replace e' with (e + (e' - e))%Z in * by lia. rewrite bpow_int in * by lia. fold u in NE |- *.
        replace (IZR m * u - IZR m' * (IZR (2 ^ (e' - e)) * u)) with (IZR (m - m' * 2 ^ (e' - e)) * u) in * by (rewrite minus_IZR, mult_IZR; ring).
        rewrite Rabs_mult, (Rabs_pos_eq u) by lra. rewrite <- (Rmult_1_l u) at 1. apply Rmult_le_compat_r; [lra|].
        rewrite <- abs_IZR. apply IZR_le. assert (m - m' * 2 ^ (e' - e) <> 0)%Z; [|lia]. intros Q. apply NE.
        replace m with (m' * 2 ^ (e' - e))%Z by lia. rewrite mult_IZR. ring.
      - assert (B : Rabs (IZR m' * bpow radix2 e') <= IZR (2 ^ (p - 1)) * u).
        { rewrite Rabs_mult, (Rabs_pos_eq (bpow radix2 e')) by apply bpow_ge_0. rewrite <- abs_IZR.
          unfold u. rewrite <- bpow_int by lia. replace (e + (p - 1))%Z with (e' + (e - e' - 1) + p)%Z by lia.
          rewrite (bpow_int (e' + (e - e' - 1))) by lia.
          apply Rmult_le_compat; [apply IZR_le; lia|apply bpow_ge_0|apply IZR_le; lia|apply bpow_le; lia]. }
        assert (G : IZR (2 ^ (p - 1)) * u + u <= IZR m * u).
        { rewrite <- (Rmult_1_l u) at 2. rewrite <- Rmult_plus_distr_r. apply Rmult_le_compat_r; [lra|]. rewrite <- (plus_IZR _ 1). apply IZR_le. lia. }
        apply Rabs_le_inv in B. rewrite Rabs_pos_eq; lra. }
    assert (T : Rabs (IZR m * u - IZR m' * bpow radix2 e') <= Rabs (x - IZR m * u) + Rabs (x - IZR m' * bpow radix2 e')).
    { replace (IZR m * u - IZR m' * bpow radix2 e') with (- (x - IZR m * u) + (x - IZR m' * bpow radix2 e')) by ring.
      rewrite <- (Rabs_Ropp (x - IZR m * u)). apply Rabs_triang. }
    lra.
Qed.
Ltac pows := repeat match goal with |- context [bpow radix2 ?z] => let n := eval vm_compute in z in
    lazymatch n with
    | Z.neg ?q => let v := eval vm_compute in (2 ^ (Z.pos q))%Z in change (bpow radix2 z) with (/ IZR v)
    | _ => let v := eval vm_compute in (2 ^ n)%Z in change (bpow radix2 z) with (IZR v)
    end end.
Ltac rounds m e := apply (round_by _ _ _ m e); [easy|lia|pows; lra|pows; apply Rabs_def1; lra].
Lemma v_pi : c_pi = 7074237752028440 * bpow radix2 (-51).
Proof. unfold c_pi, to_d. rounds 7074237752028440%Z (-51)%Z. Qed.
Lemma v_two_pi : c_two_pi = 7074237752028440 * bpow radix2 (-50).
Proof. unfold c_two_pi, to_d. rewrite v_pi. rounds 7074237752028440%Z (-50)%Z. Qed.
Lemma v_pi_2 : c_pi_2 = 7074237752028440 * bpow radix2 (-52).
Proof. unfold c_pi_2, to_d. rewrite v_pi. rounds 7074237752028440%Z (-52)%Z. Qed.
Lemma v_pi_4 : c_pi_4 = 7074237752028440 * bpow radix2 (-53).
Proof. unfold c_pi_4, to_d. rewrite v_pi. rounds 7074237752028440%Z (-53)%Z. Qed.
Lemma v_pi_f : c_pi_f = 13176795 * bpow radix2 (-22).
Proof. unfold c_pi_f, to_s. rewrite v_pi. rounds 13176795%Z (-22)%Z. Qed.
Lemma v_two_pi_f : c_two_pi_f = 13176795 * bpow radix2 (-21).
Proof. unfold c_two_pi_f, to_s. rewrite v_two_pi. rounds 13176795%Z (-21)%Z. Qed.
Lemma v_pi_2_f : c_pi_2_f = 13176795 * bpow radix2 (-23).
Proof. unfold c_pi_2_f, to_s. rewrite v_pi_2. rounds 13176795%Z (-23)%Z. Qed.
Lemma v_pi_4_f : c_pi_4_f = 13176795 * bpow radix2 (-24).
Proof. unfold c_pi_4_f, to_s. rewrite v_pi_4. rounds 13176795%Z (-24)%Z. Qed.

(** Each of the eight constants is the double or float nearest to the number it is named after. *)
Theorem C263_nearest :
  nearest 53 PI c_pi /\ nearest 53 (2 * PI) c_two_pi /\ nearest 53 (PI / 2) c_pi_2 /\ nearest 53 (PI / 4) c_pi_4 /\
  nearest 24 PI c_pi_f /\ nearest 24 (2 * PI) c_two_pi_f /\ nearest 24 (PI / 2) c_pi_2_f /\ nearest 24 (PI / 4) c_pi_4_f.
Proof.
  rewrite v_pi, v_two_pi, v_pi_2, v_pi_4, v_pi_f, v_two_pi_f, v_pi_2_f, v_pi_4_f. pose proof pi_bounds as B.
  repeat (split; [apply nearest_by; [lia|split; reflexivity|pows; apply Rabs_def1; lra]|]). apply nearest_by; [lia|split; reflexivity|pows; apply Rabs_def1; lra].
Qed.
Print Assumptions C263_nearest.
(** The doubles lie below the numbers and the floats above: an angle equal to the float pi is outside the range up to the double pi. *)
Theorem C263_order : c_pi < PI < c_pi_f /\ c_two_pi < 2 * PI < c_two_pi_f /\ c_pi_2 < PI / 2 < c_pi_2_f /\ c_pi_4 < PI / 4 < c_pi_4_f /\ PI - c_pi < / 2 ^ 52.
Proof.
  rewrite v_pi, v_two_pi, v_pi_2, v_pi_4, v_pi_f, v_two_pi_f, v_pi_2_f, v_pi_4_f. pose proof pi_bounds as B. pows.
  replace (2 ^ 52) with 4503599627370496 by (rewrite pow_IZR; reflexivity). repeat split; lra.
Qed.
Print Assumptions C263_order.
(** The multiples are exact multiples of the constant pi, in both precisions. *)
Theorem C263_multiples : c_two_pi = 2 * c_pi /\ c_pi = 2 * c_pi_2 /\ c_pi_2 = 2 * c_pi_4 /\ c_two_pi_f = 2 * c_pi_f /\ c_pi_f = 2 * c_pi_2_f /\ c_pi_2_f = 2 * c_pi_4_f.
Proof. rewrite v_pi, v_two_pi, v_pi_2, v_pi_4, v_pi_f, v_two_pi_f, v_pi_2_f, v_pi_4_f. pows. repeat split; lra. Qed.
Print Assumptions C263_multiples.
Example C263_case : nearest 2 (33 / 10) (3 * bpow radix2 0).
Proof. apply nearest_by; [lia|split; reflexivity|pows; apply Rabs_def1; lra]. Qed.
