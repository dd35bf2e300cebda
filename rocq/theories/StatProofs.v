(** Specifications and lemmas for the statistics. *)
From Flocq Require Import Core.
From Verif Require Import RBase AngleProofs StatModel.
Open Scope R_scope.

(** * Batch statistics *)

Fixpoint total (f : R -> R) (l : list R) : R := match l with [] => 0 | x :: tl => f x + total f tl end.
Definition count (l : list R) : R := INR (length l).
(** The arithmetic mean and the unbiased sample variance, as in a textbook; 0 where they are not defined. *)
Definition sample_mean (l : list R) : R := if Nat.eqb (length l) 0 then 0 else total (fun x => x) l / count l.
Definition sample_variance (l : list R) : R :=
  if Nat.leb (length l) 1 then 0
  else total (fun x => (x - sample_mean l) * (x - sample_mean l)) l / (count l - 1).
(** The samples since the last clear. *)
Fixpoint samples (acc : list R) (calls : list stats_call) : list R :=
  match calls with
  | [] => acc
  | Push x :: tl => samples (acc ++ [x]) tl
  | Clear :: tl => samples [] tl
  end.

Lemma total_app f a b : total f (a ++ b) = total f a + total f b.
Proof. induction a as [|x a IH]; cbn; [ring|rewrite IH; ring]. Qed.
Lemma total_sq m l : total (fun x => (x - m) * (x - m)) l = total (fun x => x * x) l - 2 * m * total (fun x => x) l + count l * (m * m).
Proof.
  unfold count. induction l as [|x l IH]; [cbn; ring|]. cbn [total length]. rewrite IH, S_INR. ring.
Qed.
Definition ssd (l : list R) : R := total (fun x => (x - sample_mean l) * (x - sample_mean l)) l.

Lemma count_snoc l x : count (l ++ [x]) = count l + 1.
Proof. unfold count. rewrite app_length. cbn [length]. rewrite plus_INR. reflexivity. Qed.
Lemma mean_nonempty l : l <> [] -> 0 < count l /\ sample_mean l = total (fun x => x) l / count l.
Proof.
  intros N. destruct l as [|x l]; [contradiction|]. split; [|reflexivity]. unfold count. cbn [length]. rewrite S_INR. pose proof (pos_INR (length l)). lra.
Qed.
Lemma snoc_nonempty {A} (l : list A) x : l ++ [x] <> [].
Proof. destruct l; discriminate. Qed.

Lemma mean_step l x : l <> [] -> sample_mean (l ++ [x]) = sample_mean l + (x - sample_mean l) / (count l + 1).
Proof.
  intros N. destruct (mean_nonempty l N) as [P ->]. destruct (mean_nonempty (l ++ [x]) (snoc_nonempty l x)) as [_ ->].
  rewrite count_snoc, total_app. cbn [total]. field. lra.
Qed.
Lemma ssd_step l x : l <> [] -> ssd (l ++ [x]) = ssd l + (x - sample_mean l) * (x - sample_mean (l ++ [x])).
Proof.
  intros N. unfold ssd. rewrite !total_sq, (mean_step l x N), count_snoc, !total_app. cbn [total].
  destruct (mean_nonempty l N) as [P ->]. field. lra.
Qed.

(** What the members hold after the samples [l] since the last clear. *)
Definition stats_inv (l : list R) (s : stats) : Prop :=
  number s = count l /\
  (l <> [] -> old_mean s = Some (sample_mean l) /\ new_mean s = Some (sample_mean l) /\ old_var s = Some (ssd l)) /\
  ((2 <= length l)%nat -> new_var s = Some (ssd l)).

Lemma push_inv l s x : stats_inv l s -> exists s', stats_push s x = FOk s' /\ stats_inv (l ++ [x]) s'.
Proof.
  intros (N & M & V). unfold stats_push. rewrite N. destruct (Req_EM_T (count l + 1) 1) as [E|E].
  - assert (L : l = []). { destruct l as [|y l]; [reflexivity|]. destruct (mean_nonempty (y :: l)) as [P _]; [discriminate|]. lra. }
    subst l. eexists. split; [reflexivity|]. unfold stats_inv. cbn [number old_mean old_var new_mean new_var app].
    split; [unfold count; cbn; lra|]. split.
    + intros _. unfold sample_mean, ssd, sample_mean, count. cbn. repeat split; f_equal; field.
    + cbn. lia.
  - assert (NE : l <> []) by (intros ->; apply E; unfold count; cbn; lra). destruct (M NE) as (OM & NM & OV). destruct (mean_nonempty l NE) as [P _].
    rewrite OM. cbn [rd fbind]. rewrite fdiv_ok by lra. cbn [fbind]. rewrite OV. cbn [rd fbind]. eexists. split; [reflexivity|].
    unfold stats_inv. cbn [number old_mean old_var new_mean new_var]. rewrite count_snoc, <- (mean_step l x NE), <- (ssd_step l x NE). auto.
Qed.

Lemma run_inv : forall calls l s, stats_inv l s -> exists s', stats_run s calls = FOk s' /\ stats_inv (samples l calls) s'.
Proof.
  induction calls as [|[x|] tl IH]; intros l s I.
  - exists s. auto.
  - destruct (push_inv l s x I) as (s' & E & I'). cbn [stats_run samples]. rewrite E. cbn [fbind]. now apply IH.
  - cbn [stats_run samples]. apply IH. unfold stats_inv, stats_clear, count. cbn. split; [reflexivity|]. split; [contradiction|lia].
Qed.

Lemma inv_queries l s : stats_inv l s ->
  stats_size s = count l /\ stats_mean s = FOk (sample_mean l) /\ stats_variance s = FOk (sample_variance l).
Proof.
  intros (N & M & V). split; [exact N|]. unfold stats_mean, stats_variance. rewrite N. split.
  - destruct l as [|x l]; [unfold count; cbn; destruct (Rlt_dec 0 0); [lra|reflexivity]|]. destruct (M ltac:(discriminate)) as (_ & -> & _).
    destruct (mean_nonempty (x :: l) ltac:(discriminate)) as [P _]. destruct (Rlt_dec 0 (count (x :: l))); [reflexivity|lra].
  - unfold sample_variance. destruct (Nat.leb_spec (length l) 1) as [L|L].
    + destruct (Rlt_dec 1 (count l)) as [C|C]; [|reflexivity]. exfalso. unfold count in C. apply le_INR in L. cbn in L. lra.
    + assert (C : 1 < count l) by (unfold count; apply lt_INR in L; exact L). destruct (Rlt_dec 1 (count l)); [|lra].
      rewrite V by lia. cbn [rd fbind]. rewrite fdiv_ok by lra. reflexivity.
Qed.

(** * The counter in floating point *)

Lemma count_up (prec emin : Z) (k : nat) : (1 < prec)%Z -> (emin <= 0)%Z ->
  float_count (round radix2 (FLT_exp emin prec) ZnearestE) k = IZR (Z.min (Z.of_nat k) (2 ^ prec)).
Proof.
  intros P E. assert (PP : Prec_gt_0 prec) by (unfold Prec_gt_0; lia).
  assert (POS : (0 < 2 ^ prec)%Z) by (apply Z.pow_pos_nonneg; lia).
  assert (INT : forall n, (0 <= n <= 2 ^ prec)%Z -> generic_format radix2 (FLT_exp emin prec) (IZR n)).
  { intros n [N0 N1]. destruct (Z.eq_dec n (2 ^ prec)) as [->|NE].
    - change 2%Z with (radix_val radix2) at 1. rewrite IZR_Zpower by lia. apply generic_format_bpow. unfold FLT_exp. lia.
    - apply generic_format_FLT. exists (Float radix2 n 0); cbn; [unfold F2R; cbn; ring| |lia]. rewrite Z.abs_eq by lia. change (radix_val radix2 ^ prec)%Z with (2 ^ prec)%Z. lia. }
  induction k as [|k IH]; [cbn [float_count]; f_equal; lia|]. cbn [float_count]. rewrite IH, <- plus_IZR.
  destruct (Z.le_gt_cases (Z.of_nat k + 1) (2 ^ prec)) as [L|L].
  - replace (Z.min (Z.of_nat k) (2 ^ prec) + 1)%Z with (Z.min (Z.of_nat (S k)) (2 ^ prec)) by lia.
    apply round_generic; [apply valid_rnd_N|]. apply INT. lia.
  - replace (Z.min (Z.of_nat k) (2 ^ prec)) with (2 ^ prec)%Z by lia. replace (Z.min (Z.of_nat (S k)) (2 ^ prec)) with (2 ^ prec)%Z by lia.
    (* 2^prec + 1 is half way between 2^prec and 2^prec + 2; the even mantissa is the one of 2^prec *)
    assert (MAG : mag radix2 (IZR (2 ^ prec + 1)) = (prec + 1)%Z :> Z).
    { apply mag_unique. rewrite Rabs_pos_eq by (apply IZR_le; lia). replace (prec + 1 - 1)%Z with prec by lia.
      rewrite <- !IZR_Zpower by lia. change (radix_val radix2) with 2%Z. split; [apply IZR_le; lia|apply IZR_lt].
      rewrite Z.pow_add_r by lia. change (2 ^ 1)%Z with 2%Z. assert (2 ^ 1 < 2 ^ prec)%Z by (apply Z.pow_lt_mono_r; lia). lia. }
    unfold round, scaled_mantissa, cexp, F2R. cbn [Fnum Fexp]. rewrite MAG.
    replace (FLT_exp emin prec (prec + 1)) with 1%Z by (unfold FLT_exp; lia).
    set (h := (2 ^ (prec - 1))%Z). assert (H : (2 ^ prec = 2 * h)%Z) by (unfold h; rewrite <- Z.pow_succ_r by lia; f_equal; lia).
    assert (HE : exists g, h = (2 * g)%Z) by (exists (2 ^ (prec - 2))%Z; unfold h; rewrite <- Z.pow_succ_r by lia; f_equal; lia).
    assert (X : IZR (2 ^ prec + 1) * bpow radix2 (- (1)) = IZR h + / 2) by (rewrite H, plus_IZR, mult_IZR; cbn; lra).
    rewrite X. assert (FL : Zfloor (IZR h + / 2) = h) by (apply Zfloor_imp; rewrite plus_IZR; lra).
    assert (Q : ZnearestE (IZR h + / 2) = h).
    { unfold Znearest. rewrite FL. replace (IZR h + / 2 - IZR h) with (/ 2) by ring. rewrite Rcompare_Eq by reflexivity.
      destruct HE as [g ->]. rewrite Z.even_mul. cbn. reflexivity. }
    rewrite Q, H, mult_IZR. cbn. ring.
Qed.

(** * Covariance ellipses *)

(** The eigenvalue equation M v = l v for the symmetric matrix [a b; b d]. *)
Definition eigen (a b d l : R) (v : R * R) : Prop :=
  a * fst v + b * snd v = l * fst v /\ b * fst v + d * snd v = l * snd v.
Definition dot (u v : R * R) : R := fst u * fst v + snd u * snd v.

Lemma normalize_ok x y : (x <> 0 \/ y <> 0) ->
  exists k, k <> 0 /\ normalize (x, y) = FOk (k * x, k * y) /\ (k * x) * (k * x) + (k * y) * (k * y) = 1.
Proof.
  intros NZ. unfold normalize. assert (P : 0 < x * x + y * y) by (destruct NZ; nra).
  destruct (Rlt_dec 0 (x * x + y * y)); [|lra]. rewrite fsqrt_ok by lra. cbn [fbind].
  assert (SP : 0 < sqrt (x * x + y * y)) by now apply sqrt_lt_R0. repeat (rewrite fdiv_ok by lra; cbn [fbind]).
  exists (/ sqrt (x * x + y * y)). split; [apply Rinv_neq_0_compat; lra|]. split; [f_equal; apply f_equal2; unfold Rdiv; ring|].
  transitivity ((x * x + y * y) / (sqrt (x * x + y * y) * sqrt (x * x + y * y))); [field; lra|]. rewrite sqrt_sqrt by lra. field. lra.
Qed.

Lemma disc_pos a b d : 0 <= (a + d) * (a + d) / 4 - a * d + b * b.
Proof.
  replace ((a + d) * (a + d) / 4 - a * d + b * b) with (Rsqr ((a - d) / 2) + Rsqr b) by (unfold Rsqr; field).
  pose proof (Rle_0_sqr ((a - d) / 2)). pose proof (Rle_0_sqr b). lra.
Qed.

Lemma compute_spec a b d : 0 <= a -> 0 <= d -> b * b <= a * d ->
  exists e, ellipse_compute a b b d = FOk e /\
    0 <= len1 e <= len0 e /\
    len0 e * len0 e + len1 e * len1 e = a + d /\ (len0 e * len0 e) * (len1 e * len1 e) = a * d - b * b /\
    eigen a b d (len0 e * len0 e) (ax0 e) /\ eigen a b d (len1 e * len1 e) (ax1 e) /\
    dot (ax0 e) (ax0 e) = 1 /\ dot (ax1 e) (ax1 e) = 1 /\ dot (ax0 e) (ax1 e) = 0.
Proof.
  intros A D DET. pose proof (disc_pos a b d) as DP. set (disc := (a + d) * (a + d) / 4 - a * d + b * b) in *.
  unfold ellipse_compute. fold disc. rewrite fsqrt_ok by exact DP. cbn [fbind].
  pose proof (sqrt_pos disc) as TP. pose proof (sqrt_sqrt disc DP) as TT. set (t := sqrt disc) in *.
  assert (TL : t <= (a + d) / 2). { apply Rsqr_incr_0_var; [|lra]. unfold Rsqr. rewrite TT. unfold disc. lra. }
  rewrite fsqrt_ok by lra. cbn [fbind]. rewrite fsqrt_ok by lra. cbn [fbind].
  pose proof (sqrt_sqrt ((a + d) / 2 + t) ltac:(lra)) as S0. pose proof (sqrt_sqrt ((a + d) / 2 - t) ltac:(lra)) as S1.
  pose proof (sqrt_pos ((a + d) / 2 - t)) as P1. assert (OR : sqrt ((a + d) / 2 - t) <= sqrt ((a + d) / 2 + t)) by (apply sqrt_le_1_alt; lra).
  set (l0 := sqrt ((a + d) / 2 + t)) in *. set (l1 := sqrt ((a + d) / 2 - t)) in *.
  assert (TR : l0 * l0 + l1 * l1 = a + d) by (rewrite S0, S1; field).
  assert (DT : (l0 * l0) * (l1 * l1) = a * d - b * b).
  { rewrite S0, S1. transitivity ((a + d) * (a + d) / 4 - t * t); [field|]. rewrite TT. unfold disc. field. }
  (* both squared lengths solve the characteristic equation *)
  assert (CH : forall l, l = l0 * l0 \/ l = l1 * l1 -> (l - a) * (l - d) = b * b).
  { intros l H. assert (Q : (l - l0 * l0) * (l - l1 * l1) = 0) by (destruct H as [-> | ->]; ring).
    assert (X : (l - l0 * l0) * (l - l1 * l1) = l * l - (l0 * l0 + l1 * l1) * l + (l0 * l0) * (l1 * l1)) by ring. rewrite TR, DT in X.
    assert (Y : (l - a) * (l - d) - b * b = 0). { transitivity (l * l - (a + d) * l + (a * d - b * b)); [ring|]. now rewrite <- X. } lra. }
  unfold raw_axes. destruct (Req_EM_T b 0) as [B|B].
  - rewrite B in *. assert (LA : (l0 * l0 = a /\ l1 * l1 = d /\ d <= a) \/ (l0 * l0 = d /\ l1 * l1 = a /\ a <= d)).
    { assert (LE : l1 * l1 <= l0 * l0) by (rewrite S0, S1; lra). pose proof (CH _ (or_introl eq_refl)) as C0. rewrite Rmult_0_l in C0.
      apply Rmult_integral in C0. destruct C0 as [C0|C0]; [left|right]; lra. }
    destruct (Rlt_dec d a) as [G|G].
    + destruct LA as [LA|LA]; [|lra]. destruct LA as (L0 & L1 & _).
      destruct (normalize_ok 1 0) as (k0 & K0 & -> & U0); [left; lra|]. cbn [fbind]. destruct (normalize_ok 0 1) as (k1 & K1 & -> & U1); [right; lra|]. cbn [fbind].
      eexists. split; [reflexivity|]. cbn [len0 len1 ax0 ax1]. unfold eigen, dot. cbn [fst snd]. rewrite L0, L1 in *. repeat split; try assumption; try lra.
    + assert (L0 : l0 * l0 = d) by (destruct LA as [LA|LA]; lra). assert (L1 : l1 * l1 = a) by (destruct LA as [LA|LA]; lra).
      destruct (normalize_ok 0 1) as (k0 & K0 & -> & U0); [right; lra|]. cbn [fbind]. destruct (normalize_ok 1 0) as (k1 & K1 & -> & U1); [left; lra|]. cbn [fbind].
      eexists. split; [reflexivity|]. cbn [len0 len1 ax0 ax1]. unfold eigen, dot. cbn [fst snd]. rewrite L0, L1 in *. repeat split; try assumption; try lra.
  - destruct (normalize_ok (l0 * l0 - d) b) as (k0 & K0 & -> & U0); [right; exact B|]. cbn [fbind].
    destruct (normalize_ok (l1 * l1 - d) b) as (k1 & K1 & -> & U1); [right; exact B|]. cbn [fbind].
    eexists. split; [reflexivity|]. cbn [len0 len1 ax0 ax1]. unfold eigen, dot. cbn [fst snd].
    pose proof (CH _ (or_introl eq_refl)) as C0. pose proof (CH _ (or_intror eq_refl)) as C1.
    split; [lra|]. split; [exact TR|]. split; [exact DT|].
    set (m0 := l0 * l0) in *. set (m1 := l1 * l1) in *.
    split; [|split; [|split; [|split]]].
    + split.
      * transitivity (k0 * (a * (m0 - d) + b * b)); [ring|]. rewrite <- C0. ring.
      * ring.
    + split.
      * transitivity (k1 * (a * (m1 - d) + b * b)); [ring|]. rewrite <- C1. ring.
      * ring.
    + exact U0.
    + exact U1.
    + transitivity (k0 * k1 * (m0 * m1 - d * (m0 + m1) + d * d + b * b)); [ring|]. rewrite DT, TR. ring.
Qed.

(** The points of the ellipse of a covariance matrix M = [a b; b d]: p' M^-1 p = 1, multiplied out by det M. *)
Definition on_ellipse (a b d x y : R) : Prop := d * (x * x) - 2 * b * (x * y) + a * (y * y) = a * d - b * b.

Lemma atan2_1 T : atan2 T 1 = atan T.
Proof. unfold atan2. destruct (Rlt_dec 0 1); [|lra]. f_equal. field. Qed.
Lemma atan2_0_1 : atan2 0 1 = 0.
Proof. rewrite atan2_1. apply atan_0. Qed.
Lemma atan_cs T : 0 < cos (atan T) /\ sin (atan T) = T * cos (atan T) /\ cos (atan T) * cos (atan T) * (1 + T * T) = 1.
Proof.
  assert (C : 0 < cos (atan T)) by (destruct (atan_bound T); apply cos_gt_0; lra). split; [exact C|].
  assert (S' : sin (atan T) = T * cos (atan T)).
  { pose proof (tan_atan T) as H. unfold tan in H. rewrite <- H at 2. field. lra. }
  split; [exact S'|]. pose proof (sin2_cos2 (atan T)) as H. unfold Rsqr in H. rewrite S' in H. lra.
Qed.

Lemma intercept_x a b d e : 0 < a -> 0 < d -> b * b < a * d -> ellipse_compute a b b d = FOk e -> fst (ax0 e) <> 0 ->
  exists i0 i1, ellipse_intercepts e = FOk (i0, i1) /\ 0 < i0 /\ on_ellipse a b d i0 0.
Proof.
  intros A D DET E NZ. destruct (compute_spec a b d) as (e' & E' & L & TR & DT & EV & _ & U & _); [lra..|].
  rewrite E in E'. injection E' as <-. unfold ellipse_intercepts, ellipse_rotation, dot in *.
  destruct (ax0 e) as [c s]. cbn [fst snd] in *. unfold eigen in EV. cbn [fst snd] in EV. destruct EV as [EV1 EV2].
  set (l0 := len0 e) in *. set (l1 := len1 e) in *.
  assert (P : 0 < l0 * l0 * (l1 * l1)) by lra. assert (L1 : l1 <> 0) by (intros Z; rewrite Z in P; lra). assert (L0 : l0 <> 0) by (intros Z; rewrite Z in P; lra).
  destruct (atan2_unit c s U) as [CA SA]. set (al := atan2 s c) in *. rewrite fdiv_ok by exact L1. cbn [fbind]. unfold ftan. rewrite CA, SA, fdiv_ok by exact NZ. cbn [fbind].
  do 2 eexists. split; [reflexivity|]. rewrite atan2_1. set (T := - (l0 / l1) * (s / c)). destruct (atan_cs T) as (CP & ST & CT). rewrite ST. set (C := cos (atan T)) in *.
  assert (I0 : l0 * C * c - l1 * (T * C) * s = C * l0 / c).
  { unfold T. transitivity (C * l0 * (c * c + s * s) / c); [field; auto|]. rewrite U. field. exact NZ. }
  rewrite I0.
  assert (DD : d = l0 * l0 * (s * s) + l1 * l1 * (c * c)).
  { assert (X : d * (s * s) = l0 * l0 * (s * s) - b * (c * s)). { transitivity ((b * c + d * s) * s - b * (c * s)); [ring|]. rewrite EV2. ring. }
    assert (Y : a * (c * c) = l0 * l0 * (c * c) - b * (c * s)). { transitivity ((a * c + b * s) * c - b * (c * s)); [ring|]. rewrite EV1. ring. }
    assert (Z : d * (c * c) = (l0 * l0 + l1 * l1) * (c * c) - a * (c * c)) by (rewrite TR; ring). rewrite Y in Z.
    transitivity (d * (c * c + s * s)); [rewrite U; ring|]. rewrite Rmult_plus_distr_l, X, Z. ring. }
  assert (CD : C * C * d = l1 * l1 * (c * c)).
  { rewrite DD. transitivity (l1 * l1 * (c * c) * (C * C * (1 + T * T))); [unfold T; field; auto|]. rewrite CT. ring. }
  assert (NZI : C * l0 / c <> 0). { unfold Rdiv. repeat apply Rmult_integral_contrapositive_currified; try lra. now apply Rinv_neq_0_compat. }
  split; [now apply Rabs_pos_lt|]. unfold on_ellipse. rewrite <- Rabs_mult, Rabs_pos_eq by apply Rle_0_sqr.
  transitivity (l0 * l0 * (C * C * d) / (c * c)); [field; exact NZ|]. rewrite CD, <- DT. field. exact NZ.
Qed.

Lemma normalize_unit x y : x * x + y * y = 1 -> normalize (x, y) = FOk (x, y).
Proof.
  intros U. unfold normalize. rewrite U. destruct (Rlt_dec 0 1); [|lra]. rewrite fsqrt_ok by lra. cbn [fbind]. rewrite sqrt_1.
  repeat (rewrite fdiv_ok by lra; cbn [fbind]). f_equal. apply f_equal2; field.
Qed.
Lemma diag_compute a d : 0 <= d -> d < a ->
  ellipse_compute a 0 0 d = FOk (mk_ellipse (sqrt a) (sqrt d) (1, 0) (0, 1)).
Proof.
  intros D AD. unfold ellipse_compute. replace ((a + d) * (a + d) / 4 - a * d + 0 * 0) with (Rsqr ((a - d) / 2)) by (unfold Rsqr; field).
  rewrite fsqrt_ok by apply Rle_0_sqr. cbn [fbind]. rewrite sqrt_Rsqr by lra.
  replace ((a + d) / 2 + (a - d) / 2) with a by field. replace ((a + d) / 2 - (a - d) / 2) with d by field.
  repeat (rewrite fsqrt_ok by lra; cbn [fbind]). unfold raw_axes. destruct (Req_EM_T 0 0); [|lra]. destruct (Rlt_dec d a); [|lra].
  repeat (rewrite normalize_unit by lra; cbn [fbind]). reflexivity.
Qed.
Lemma diag_intercepts a d : 0 < d -> d < a ->
  ellipse_intercepts (mk_ellipse (sqrt a) (sqrt d) (1, 0) (0, 1)) = FOk (sqrt a, 0).
Proof.
  intros D AD. assert (P : 0 < sqrt d) by now apply sqrt_lt_R0. assert (Q : 0 < sqrt a) by (apply sqrt_lt_R0; lra).
  unfold ellipse_intercepts, ellipse_rotation. cbn [len0 len1 ax0 fst snd]. rewrite atan2_0_1.
  rewrite fdiv_ok by lra. cbn [fbind]. unfold ftan. rewrite cos_0, sin_0, fdiv_ok by lra. cbn [fbind]. replace (0 / 1) with 0 by field.
  rewrite !Rmult_0_r, atan2_0_1, cos_0. f_equal. apply f_equal2.
  - rewrite Rabs_pos_eq; lra.
  - rewrite Rplus_0_r. apply Rabs_R0.
Qed.
