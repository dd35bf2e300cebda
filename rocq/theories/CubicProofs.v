(** Cubic splines. *)
From Verif Require Import RBase PolyModel SplineModel PolyProofs RootsProofs SplineProofs.
Open Scope R_scope.

(** * Pieces on a strictly increasing grid *)

Definition breaks (xs : list R) := removelast (tl xs).
Local Notation zfun := (fun _ : R => 0) (only parsing).
Lemma tl_len (xs : list R) (N : nat) (LX : length xs = S N) (N1 : (1 <= N)%nat) (INC : increasing xs) : length (tl xs) = N. Proof. destruct xs; cbn in *; lia. Qed.
Lemma tl_nth (xs : list R) (N : nat) (LX : length xs = S N) (N1 : (1 <= N)%nat) (INC : increasing xs) i : nth i (tl xs) 0 = nth (S i) xs 0. Proof. destruct xs; cbn in *; [lia|reflexivity]. Qed.
Lemma tl_ne (xs : list R) (N : nat) (LX : length xs = S N) (N1 : (1 <= N)%nat) (INC : increasing xs) : tl xs <> []. Proof. pose proof (tl_len xs N LX N1 INC). destruct (tl xs); cbn in *; [lia|discriminate]. Qed.
Lemma breaks_len (xs : list R) (N : nat) (LX : length xs = S N) (N1 : (1 <= N)%nat) (INC : increasing xs) : length (breaks xs) = (N - 1)%nat. Proof. unfold breaks. rewrite removelast_len, (tl_len xs N LX N1 INC). reflexivity. Qed.
Lemma breaks_nth (xs : list R) (N : nat) (LX : length xs = S N) (N1 : (1 <= N)%nat) (INC : increasing xs) i : (i < N - 1)%nat -> nth i (breaks xs) 0 = nth (S i) xs 0.
Proof. intros L. unfold breaks. rewrite nth_removelast by (rewrite (tl_len xs N LX N1 INC); lia). apply (tl_nth xs N LX N1 INC). Qed.
Lemma breaks_sorted (xs : list R) (N : nat) (LX : length xs = S N) (N1 : (1 <= N)%nat) (INC : increasing xs) : sorted (breaks xs).
Proof.
  apply nth_sorted. rewrite (breaks_len xs N LX N1 INC). intros i L. rewrite !(breaks_nth xs N LX N1 INC) by lia. apply Rlt_le. apply INC. lia.
Qed.
Lemma pieces_matched (xs : list R) (N : nat) (LX : length xs = S N) (N1 : (1 <= N)%nat) (INC : increasing xs) (l : list (R -> R)) : length l = N ->
  (forall i, (S i < N)%nat -> nth i l zfun (nth (S i) xs 0) = nth (S i) l zfun (nth (S i) xs 0)) -> matched (breaks xs) l.
Proof.
  intros L H. apply matched_nth; [rewrite (breaks_len xs N LX N1 INC); lia|]. rewrite (breaks_len xs N LX N1 INC). intros i I. rewrite (breaks_nth xs N LX N1 INC) by lia. apply H. lia.
Qed.
Lemma last_xs (xs : list R) (N : nat) (LX : length xs = S N) (N1 : (1 <= N)%nat) (INC : increasing xs) : last (tl xs) 0 = nth N xs 0.
Proof. rewrite last_nth by apply (tl_ne xs N LX N1 INC). rewrite (tl_len xs N LX N1 INC), (tl_nth xs N LX N1 INC). f_equal. lia. Qed.
Lemma pieces_index (xs : list R) (N : nat) (LX : length xs = S N) (N1 : (1 <= N)%nat) (INC : increasing xs) debug x : nth 0 xs 0 <= x <= nth N xs 0 ->
  spline_index debug xs x = FOk (Z.of_nat (fidx (tl xs) x)) /\ (fidx (tl xs) x < N)%nat.
Proof.
  intros X. split.
  - pose proof (last_xs xs N LX N1 INC) as LL. pose proof (tl_ne xs N LX N1 INC) as TN. destruct xs as [|x0 ds]; [discriminate LX|]. cbn [tl] in *. apply spline_index_ok; auto.
    + cbn in X. lra.
    + rewrite LL. lra.
  - rewrite <- (tl_len xs N LX N1 INC). apply fidx_le; [apply (tl_ne xs N LX N1 INC)|]. rewrite (last_xs xs N LX N1 INC). lra.
Qed.
Lemma pieces_value (xs : list R) (N : nat) (LX : length xs = S N) (N1 : (1 <= N)%nat) (INC : increasing xs) (l : list (R -> R)) x : length l = N -> nth 0 xs 0 <= x <= nth N xs 0 -> pw (breaks xs) l x = nth (fidx (tl xs) x) l zfun x.
Proof. intros L X. apply pw_fidx; [rewrite (tl_len xs N LX N1 INC); auto|apply (tl_ne xs N LX N1 INC)|rewrite (last_xs xs N LX N1 INC); lra]. Qed.
Lemma xs_range (xs : list R) (N : nat) (LX : length xs = S N) (N1 : (1 <= N)%nat) (INC : increasing xs) i : (i <= N)%nat -> nth 0 xs 0 <= nth i xs 0 <= nth N xs 0.
Proof.
  intros I. split.
  - destruct (Nat.eq_dec i 0) as [->|Q]; [lra|]. apply Rlt_le. apply increasing_lt; auto; lia.
  - destruct (Nat.eq_dec i N) as [->|Q]; [lra|]. apply Rlt_le. apply increasing_lt; auto; lia.
Qed.
Lemma fidx_knot (xs : list R) (N : nat) (LX : length xs = S N) (N1 : (1 <= N)%nat) (INC : increasing xs) i : (i < N)%nat -> fidx (tl xs) (nth (S i) xs 0) = i.
Proof.
  intros I. rewrite <- (tl_nth xs N LX N1 INC). apply fidx_strict; [|rewrite (tl_len xs N LX N1 INC); lia]. rewrite (tl_len xs N LX N1 INC). intros j k J K. rewrite !(tl_nth xs N LX N1 INC). apply increasing_lt; auto; lia.
Qed.
Lemma fidx_first (xs : list R) (N : nat) (LX : length xs = S N) (N1 : (1 <= N)%nat) (INC : increasing xs) : fidx (tl xs) (nth 0 xs 0) = 0%nat.
Proof.
  pose proof (INC 0%nat ltac:(lia)) as Q. rewrite <- (tl_nth xs N LX N1 INC) in Q. pose proof (tl_ne xs N LX N1 INC) as TN. destruct (tl xs) as [|d ds]; [congruence|].
  cbn [fidx]. cbn [nth] in Q. destruct (Rlt_dec d (nth 0 xs 0)); [lra|reflexivity].
Qed.
(** The value at the knots. *)
Lemma pieces_knot (xs : list R) (N : nat) (LX : length xs = S N) (N1 : (1 <= N)%nat) (INC : increasing xs) (l : list (R -> R)) (v : nat -> R) : length l = N ->
  (forall i, (i < N)%nat -> nth i l zfun (nth i xs 0) = v i /\ nth i l zfun (nth (S i) xs 0) = v (S i)) ->
  forall i, (i <= N)%nat -> pw (breaks xs) l (nth i xs 0) = v i.
Proof.
  intros L H i I. rewrite (pieces_value xs N LX N1 INC) by (auto; now apply (xs_range xs N LX N1 INC)). destruct i as [|i].
  - rewrite (fidx_first xs N LX N1 INC). apply H. lia.
  - rewrite (fidx_knot xs N LX N1 INC) by lia. apply H. lia.
Qed.

Lemma pieces_on (xs : list R) (N : nat) (LX : length xs = S N) (N1 : (1 <= N)%nat) (INC : increasing xs) (l : list (R -> R)) i t : length l = N -> matched (breaks xs) l ->
  (i < N)%nat -> nth i xs 0 <= t <= nth (S i) xs 0 -> pw (breaks xs) l t = nth i l zfun t.
Proof.
  intros L M I T. pose proof (breaks_len xs N LX N1 INC) as LB. apply pw_at; auto; try lia.
  - now apply (breaks_sorted xs N LX N1 INC).
  - intros j J. rewrite (breaks_nth xs N LX N1 INC) by lia. apply Rle_trans with (nth i xs 0); [|lra].
    destruct (Nat.eq_dec (S j) i) as [->|NE]; [lra|]. apply Rlt_le. apply increasing_lt; auto; lia.
  - intros j J1 J2. rewrite (breaks_nth xs N LX N1 INC) by lia. apply Rle_trans with (nth (S i) xs 0); [lra|].
    destruct (Nat.eq_dec (S j) (S i)) as [->|NE]; [lra|]. apply Rlt_le. apply increasing_lt; auto; lia.
Qed.
Lemma cubic_form p : length p = 4%nat -> exists c0 c1 c2 c3, forall t, eval p t = c0 + c1 * t + c2 * (t * t) + c3 * (t * t * t).
Proof.
  intros L. destruct p as [|c0 [|c1 [|c2 [|c3 [|c4 p]]]]]; cbn in L; try lia. exists c0, c1, c2, c3. intros t. rewrite eval_horner. cbn [horner]. ring.
Qed.

(** * One segment *)

Lemma segment_second x0 y0 a0 x1 y1 a1 : x0 <> x1 -> exists p, cubic_second_derivative x0 y0 a0 x1 y1 a1 = FOk p /\ length p = 4%nat
  /\ eval p x0 = y0 /\ eval p x1 = y1
  /\ eval (deriv p) x0 = (y1 - y0) / (x1 - x0) - (x1 - x0) * (2 * a0 + a1) / 6
  /\ eval (deriv p) x1 = (y1 - y0) / (x1 - x0) + (x1 - x0) * (a0 + 2 * a1) / 6
  /\ eval (deriv (deriv p)) x0 = a0 /\ eval (deriv (deriv p)) x1 = a1.
Proof.
  intros NE. unfold cubic_second_derivative. rewrite !fdiv_ok by (repeat apply Rmult_integral_contrapositive_currified; lra). cbn [fbind].
  rewrite !fdiv_ok by lra. cbn [fbind].
  match goal with |- context [shift_nonzero ?p _] => destruct (shift_nonzero_ok p x0 ltac:(discriminate) ltac:(cbn; lia)) as (p' & E & L & H0 & H1 & H2) end.
  exists p'. split; auto. split; [exact L|]. rewrite !H0, !H1, !H2. rewrite !eval_horner. cbn [deriv deriv_loop horner]. simpl IZR. repeat split; field; lra.
Qed.
Lemma segment_slope x0 y0 v0 x1 y1 v1 : x0 <> x1 -> exists p, cubic_derivative x0 y0 v0 x1 y1 v1 = FOk p /\ length p = 4%nat
  /\ eval p x0 = y0 /\ eval p x1 = y1 /\ eval (deriv p) x0 = v0 /\ eval (deriv p) x1 = v1.
Proof.
  intros NE. unfold cubic_derivative. rewrite !fdiv_ok by (repeat apply Rmult_integral_contrapositive_currified; lra). cbn [fbind].
  match goal with |- context [shift_nonzero ?p _] => destruct (shift_nonzero_ok p x0 ltac:(discriminate) ltac:(cbn; lia)) as (p' & E & L & H0 & H1 & H2) end.
  exists p'. split; auto. split; [exact L|]. rewrite !H0, !H1. rewrite !eval_horner. cbn [deriv deriv_loop horner]. simpl IZR. repeat split; field; lra.
Qed.

(** * The tridiagonal system *)

Definition sq (l : list R) (i : nat) : R := nth i l 0.

Definition sigma (x : list R) (i : nat) : R := (sq x i - sq x (i - 1)) / (sq x (i + 1) - sq x (i - 1)).
Definition secant (x y : list R) (i : nat) : R := (sq y (i + 1) - sq y i) / (sq x (i + 1) - sq x i).

Fixpoint cu (x y : list R) (c0 u0 : R) (i : nat) : R * R :=
  match i with
  | O => (c0, u0)
  | S j => let '(c, u) := cu x y c0 u0 j in
           let p := sigma x i * c + 2 in
           ((sigma x i - 1) / p, (6 * (secant x y i - secant x y (i - 1)) / (sq x (i + 1) - sq x (i - 1)) - sigma x i * u) / p)
  end.

Lemma sigma_range x i : increasing x -> (1 <= i)%nat -> (i + 1 < length x)%nat -> 0 < sigma x i < 1.
Proof.
  intros H I L. unfold sigma, sq. pose proof (increasing_lt x (i - 1) i H ltac:(lia) ltac:(lia)) as A. pose proof (increasing_lt x i (i + 1) H ltac:(lia) ltac:(lia)) as B.
  set (a := nth (i - 1) x 0) in *. set (b := nth i x 0) in *. set (c := nth (i + 1) x 0) in *. split.
  - apply Rdiv_lt_0_compat; lra.
  - apply Rmult_lt_reg_r with (c - a); [lra|]. rewrite div_mul by lra. lra.
Qed.

Lemma cu_range x y c0 u0 i : increasing x -> -1 < c0 <= 0 -> (i + 1 < length x)%nat -> -1 < fst (cu x y c0 u0 i) <= 0.
Proof.
  intros H C. induction i as [|i IH]; intros L; [exact C|]. specialize (IH ltac:(lia)). pose proof (sigma_range x (S i) H ltac:(lia) L) as SR.
  cbn [cu]. destruct (cu x y c0 u0 i) as [c u]. cbn [fst] in *. set (s := sigma x (S i)) in *.
  assert (P : 1 < s * c + 2) by nra. assert (PZ : s * c + 2 <> 0) by lra. split.
  - apply Rmult_lt_reg_r with (s * c + 2); [lra|]. rewrite div_mul by auto. nra.
  - apply Rmult_le_reg_r with (s * c + 2); [lra|]. rewrite div_mul by auto. nra.
Qed.

Lemma cu_denominator x y c0 u0 i : increasing x -> -1 < c0 <= 0 -> (1 <= i)%nat -> (i + 1 < length x)%nat -> 1 < sigma x i * fst (cu x y c0 u0 (i - 1)) + 2.
Proof.
  intros H C I L. pose proof (sigma_range x i H I L). pose proof (cu_range x y c0 u0 (i - 1) H C ltac:(lia)). nra.
Qed.

Definition cs_ x y c0 u0 n := map (fun i => fst (cu x y c0 u0 i)) (seq 0 n).
Definition us_ x y c0 u0 n := map (fun i => snd (cu x y c0 u0 i)) (seq 0 n).
Lemma cs_S x y c0 u0 n : cs_ x y c0 u0 (S n) = cs_ x y c0 u0 n ++ [fst (cu x y c0 u0 n)].
Proof. unfold cs_. rewrite seq_S, map_app. reflexivity. Qed.
Lemma us_S x y c0 u0 n : us_ x y c0 u0 (S n) = us_ x y c0 u0 n ++ [snd (cu x y c0 u0 n)].
Proof. unfold us_. rewrite seq_S, map_app. reflexivity. Qed.
Lemma cs_len x y c0 u0 n : length (cs_ x y c0 u0 n) = n. Proof. unfold cs_. now rewrite map_length, seq_length. Qed.
Lemma us_len x y c0 u0 n : length (us_ x y c0 u0 n) = n. Proof. unfold us_. now rewrite map_length, seq_length. Qed.
Lemma map_seq_nth (f : nat -> R) n i : (i < n)%nat -> nth i (map f (seq 0 n)) 0 = f i.
Proof. intros L. rewrite nth_indep with (d' := f 0%nat) by (rewrite map_length, seq_length; auto). rewrite map_nth, seq_nth by auto. reflexivity. Qed.
Lemma cs_nth x y c0 u0 n i : (i < n)%nat -> nth i (cs_ x y c0 u0 n) 0 = fst (cu x y c0 u0 i).
Proof. intros L. unfold cs_. now rewrite map_seq_nth. Qed.
Lemma us_nth x y c0 u0 n i : (i < n)%nat -> nth i (us_ x y c0 u0 n) 0 = snd (cu x y c0 u0 i).
Proof. intros L. unfold us_. now rewrite map_seq_nth. Qed.

Lemma forward_spec x y c0 u0 : increasing x -> length y = length x -> -1 < c0 <= 0 -> forall todo i, (1 <= i)%nat -> (i + todo + 1 = length x)%nat ->
  c2_forward x y todo (Z.of_nat i) (cs_ x y c0 u0 i) (us_ x y c0 u0 i) = FOk (cs_ x y c0 u0 (i + todo), us_ x y c0 u0 (i + todo)).
Proof.
  intros H LY C. induction todo as [|todo IH]; intros i I E; cbn [c2_forward]; [now rewrite Nat.add_0_r|].
  replace (Z.of_nat i - 1)%Z with (Z.of_nat (i - 1)) by lia. replace (Z.of_nat i + 1)%Z with (Z.of_nat (i + 1)) by lia.
  rewrite !rget_nth by (rewrite ?cs_len, ?us_len; lia). cbn [fbind]. rewrite cs_nth, us_nth by lia.
  pose proof (increasing_lt x (i - 1) i H ltac:(lia) ltac:(lia)) as A. pose proof (increasing_lt x i (i + 1) H ltac:(lia) ltac:(lia)) as B.
  rewrite fdiv_ok by lra. cbn [fbind]. fold (sq x i) (sq x (i - 1)) (sq x (i + 1)) (sq y i) (sq y (i - 1)) (sq y (i + 1)) in *. fold (sigma x i).
  pose proof (cu_denominator x y c0 u0 i H C I ltac:(lia)) as P. repeat (rewrite fdiv_ok by lra; cbn [fbind]).
  replace (i + S todo)%nat with (i + 1 + todo)%nat by lia. rewrite <- IH by lia. replace (i + 1)%nat with (S i) by lia.
  rewrite cs_S, us_S. destruct i as [|j]; [lia|]. cbn [cu]. rewrite !Nat.sub_succ, !Nat.sub_0_r in *.
  destruct (cu x y c0 u0 j) as [c u] eqn:Q. cbn [fst snd]. unfold secant. rewrite ?Nat.sub_succ, ?Nat.sub_0_r.
  replace (S j + 1)%nat with (S (S j)) in * by lia. replace (j + 1)%nat with (S j) by lia. reflexivity.
Qed.

(** Back substitution: M i = c_i M (i+1) + u_i. *)
Fixpoint mb (c u : nat -> R) (top : R) (N d : nat) : R :=
  match d with O => top | S e => c (N - d)%nat * mb c u top N e + u (N - d)%nat end.
Definition MM (c u : nat -> R) (top : R) (N i : nat) : R := mb c u top N (N - i).
Lemma MM_step c u top N i : (i < N)%nat -> MM c u top N i = c i * MM c u top N (S i) + u i.
Proof.
  intros L. unfold MM. destruct (N - i)%nat as [|d] eqn:E; [lia|]. cbn [mb]. replace (N - S d)%nat with i by lia. replace (N - S i)%nat with d by lia. reflexivity.
Qed.
Lemma MM_top c u top N : MM c u top N N = top. Proof. unfold MM. now rewrite Nat.sub_diag. Qed.

Lemma back_spec ul c u top N : length ul = N -> (forall i, (i < N)%nat -> nth i ul 0 = u i) ->
  forall k yd, (k <= N)%nat -> length yd = S N ->
  (forall i, (i <= N)%nat -> nth i yd 0 = if lt_dec i k then c i else MM c u top N i) ->
  exists yd', c2_back ul k yd = FOk yd' /\ length yd' = S N /\ forall i, (i <= N)%nat -> nth i yd' 0 = MM c u top N i.
Proof.
  intros LU HU. induction k as [|k IH]; intros yd K L H; cbn [c2_back].
  - exists yd. split; [reflexivity|]. split; [exact L|]. intros i I. rewrite H by auto. destruct (lt_dec i 0); [lia|reflexivity].
  - replace (Z.of_nat k + 1)%Z with (Z.of_nat (S k)) by lia. rewrite !rget_nth by lia. cbn [fbind]. apply IH; [lia|now rewrite zset_len|].
    intros i I. rewrite nth_zset by lia. destruct (Nat.eq_dec k i) as [<-|NE].
    + destruct (lt_dec k k); [lia|]. rewrite !H, HU by lia. destruct (lt_dec k (S k)); [|lia]. destruct (lt_dec (S k) (S k)); [lia|].
      symmetry. apply MM_step. lia.
    + rewrite H by auto. destruct (lt_dec i k), (lt_dec i (S k)); auto; lia.
Qed.

(** The accelerations computed by the constructor solve the tridiagonal system. *)
Lemma solve_spec x y c0 u0 qn ul N : length x = S N -> length y = S N -> (1 <= N)%nat -> increasing x -> -1 < c0 <= 0 -> 0 <= qn <= 1 / 2 ->
  exists m, c2_solve x y c0 u0 qn ul = FOk m /\ length m = S N
    /\ sq m 0 = c0 * sq m 1 + u0
    /\ sq m N + qn * sq m (N - 1) = ul
    /\ forall i, (1 <= i)%nat -> (i < N)%nat ->
         (sq x i - sq x (i - 1)) * sq m (i - 1) + 2 * (sq x (i + 1) - sq x (i - 1)) * sq m i + (sq x (i + 1) - sq x i) * sq m (i + 1)
         = 6 * (secant x y i - secant x y (i - 1)).
Proof.
  intros LX LY N1 H C Q. unfold c2_solve. rewrite LX. cbn zeta. replace (S N - 2)%nat with (N - 1)%nat by lia.
  pose proof (forward_spec x y c0 u0 H ltac:(lia) C (N - 1) 1 ltac:(lia) ltac:(lia)) as F.
  change (cs_ x y c0 u0 1) with [c0] in F. change (us_ x y c0 u0 1) with [u0] in F. change (Z.of_nat 1) with 1%Z in F. rewrite F. cbn [fbind].
  replace (1 + (N - 1))%nat with N by lia. replace (Z.of_nat (S N) - 2)%Z with (Z.of_nat (N - 1)) by lia.
  rewrite !rget_nth by (rewrite ?cs_len, ?us_len; lia). cbn [fbind]. rewrite cs_nth, us_nth by lia.
  set (c := fun i => fst (cu x y c0 u0 i)). set (u := fun i => snd (cu x y c0 u0 i)).
  change (fst (cu x y c0 u0 (N - 1))) with (c (N - 1)%nat). change (snd (cu x y c0 u0 (N - 1))) with (u (N - 1)%nat).
  assert (CR : -1 < c (N - 1)%nat <= 0) by (apply cu_range; auto; lia).
  assert (DZ : 0 < qn * c (N - 1)%nat + 1) by nra. rewrite fdiv_ok by lra. cbn [fbind]. set (top := (ul - qn * u (N - 1)%nat) / (qn * c (N - 1)%nat + 1)).
  replace (S N - 1)%nat with N by lia.
  destruct (back_spec (us_ x y c0 u0 N) c u top N (us_len _ _ _ _ _) (fun i I => us_nth x y c0 u0 N i I) N (cs_ x y c0 u0 N ++ [top]) (Nat.le_refl N)) as (m & E & LM & HM).
  { rewrite app_length, cs_len. cbn. lia. }
  { intros i I. destruct (lt_dec i N) as [L|L].
    - rewrite app_nth1 by (rewrite cs_len; auto). now rewrite cs_nth.
    - replace i with N by lia. rewrite app_nth2, cs_len, Nat.sub_diag by (rewrite cs_len; lia). now rewrite MM_top. }
  exists m. split; auto. split; auto. unfold sq at 1 2 3 4. rewrite !HM by lia. split; [apply MM_step; lia|]. split.
  - rewrite MM_top. rewrite MM_step by lia. replace (S (N - 1)) with N by lia. rewrite MM_top. unfold top. field. lra.
  - intros i I L. unfold sq at 3 6 9. rewrite !HM by lia. replace (i + 1)%nat with (S i) by lia.
    destruct i as [|j]; [lia|]. rewrite !Nat.sub_succ, !Nat.sub_0_r.
    rewrite (MM_step c u top N j) by lia. rewrite (MM_step c u top N (S j)) by lia.
    set (M2 := MM c u top N (S (S j))).
    pose proof (increasing_lt x j (S j) H ltac:(lia) ltac:(lia)) as A. pose proof (increasing_lt x (S j) (S (S j)) H ltac:(lia) ltac:(lia)) as B.
    pose proof (cu_denominator x y c0 u0 (S j) H C ltac:(lia) ltac:(lia)) as P. rewrite Nat.sub_succ, Nat.sub_0_r in P.
    assert (CE : c (S j) * (sigma x (S j) * c j + 2) = sigma x (S j) - 1 /\
                 u (S j) * (sigma x (S j) * c j + 2) = 6 * (secant x y (S j) - secant x y j) / (sq x (S (S j)) - sq x j) - sigma x (S j) * u j).
    { unfold c, u in *. cbn [cu]. destruct (cu x y c0 u0 j) as [cc uu]. cbn [fst snd] in *. rewrite Nat.sub_succ, Nat.sub_0_r. replace (S j + 1)%nat with (S (S j)) by lia.
      split; apply div_mul; lra. }
    assert (SE : sigma x (S j) * (sq x (S (S j)) - sq x j) = sq x (S j) - sq x j).
    { unfold sigma. rewrite Nat.sub_succ, Nat.sub_0_r. replace (S j + 1)%nat with (S (S j)) by lia. apply div_mul. unfold sq. lra. }
    destruct CE as [CE UE]. unfold sq in A, B. fold (sq x j) (sq x (S j)) (sq x (S (S j))) in A, B.
    set (D := sq x (S (S j)) - sq x j) in *. set (s := sigma x (S j)) in *. set (rhs := 6 * (secant x y (S j) - secant x y j)) in *.
    assert (DP : D <> 0) by (unfold D; lra).
    replace (sq x (S j) - sq x j) with (s * D). replace (sq x (S (S j)) - sq x (S j)) with ((1 - s) * D) by (rewrite Rmult_minus_distr_r, SE; unfold D; ring).
    transitivity (D * ((c (S j) * (s * c j + 2)) * M2 + u (S j) * (s * c j + 2) + s * u j + (1 - s) * M2)); [ring|].
    rewrite CE, UE. field. exact DP.
Qed.

(** * The pieces *)

Lemma polys_spec x y m N : length x = S N -> length y = S N -> length m = S N -> increasing x -> forall todo i, (i + todo = N)%nat ->
  exists ps, c2_polys x y m todo (Z.of_nat i) = FOk ps /\ length ps = todo
    /\ forall k, (k < todo)%nat -> cubic_second_derivative (sq x (i + k)) (sq y (i + k)) (sq m (i + k)) (sq x (S (i + k))) (sq y (S (i + k))) (sq m (S (i + k))) = FOk (nth k ps []).
Proof.
  intros LX LY LM H. induction todo as [|todo IH]; intros i E; cbn [c2_polys]; [exists []; split; auto; split; auto; intros; lia|].
  replace (Z.of_nat i + 1)%Z with (Z.of_nat (S i)) by lia. rewrite !rget_nth by lia. cbn [fbind]. fold (sq x i) (sq y i) (sq m i) (sq x (S i)) (sq y (S i)) (sq m (S i)).
  pose proof (increasing_lt x i (S i) H ltac:(lia) ltac:(lia)) as A. fold (sq x i) (sq x (S i)) in A.
  destruct (segment_second (sq x i) (sq y i) (sq m i) (sq x (S i)) (sq y (S i)) (sq m (S i)) ltac:(lra)) as (p & Ep & _). rewrite Ep. cbn [fbind].
  destruct (IH (S i) ltac:(lia)) as (ps & E1 & L1 & H1). rewrite E1. cbn [fbind]. exists (p :: ps). split; auto. split; [cbn; lia|].
  intros [|k] K; [rewrite Nat.add_0_r; exact Ep|]. cbn [nth]. replace (i + S k)%nat with (S i + k)%nat by lia. apply H1. lia.
Qed.
Lemma hpolys_spec x y m N : length x = S N -> length y = S N -> length m = S N -> increasing x -> forall todo i, (i + todo = N)%nat ->
  exists ps, dh_polys x y m todo (Z.of_nat i) = FOk ps /\ length ps = todo
    /\ forall k, (k < todo)%nat -> cubic_derivative (sq x (i + k)) (sq y (i + k)) (sq m (i + k)) (sq x (S (i + k))) (sq y (S (i + k))) (sq m (S (i + k))) = FOk (nth k ps []).
Proof.
  intros LX LY LM H. induction todo as [|todo IH]; intros i E; cbn [dh_polys]; [exists []; split; auto; split; auto; intros; lia|].
  replace (Z.of_nat i + 1)%Z with (Z.of_nat (S i)) by lia. rewrite !rget_nth by lia. cbn [fbind]. fold (sq x i) (sq y i) (sq m i) (sq x (S i)) (sq y (S i)) (sq m (S i)).
  pose proof (increasing_lt x i (S i) H ltac:(lia) ltac:(lia)) as A. fold (sq x i) (sq x (S i)) in A.
  destruct (segment_slope (sq x i) (sq y i) (sq m i) (sq x (S i)) (sq y (S i)) (sq m (S i)) ltac:(lra)) as (p & Ep & _). rewrite Ep. cbn [fbind].
  destruct (IH (S i) ltac:(lia)) as (ps & E1 & L1 & H1). rewrite E1. cbn [fbind]. exists (p :: ps). split; auto. split; [cbn; lia|].
  intros [|k] K; [rewrite Nat.add_0_r; exact Ep|]. cbn [nth]. replace (i + S k)%nat with (S i + k)%nat by lia. apply H1. lia.
Qed.

(** * A spline of polynomials *)

Lemma nth_map_fun {A} (F : A -> R -> R) (l : list A) d i : (i < length l)%nat -> nth i (map F l) (fun _ => 0) = F (nth i l d).
Proof. intros L. rewrite nth_indep with (d' := F d) by (rewrite map_length; auto). apply map_nth. Qed.
Lemma forall2_map {A} (F G : A -> R -> R) l : (forall a x, derivable_pt_lim (F a) x (G a x)) ->
  Forall2 (fun f g => forall x, derivable_pt_lim f x (g x)) (map F l) (map G l).
Proof. intros H. induction l; constructor; auto. Qed.

Definition pe (p : list R) := eval p.
Definition pe1 (p : list R) := eval (deriv p).
Definition pe2 (p : list R) := eval (deriv (deriv p)).

Lemma cspline_eval debug x (ps : list (list R)) N (F : list R -> R -> R) : length x = S N -> (1 <= N)%nat -> length ps = N -> increasing x ->
  forall t, nth 0 x 0 <= t <= nth N x 0 ->
  (i <-- spline_index debug x t ;; p <-- aget ps i ;; FOk (F p t)) = FOk (pw (breaks x) (map F ps) t).
Proof.
  intros LX N1 LP H t T. destruct (pieces_index x N LX N1 H debug t T) as [E L]. rewrite E. cbn [fbind].
  rewrite (aget_nth ps _ []) by lia. cbn [fbind]. rewrite (pieces_value x N LX N1 H (map F ps) t); auto; [|now rewrite map_length].
  rewrite (nth_map_fun F ps []) by lia. reflexivity.
Qed.

Lemma c1_spline x ps N : length x = S N -> (1 <= N)%nat -> length ps = N -> increasing x ->
  (forall i, (S i < N)%nat -> eval (nth i ps []) (sq x (S i)) = eval (nth (S i) ps []) (sq x (S i))) ->
  (forall i, (S i < N)%nat -> eval (deriv (nth i ps [])) (sq x (S i)) = eval (deriv (nth (S i) ps [])) (sq x (S i))) ->
  (forall t, derivable_pt_lim (pw (breaks x) (map pe ps)) t (pw (breaks x) (map pe1 ps) t))
  /\ (forall t, cont_at (pw (breaks x) (map pe1 ps)) t).
Proof.
  intros LX N1 LP H M0 M1.
  assert (MA : matched (breaks x) (map pe ps)).
  { apply (pieces_matched x N LX N1 H); [now rewrite map_length|]. intros i I. rewrite !(nth_map_fun pe ps []) by lia. apply M0. auto. }
  assert (MB : matched (breaks x) (map pe1 ps)).
  { apply (pieces_matched x N LX N1 H); [now rewrite map_length|]. intros i I. rewrite !(nth_map_fun pe1 ps []) by lia. apply M1. auto. }
  pose proof (breaks_sorted x N LX N1 H) as SB. split.
  - apply pw_derive; auto. apply forall2_map. intros p t. apply eval_derive.
  - apply pw_cont; auto. apply Forall_forall. intros f F. apply in_map_iff in F. destruct F as (p & <- & _). intros t. apply cont_at_pt. apply eval_continuous.
Qed.
Lemma c2_spline x ps N : length x = S N -> (1 <= N)%nat -> length ps = N -> increasing x ->
  (forall i, (S i < N)%nat -> eval (deriv (nth i ps [])) (sq x (S i)) = eval (deriv (nth (S i) ps [])) (sq x (S i))) ->
  (forall i, (S i < N)%nat -> eval (deriv (deriv (nth i ps []))) (sq x (S i)) = eval (deriv (deriv (nth (S i) ps []))) (sq x (S i))) ->
  (forall t, derivable_pt_lim (pw (breaks x) (map pe1 ps)) t (pw (breaks x) (map pe2 ps) t))
  /\ (forall t, cont_at (pw (breaks x) (map pe2 ps)) t).
Proof.
  intros LX N1 LP H M0 M1.
  assert (MA : matched (breaks x) (map pe1 ps)).
  { apply (pieces_matched x N LX N1 H); [now rewrite map_length|]. intros i I. rewrite !(nth_map_fun pe1 ps []) by lia. apply M0. auto. }
  assert (MB : matched (breaks x) (map pe2 ps)).
  { apply (pieces_matched x N LX N1 H); [now rewrite map_length|]. intros i I. rewrite !(nth_map_fun pe2 ps []) by lia. apply M1. auto. }
  pose proof (breaks_sorted x N LX N1 H) as SB. split.
  - apply pw_derive; auto. apply forall2_map. intros p t. apply eval_derive.
  - apply pw_cont; auto. apply Forall_forall. intros f F. apply in_map_iff in F. destruct F as (p & <- & _). intros t. apply cont_at_pt. apply eval_continuous.
Qed.

(** Everything the two kinds of C2 spline share. *)
Lemma c2_apply_spec debug x y m N : length x = S N -> length y = S N -> length m = S N -> (1 <= N)%nat -> increasing x ->
  (forall i, (1 <= i)%nat -> (i < N)%nat ->
     (sq x i - sq x (i - 1)) * sq m (i - 1) + 2 * (sq x (i + 1) - sq x (i - 1)) * sq m i + (sq x (i + 1) - sq x i) * sq m (i + 1)
     = 6 * (secant x y i - secant x y (i - 1))) ->
  exists s f f1 f2, c2_apply x y m = FOk s
    /\ (forall t, nth 0 x 0 <= t <= nth N x 0 -> cs_eval debug s t = FOk (f t) /\ cs_deriv debug s t = FOk (f1 t) /\ cs_dderiv debug s t = FOk (f2 t))
    /\ (forall t, derivable_pt_lim f t (f1 t) /\ derivable_pt_lim f1 t (f2 t) /\ continuity_pt f2 t)
    /\ (forall i, (i <= N)%nat -> f (nth i x 0) = nth i y 0 /\ f2 (nth i x 0) = nth i m 0)
    /\ (forall i, (i < N)%nat -> exists c0 c1 c2 c3, forall t, nth i x 0 <= t <= nth (S i) x 0 -> f t = c0 + c1 * t + c2 * (t * t) + c3 * (t * t * t))
    /\ f1 (nth 0 x 0) = secant x y 0 - (sq x 1 - sq x 0) * (2 * sq m 0 + sq m 1) / 6
    /\ f1 (nth N x 0) = secant x y (N - 1) + (sq x N - sq x (N - 1)) * (sq m (N - 1) + 2 * sq m N) / 6.
Proof.
  intros LX LY LM N1 H TRI. destruct (polys_spec x y m N LX LY LM H N 0 ltac:(lia)) as (ps & E & LP & HP). cbn [Nat.add] in HP.
  assert (PC : forall k, (k < N)%nat -> let p := nth k ps [] in
    eval p (sq x k) = sq y k /\ eval p (sq x (S k)) = sq y (S k)
    /\ eval (deriv p) (sq x k) = secant x y k - (sq x (S k) - sq x k) * (2 * sq m k + sq m (S k)) / 6
    /\ eval (deriv p) (sq x (S k)) = secant x y k + (sq x (S k) - sq x k) * (sq m k + 2 * sq m (S k)) / 6
    /\ eval (deriv (deriv p)) (sq x k) = sq m k /\ eval (deriv (deriv p)) (sq x (S k)) = sq m (S k)).
  { intros k K. cbn zeta. pose proof (increasing_lt x k (S k) H ltac:(lia) ltac:(lia)) as A. fold (sq x k) (sq x (S k)) in A.
    destruct (segment_second (sq x k) (sq y k) (sq m k) (sq x (S k)) (sq y (S k)) (sq m (S k)) ltac:(lra)) as (p & Ep & _ & Q). rewrite HP in Ep by auto. injection Ep as ->.
    unfold secant. replace (k + 1)%nat with (S k) by lia. exact Q. }
  assert (PL : forall k, (k < N)%nat -> length (nth k ps []) = 4%nat).
  { intros k K. pose proof (increasing_lt x k (S k) H ltac:(lia) ltac:(lia)) as A. fold (sq x k) (sq x (S k)) in A.
    destruct (segment_second (sq x k) (sq y k) (sq m k) (sq x (S k)) (sq y (S k)) (sq m (S k)) ltac:(lra)) as (p & Ep & Q & _). rewrite HP in Ep by auto. injection Ep as ->. exact Q. }
  assert (M0 : forall i, (S i < N)%nat -> eval (nth i ps []) (sq x (S i)) = eval (nth (S i) ps []) (sq x (S i))).
  { intros i I. destruct (PC i ltac:(lia)) as (_ & -> & _). destruct (PC (S i) ltac:(lia)) as (-> & _). reflexivity. }
  assert (M1 : forall i, (S i < N)%nat -> eval (deriv (nth i ps [])) (sq x (S i)) = eval (deriv (nth (S i) ps [])) (sq x (S i))).
  { intros i I. destruct (PC i ltac:(lia)) as (_ & _ & _ & -> & _). destruct (PC (S i) ltac:(lia)) as (_ & _ & -> & _).
    specialize (TRI (S i) ltac:(lia) ltac:(lia)). rewrite Nat.sub_succ, Nat.sub_0_r in TRI. replace (S i + 1)%nat with (S (S i)) in TRI by lia.
    set (a := secant x y i) in *. set (b := secant x y (S i)) in *. lra. }
  assert (M2 : forall i, (S i < N)%nat -> eval (deriv (deriv (nth i ps []))) (sq x (S i)) = eval (deriv (deriv (nth (S i) ps []))) (sq x (S i))).
  { intros i I. destruct (PC i ltac:(lia)) as (_ & _ & _ & _ & _ & ->). destruct (PC (S i) ltac:(lia)) as (_ & _ & _ & _ & -> & _). reflexivity. }
  exists (mk_cspline x ps), (pw (breaks x) (map pe ps)), (pw (breaks x) (map pe1 ps)), (pw (breaks x) (map pe2 ps)).
  split; [unfold c2_apply; rewrite LX; replace (S N - 1)%nat with N by lia; change (Z.of_nat 0) with 0%Z in E; rewrite E; reflexivity|].
  split. { intros t T. unfold cs_eval, cs_deriv, cs_dderiv. cbn [cs_domain cs_polys].
    split; [apply (cspline_eval debug x ps N pe); auto|]. split; [apply (cspline_eval debug x ps N pe1); auto|apply (cspline_eval debug x ps N pe2); auto]. }
  destruct (c1_spline x ps N LX N1 LP H M0 M1) as [D1 _]. destruct (c2_spline x ps N LX N1 LP H M1 M2) as [D2 C2].
  split; [intros t; split; auto; split; auto; now apply cont_at_pt|].
  split.
  { intros i I. split.
    - apply (pieces_knot x N LX N1 H (map pe ps) (fun i => nth i y 0)); auto; [now rewrite map_length|]. intros k K. rewrite (nth_map_fun pe ps []) by lia.
      destruct (PC k K) as (Q1 & Q2 & _). split; [exact Q1|exact Q2].
    - apply (pieces_knot x N LX N1 H (map pe2 ps) (fun i => nth i m 0)); auto; [now rewrite map_length|]. intros k K. rewrite (nth_map_fun pe2 ps []) by lia.
      destruct (PC k K) as (_ & _ & _ & _ & Q1 & Q2). split; [exact Q1|exact Q2]. }
  split.
  { intros i I. destruct (cubic_form (nth i ps []) (PL i I)) as (c0 & c1 & c2 & c3 & CF). exists c0, c1, c2, c3. intros t T. rewrite <- CF.
    rewrite (pieces_on x N LX N1 H (map pe ps) i t); auto; [|now rewrite map_length|].
    - rewrite (nth_map_fun pe ps []) by lia. reflexivity.
    - apply (pieces_matched x N LX N1 H); [now rewrite map_length|]. intros k K. rewrite !(nth_map_fun pe ps []) by lia. apply M0. auto. }
  split.
  - rewrite (pieces_value x N LX N1 H (map pe1 ps)); [|now rewrite map_length|apply (xs_range x N LX N1 H); lia]. rewrite (fidx_first x N LX N1 H).
    rewrite (nth_map_fun pe1 ps []) by lia. destruct (PC 0%nat ltac:(lia)) as (_ & _ & Q & _). exact Q.
  - rewrite (pieces_value x N LX N1 H (map pe1 ps)); [|now rewrite map_length|apply (xs_range x N LX N1 H); lia].
    replace N with (S (N - 1)) at 1 2 by lia. rewrite (fidx_knot x N LX N1 H) by lia.
    rewrite (nth_map_fun pe1 ps []) by lia. destruct (PC (N - 1)%nat ltac:(lia)) as (_ & _ & _ & Q & _). replace (S (N - 1)) with N in Q by lia.
    replace (S (N - 1)) with N by lia. exact Q.
Qed.

(** * Slopes of the heuristic spline *)

Lemma dh_slopes_spec x y N : length x = S N -> length y = S N -> increasing x -> forall todo i, (1 <= i)%nat -> (i + todo = N)%nat ->
  exists r, dh_slopes x y todo (Z.of_nat i) = FOk r /\ length r = todo
    /\ forall k, (k < todo)%nat -> nth k r 0 = (secant x y (i + k - 1) + secant x y (i + k)) / 2.
Proof.
  intros LX LY H. induction todo as [|todo IH]; intros i I E; cbn [dh_slopes]; [exists []; split; auto; split; auto; intros; lia|].
  replace (Z.of_nat i - 1)%Z with (Z.of_nat (i - 1)) by lia. replace (Z.of_nat i + 1)%Z with (Z.of_nat (S i)) by lia. rewrite !rget_nth by lia. cbn [fbind].
  pose proof (increasing_lt x (i - 1) i H ltac:(lia) ltac:(lia)) as A. pose proof (increasing_lt x i (S i) H ltac:(lia) ltac:(lia)) as B.
  rewrite !fdiv_ok by lra. cbn [fbind]. destruct (IH (S i) ltac:(lia) ltac:(lia)) as (r & E1 & L1 & H1). rewrite E1. cbn [fbind].
  eexists; split; [reflexivity|]. split; [cbn; lia|]. intros [|k] K; cbn [nth].
  - rewrite Nat.add_0_r. unfold secant, sq. replace (i - 1 + 1)%nat with i by lia. replace (i + 1)%nat with (S i) by lia. reflexivity.
  - rewrite H1 by lia. replace (S i + k - 1)%nat with (i + S k - 1)%nat by lia. replace (S i + k)%nat with (i + S k)%nat by lia. reflexivity.
Qed.

Lemma heuristic_spec debug x y v0 vf N : length x = S N -> length y = S N -> (1 <= N)%nat -> increasing x ->
  exists s f f1, heuristic_spline debug x y v0 vf = FOk s
    /\ (forall t, nth 0 x 0 <= t <= nth N x 0 -> cs_eval debug s t = FOk (f t) /\ cs_deriv debug s t = FOk (f1 t))
    /\ (forall t, derivable_pt_lim f t (f1 t) /\ continuity_pt f1 t)
    /\ (forall i, (i <= N)%nat -> f (nth i x 0) = nth i y 0)
    /\ (forall i, (i < N)%nat -> exists c0 c1 c2 c3, forall t, nth i x 0 <= t <= nth (S i) x 0 -> f t = c0 + c1 * t + c2 * (t * t) + c3 * (t * t * t))
    /\ f1 (nth 0 x 0) = v0 /\ f1 (nth N x 0) = vf
    /\ forall i, (1 <= i)%nat -> (i < N)%nat -> f1 (nth i x 0) = (secant x y (i - 1) + secant x y i) / 2.
Proof.
  intros LX LY N1 H. unfold heuristic_spline, dh_ydot.
  replace (Zlen x =? Zlen y)%Z with true by (unfold Zlen; lia). cbn [negb]. rewrite Bool.andb_false_r.
  destruct (dh_slopes_spec x y N LX LY H (N - 1) 1 ltac:(lia) ltac:(lia)) as (r & ER & LR & HR). change (Z.of_nat 1) with 1%Z in ER.
  assert (ED : match x with [] => FUB | [_] => FOk [vf] | _ => r <-- dh_slopes x y (length x - 2) 1 ;; FOk (v0 :: r ++ [vf]) end = FOk (v0 :: r ++ [vf])).
  { rewrite LX. replace (S N - 2)%nat with (N - 1)%nat by lia. rewrite ER. destruct x as [|a [|b x]]; cbn in LX; try lia. reflexivity. }
  rewrite ED. cbn [fbind]. set (m := v0 :: r ++ [vf]). assert (LM : length m = S N) by (unfold m; cbn; rewrite app_length; cbn; lia).
  assert (MN : sq m N = vf).
  { unfold sq, m. destruct N as [|n]; [lia|]. cbn [nth]. rewrite app_nth2 by lia. replace (n - length r)%nat with 0%nat by lia. reflexivity. }
  rewrite LX. replace (S N - 1)%nat with N by lia.
  destruct (hpolys_spec x y m N LX LY LM H N 0 ltac:(lia)) as (ps & E & LP & HP). cbn [Nat.add] in HP. change (Z.of_nat 0) with 0%Z in E. rewrite E. cbn [fbind].
  assert (PC : forall k, (k < N)%nat -> let p := nth k ps [] in
    eval p (sq x k) = sq y k /\ eval p (sq x (S k)) = sq y (S k) /\ eval (deriv p) (sq x k) = sq m k /\ eval (deriv p) (sq x (S k)) = sq m (S k)).
  { intros k K. cbn zeta. pose proof (increasing_lt x k (S k) H ltac:(lia) ltac:(lia)) as A. fold (sq x k) (sq x (S k)) in A.
    destruct (segment_slope (sq x k) (sq y k) (sq m k) (sq x (S k)) (sq y (S k)) (sq m (S k)) ltac:(lra)) as (p & Ep & _ & Q). rewrite HP in Ep by auto. injection Ep as ->. exact Q. }
  assert (PL : forall k, (k < N)%nat -> length (nth k ps []) = 4%nat).
  { intros k K. pose proof (increasing_lt x k (S k) H ltac:(lia) ltac:(lia)) as A. fold (sq x k) (sq x (S k)) in A.
    destruct (segment_slope (sq x k) (sq y k) (sq m k) (sq x (S k)) (sq y (S k)) (sq m (S k)) ltac:(lra)) as (p & Ep & Q & _). rewrite HP in Ep by auto. injection Ep as ->. exact Q. }
  assert (M0 : forall i, (S i < N)%nat -> eval (nth i ps []) (sq x (S i)) = eval (nth (S i) ps []) (sq x (S i))).
  { intros i I. destruct (PC i ltac:(lia)) as (_ & -> & _). destruct (PC (S i) ltac:(lia)) as (-> & _). reflexivity. }
  assert (M1 : forall i, (S i < N)%nat -> eval (deriv (nth i ps [])) (sq x (S i)) = eval (deriv (nth (S i) ps [])) (sq x (S i))).
  { intros i I. destruct (PC i ltac:(lia)) as (_ & _ & _ & ->). destruct (PC (S i) ltac:(lia)) as (_ & _ & -> & _). reflexivity. }
  exists (mk_cspline x ps), (pw (breaks x) (map pe ps)), (pw (breaks x) (map pe1 ps)). split; [reflexivity|].
  split. { intros t T. unfold cs_eval, cs_deriv. cbn [cs_domain cs_polys]. split; [apply (cspline_eval debug x ps N pe); auto|apply (cspline_eval debug x ps N pe1); auto]. }
  destruct (c1_spline x ps N LX N1 LP H M0 M1) as [D1 C1]. split; [intros t; split; auto; now apply cont_at_pt|].
  assert (K1 : forall i, (i <= N)%nat -> pw (breaks x) (map pe1 ps) (nth i x 0) = nth i m 0).
  { intros i I. apply (pieces_knot x N LX N1 H (map pe1 ps) (fun i => nth i m 0)); auto; [now rewrite map_length|]. intros k K. rewrite (nth_map_fun pe1 ps []) by lia.
    destruct (PC k K) as (_ & _ & Q1 & Q2). split; [exact Q1|exact Q2]. }
  split.
  { intros i I. apply (pieces_knot x N LX N1 H (map pe ps) (fun i => nth i y 0)); auto; [now rewrite map_length|]. intros k K. rewrite (nth_map_fun pe ps []) by lia.
    destruct (PC k K) as (Q1 & Q2 & _). split; [exact Q1|exact Q2]. }
  split.
  { intros i I. destruct (cubic_form (nth i ps []) (PL i I)) as (c0 & c1 & c2 & c3 & CF). exists c0, c1, c2, c3. intros t T. rewrite <- CF.
    rewrite (pieces_on x N LX N1 H (map pe ps) i t); auto; [|now rewrite map_length|].
    - rewrite (nth_map_fun pe ps []) by lia. reflexivity.
    - apply (pieces_matched x N LX N1 H); [now rewrite map_length|]. intros k K. rewrite !(nth_map_fun pe ps []) by lia. apply M0. auto. }
  rewrite !K1 by lia. split; [reflexivity|]. split; [exact MN|]. intros i I L. rewrite K1 by lia. unfold m. destruct i as [|j]; [lia|]. cbn [nth].
  rewrite app_nth1 by lia. rewrite HR by lia. rewrite !Nat.sub_succ, !Nat.sub_0_r. reflexivity.
Qed.
