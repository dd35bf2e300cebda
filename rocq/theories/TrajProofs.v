(** Proofs about the trajectories: durations and the linear interpolation. *)
From Verif Require Import RBase PolyModel SplineModel PolyProofs RootsProofs SplineProofs CubicProofs SmoothProofs PolyProperties TrajModel.
Open Scope R_scope.

(** * Well formed waypoints *)

Definition wp_ok (dim : nat) (w : waypoint) : Prop := length (w_angles w) = dim /\ length (w_rates w) = dim /\ length (w_nominal w) = dim.
Definition wp0 : waypoint := wp_new 0.
Definition wp (wps : list waypoint) (i : nat) : waypoint := nth i wps wp0.
Definition angle (w : waypoint) (j : nat) : R := nth j (w_angles w) 0.
Definition nominal (w : waypoint) (j : nat) : R := nth j (w_nominal w) 0.
(** The rate asked for at an end: zero when it was not set. *)
Definition end_rate (w : waypoint) (j : nat) : R := if w_rates_set w then nth j (w_rates w) 0 else 0.
Definition rates_pos (w : waypoint) : Prop := Forall (fun r => 0 < r) (w_nominal w).
(** Everything but the duration. *)
Definition same_wp (v w : waypoint) : Prop := w_angles v = w_angles w /\ w_rates v = w_rates w /\ w_rates_set v = w_rates_set w /\ w_nominal v = w_nominal w.
Lemma same_wp_refl w : same_wp w w. Proof. repeat split. Qed.
Lemma same_wp_trans u v w : same_wp u v -> same_wp v w -> same_wp u w.
Proof. intros (A & B & C & D) (A' & B' & C' & D'). repeat split; congruence. Qed.

Lemma rates_positive_spec l : rates_positive l = true <-> Forall (fun r => 0 < r) l.
Proof.
  induction l as [|x l IH]; cbn; [split; auto|]. destruct (Rle_dec x 0) as [L|L].
  - split; [discriminate|]. intros F. inversion F; subst. lra.
  - rewrite IH. split; [constructor; [lra|auto]|]. intros F. now inversion F.
Qed.
Lemma validate_spec wps : validate_loop wps = true <-> forall i, (S i < length wps)%nat -> rates_pos (wp wps i).
Proof.
  induction wps as [|w tl IH]; cbn [validate_loop]; [split; [cbn; lia|auto]|]. destruct tl as [|v tl]; [split; [cbn; lia|auto]|].
  destruct (rates_positive (w_nominal w)) eqn:E.
  - apply rates_positive_spec in E. rewrite IH. split; intros H i I; [destruct i as [|i]; [exact E|apply (H i); cbn in *; lia]|apply (H (S i)); cbn in *; lia].
  - split; [discriminate|]. intros H. specialize (H 0%nat ltac:(cbn; lia)). apply rates_positive_spec in H. cbn in H. congruence.
Qed.

(** * Durations *)

Lemma joint_durations_spec a b nom dim : length a = dim -> length b = dim -> length nom = dim -> Forall (fun r => 0 < r) nom ->
  forall todo j m, (j + todo = dim)%nat -> 0 <= m -> exists m', joint_durations todo (Z.of_nat j) a b nom m = FOk m' /\ m <= m'
    /\ (forall k, (j <= k < dim)%nat -> Rabs (nth k b 0 - nth k a 0) <= nth k nom 0 * m')
    /\ (m' = m \/ exists k, (j <= k < dim)%nat /\ Rabs (nth k b 0 - nth k a 0) = nth k nom 0 * m').
Proof.
  intros LA LB LN P. induction todo as [|todo IH]; intros j m E M; cbn [joint_durations].
  { exists m. split; [reflexivity|]. split; [lra|]. split; [intros; lia|now left]. }
  rewrite !rget_nth by lia. cbn [fbind]. assert (PJ : 0 < nth j nom 0) by (rewrite Forall_forall in P; apply P; apply nth_In; lia).
  destruct (Req_EM_T (nth j nom 0) 0); [lra|]. rewrite fdiv_ok by lra. cbn [fbind]. set (d := Rabs (nth j b 0 - nth j a 0) / nth j nom 0).
  assert (D : Rabs (nth j b 0 - nth j a 0) = nth j nom 0 * d) by (unfold d; field; lra).
  set (m1 := if Rlt_dec m d then d else m). assert (M1 : m <= m1 /\ d <= m1 /\ (m1 = m \/ m1 = d)) by (unfold m1; destruct (Rlt_dec m d); repeat split; try lra; auto).
  destruct M1 as (M1 & M2 & M3). replace (Z.of_nat j + 1)%Z with (Z.of_nat (S j)) by lia.
  destruct (IH (S j) m1 ltac:(lia) ltac:(lra)) as (m' & E' & G & A & B). exists m'. split; [exact E'|]. split; [lra|]. split.
  - intros k K. destruct (Nat.eq_dec k j) as [->|NE]; [|apply A; lia]. rewrite D. apply Rmult_le_compat_l; lra.
  - destruct B as [->|(k & K & B)]; [|right; exists k; split; [lia|exact B]]. destruct M3 as [->| ->]; [now left|]. right. exists j. split; [lia|]. exact D.
Qed.

(** What is known of a segment after its duration was set: [d] before, [d'] after. *)
Record seg_dur (dim : nat) (w v : waypoint) (d d' : R) : Prop := {
  sd_longer : d <= d';
  sd_enough : forall j, (j < dim)%nat -> Rabs (angle v j - angle w j) <= nominal w j * d';
  sd_least : d' = d \/ exists j, (j < dim)%nat /\ Rabs (angle v j - angle w j) = nominal w j * d' }.

Lemma initialise_cons dim w v tl : initialise_loop dim (w :: v :: tl) =
  (m <-- joint_durations dim 0 (w_angles w) (w_angles v) (w_nominal w) 0 ;;
   let w' := if Rlt_dec (w_duration w) m then set_duration w m else w in
   if Req_EM_T (w_duration w') 0 then FOk (w' :: v :: tl, false)
   else r <-- initialise_loop dim (v :: tl) ;; FOk (w' :: fst r, snd r)).
Proof. reflexivity. Qed.

Lemma initialise_spec dim wps : wps <> [] -> Forall (wp_ok dim) wps -> (forall i, (S i < length wps)%nat -> rates_pos (wp wps i)) ->
  exists ws b, initialise_loop dim wps = FOk (ws, b) /\ length ws = length wps
    /\ (forall i, same_wp (wp ws i) (wp wps i) /\ w_duration (wp wps i) <= w_duration (wp ws i))
    /\ w_duration (last ws wp0) = w_duration (last wps wp0)
    /\ (b = true -> forall i, (S i < length wps)%nat -> 0 < w_duration (wp ws i) /\ seg_dur dim (wp wps i) (wp wps (S i)) (w_duration (wp wps i)) (w_duration (wp ws i)))
    /\ (b = false -> exists i, (S i < length wps)%nat /\ w_duration (wp wps i) <= 0 /\ forall j, (j < dim)%nat -> angle (wp wps (S i)) j = angle (wp wps i) j).
Proof.
  intros NE W P. induction wps as [|w tl IH]; [congruence|]. destruct tl as [|v tl].
  { exists [w], true. split; [reflexivity|]. split; [reflexivity|]. split; [intros [|[|i]]; (split; [apply same_wp_refl|lra])|]. split; [reflexivity|]. split; [cbn; intros; lia|discriminate]. }
  inversion W as [|? ? (A1 & A2 & A3) W']; subst. inversion W' as [|? ? (B1 & B2 & B3) W'']; subst.
  pose proof (P 0%nat ltac:(cbn; lia)) as P0. unfold wp, rates_pos in P0. cbn [nth] in P0.
  destruct (joint_durations_spec (w_angles w) (w_angles v) (w_nominal w) (length (w_angles w)) eq_refl B1 A3 P0 (length (w_angles w)) 0 0 eq_refl ltac:(lra)) as (m & E & M0 & EN & TI).
  change (Z.of_nat 0) with 0%Z in E. rewrite initialise_cons, E. cbn [fbind]. cbv zeta.
  set (w' := if Rlt_dec (w_duration w) m then set_duration w m else w).
  assert (D' : w_duration w' = Rmax (w_duration w) m) by (unfold w', Rmax; destruct (Rlt_dec (w_duration w) m), (Rle_dec (w_duration w) m); cbn; lra).
  assert (S' : same_wp w' w) by (unfold w'; destruct (Rlt_dec _ _); repeat split).
  pose proof (Rmax_l (w_duration w) m) as ML. pose proof (Rmax_r (w_duration w) m) as MR. rewrite <- D' in ML, MR.
  destruct (Req_EM_T (w_duration w') 0) as [Z|NZ].
  - exists (w' :: v :: tl), false. split; [reflexivity|]. split; [reflexivity|].
    split; [intros [|i]; [split; [exact S'|exact ML]|split; [apply same_wp_refl|unfold wp; cbn [nth]; lra]]|].
    split; [reflexivity|]. split; [discriminate|]. intros _. exists 0%nat. split; [cbn; lia|]. unfold wp. cbn [nth]. split; [lra|].
    intros j J. assert (m = 0) by lra. specialize (EN j ltac:(lia)). subst m. rewrite Rmult_0_r in EN. unfold angle. pose proof (Rabs_pos (nth j (w_angles v) 0 - nth j (w_angles w) 0)) as Q.
    assert (QQ : Rabs (nth j (w_angles v) 0 - nth j (w_angles w) 0) = 0) by lra. destruct (Req_dec (nth j (w_angles v) 0 - nth j (w_angles w) 0) 0) as [K|K]; [lra|]. apply Rabs_no_R0 in K. lra.
  - destruct (IH ltac:(discriminate) W' ltac:(intros i I; apply (P (S i)); cbn in *; lia)) as (ws & b & E1 & L1 & SM & LA & T & F). rewrite E1. cbn [fbind fst snd].
    exists (w' :: ws), b. split; [reflexivity|]. split; [cbn [length] in *; lia|].
    split; [intros [|i]; [split; [exact S'|exact ML]|apply (SM i)]|].
    split; [destruct ws as [|w1 ws]; [cbn in L1; lia|]; exact LA|]. split.
    + intros Eb [|i] I; [|unfold wp; cbn [nth]; apply T; [exact Eb|cbn in *; lia]]. unfold wp. cbn [nth]. split; [lra|]. constructor; [exact ML| |].
      * intros j J. specialize (EN j ltac:(lia)). unfold angle, nominal. apply Rle_trans with (1 := EN). apply Rmult_le_compat_l; [|exact MR].
        rewrite Forall_forall in P0. left. apply P0. apply nth_In. lia.
      * destruct (Rle_dec m (w_duration w)) as [L|L]; [left; rewrite D'; apply Rmax_left; lra|]. rewrite Rmax_right in D' by lra. right. rewrite D'. destruct TI as [->|(k & K & TI)].
        -- exfalso. lra.
        -- exists k. split; [lia|]. exact TI.
    + intros Eb. destruct (F Eb) as (i & I & D & A). exists (S i). split; [cbn in *; lia|]. split; [exact D|exact A].
Qed.

(** * The corners around the pseudo points *)

(** Whether one attempt succeeds depends only on the bound: it must exceed some [m], which is at least the mean acceleration. *)
Lemma quintic_within_spec l r t_l t_r : t_l < t_r -> exists m, 0 <= m
  /\ Rabs (deriv_at r t_r - deriv_at l t_l) <= m * (t_r - t_l)
  /\ forall a, quintic_within l r t_l t_r a = FOk (if Rlt_dec m (Rabs a) then true else false).
Proof.
  intros L. unfold quintic_within.
  destruct (C47_quintic t_l (eval l t_l) (deriv_at l t_l) 0 t_r (eval r t_r) (deriv_at r t_r) 0 ltac:(lra)) as (q & E & LQ & Q0 & Q1 & V0 & V1 & _ & _).
  rewrite E. rewrite (deriv_at_eval q) in V0, V1 by lia.
  assert (D2 : exists c0 c1 c2 c3, deriv (deriv q) = [c0; c1; c2; c3]).
  { destruct q as [|p0 [|p1 [|p2 [|p3 [|p4 [|p5 [|p6 q]]]]]]]; cbn in LQ; try lia. cbn. eauto. }
  destruct D2 as (c0 & c1 & c2 & c3 & D2).
  destruct (maximum_cubic_spec t_l t_r c0 c1 c2 c3 ltac:(lra)) as [_ MX]. destruct (minimum_cubic_spec t_l t_r c0 c1 c2 c3 ltac:(lra)) as [_ MN].
  set (M := maximum_cubic t_l t_r c0 c1 c2 c3) in *. set (m := minimum_cubic t_l t_r c0 c1 c2 c3) in *.
  pose proof (Rmax_l (Rabs M) (Rabs m)) as X1. pose proof (Rmax_r (Rabs M) (Rabs m)) as X2. pose proof (Rabs_pos M) as X3.
  exists (Rmax (Rabs M) (Rabs m)). split; [lra|]. split.
  - destruct (MVT_cor2 (eval (deriv q)) (eval (deriv (deriv q))) t_l t_r L) as (c & EC & C). { intros c C. apply eval_derive. }
    rewrite V0, V1 in EC. rewrite EC, D2. rewrite Rabs_mult. rewrite (Rabs_right (t_r - t_l)) by lra. apply Rmult_le_compat_r; [lra|].
    assert (B : m <= eval [c0; c1; c2; c3] c <= M) by (split; [apply MN; lra|apply MX; lra]). unfold Rabs in *. destruct (Rcase_abs M), (Rcase_abs m), (Rcase_abs (eval [c0; c1; c2; c3] c)); lra.
  - intros a. rewrite D2. fold M m. f_equal. unfold Rmax.
    destruct (Rlt_dec (Rabs M) (Rabs a)), (Rlt_dec (Rabs m) (Rabs a)), (Rle_dec (Rabs M) (Rabs m)), (Rlt_dec _ (Rabs a)); try reflexivity; lra.
Qed.

(** Five attempts: [ms] are the least bounds. *)
Lemma attempts_bounds try (ms : Z -> R) a : (forall i, (1 <= i <= 5)%Z -> try i = FOk (if Rlt_dec (ms i) (Rabs a) then true else false)) ->
  exists b, attempts try 5 1 = FOk b /\ (ms 1%Z < Rabs a -> b = false) /\ ((forall i, (1 <= i <= 5)%Z -> Rabs a <= ms i) -> b = true).
Proof.
  intros H. cbn [attempts]. change (1 + 1)%Z with 2%Z. change (2 + 1)%Z with 3%Z. change (3 + 1)%Z with 4%Z. change (4 + 1)%Z with 5%Z.
  rewrite !H by lia. cbn [fbind].
  destruct (Rlt_dec (ms 1%Z) (Rabs a)) as [L|L1]; [exists false; repeat split; intros K; [specialize (K 1%Z ltac:(lia)); lra]|]. cbn [fbind].
  destruct (Rlt_dec (ms 2%Z) (Rabs a)) as [L|L2]; [exists false; repeat split; intros K; specialize (K 2%Z ltac:(lia)); lra|]. cbn [fbind].
  destruct (Rlt_dec (ms 3%Z) (Rabs a)) as [L|L3]; [exists false; repeat split; intros K; specialize (K 3%Z ltac:(lia)); lra|]. cbn [fbind].
  destruct (Rlt_dec (ms 4%Z) (Rabs a)) as [L|L4]; [exists false; repeat split; intros K; specialize (K 4%Z ltac:(lia)); lra|]. cbn [fbind].
  destruct (Rlt_dec (ms 5%Z) (Rabs a)) as [L|L5]; [exists false; repeat split; intros K; specialize (K 5%Z ltac:(lia)); lra|].
  exists true. repeat split. intros K. lra.
Qed.

Definition with_acc (j : ljoint) (a : R) : ljoint := mk_lj (j_angle j) (j_rate j) (j_nominal j) (j_other j) a.
Lemma with_acc_id j : with_acc j (j_acc j) = j. Proof. now destruct j. Qed.

Lemma i_range i : (1 <= i <= 5)%Z -> 1 <= IZR i <= 5. Proof. intros H. split; apply IZR_le; lia. Qed.

(** One joint's check before the first waypoint. *)
Lemma pre_check_spec dur tp t_pre j : 0 < t_pre -> t_pre < tp + dur -> exists m, 0 <= m /\ forall a, exists b,
  pre_check dur tp t_pre (with_acc j a) = FOk b /\ (m < Rabs a -> b = false) /\ (a = 0 -> b = true).
Proof.
  intros T0 T1.
  assert (Q : forall i, exists m, (1 <= i <= 5)%Z -> 0 <= m /\ forall a, (segment <-- linear_interpolation t_pre (eval (initial_tangent j) t_pre) (tp + dur) (j_other j) ;;
    quintic_within (initial_tangent j) segment (t_pre - IZR i * t_pre / 5) (t_pre + IZR i * (tp + dur - t_pre) / 10) a) = FOk (if Rlt_dec m (Rabs a) then true else false)).
  { intros i. destruct (Z_le_dec 1 i) as [I1|]; [|exists 0; intros; lia]. destruct (Z_le_dec i 5) as [I2|]; [|exists 0; intros; lia]. pose proof (i_range i ltac:(lia)) as I3.
    unfold linear_interpolation. rewrite fdiv_ok by lra. cbn [fbind].
    set (s := [_; _]). assert (A1 : 0 < IZR i * t_pre) by nra. assert (A2 : 0 < IZR i * (tp + dur - t_pre)) by nra.
    destruct (quintic_within_spec (initial_tangent j) s (t_pre - IZR i * t_pre / 5) (t_pre + IZR i * (tp + dur - t_pre) / 10) ltac:(lra)) as (m & M & _ & E).
    exists m. intros _. split; [exact M|exact E]. }
  destruct (Q 1%Z) as (m1 & Q1). destruct (Q1 ltac:(lia)) as [M1 E1]. exists m1. split; [exact M1|]. intros a.
  assert (ch : exists ms : Z -> R, ms 1%Z = m1 /\ forall i, (1 <= i <= 5)%Z -> 0 <= ms i /\ (segment <-- linear_interpolation t_pre (eval (initial_tangent j) t_pre) (tp + dur) (j_other j) ;;
    quintic_within (initial_tangent j) segment (t_pre - IZR i * t_pre / 5) (t_pre + IZR i * (tp + dur - t_pre) / 10) a) = FOk (if Rlt_dec (ms i) (Rabs a) then true else false)).
  { destruct (Q 2%Z) as (m2 & Q2). destruct (Q 3%Z) as (m3 & Q3). destruct (Q 4%Z) as (m4 & Q4). destruct (Q 5%Z) as (m5 & Q5).
    exists (fun i => match i with 1 => m1 | 2 => m2 | 3 => m3 | 4 => m4 | _ => m5 end)%Z. split; [reflexivity|]. intros i I. assert (K : (i = 1 \/ i = 2 \/ i = 3 \/ i = 4 \/ i = 5)%Z) by lia.
    destruct K as [->|[->|[->|[->| ->]]]]; [destruct (Q1 ltac:(lia)) as [G H]|destruct (Q2 ltac:(lia)) as [G H]|destruct (Q3 ltac:(lia)) as [G H]|destruct (Q4 ltac:(lia)) as [G H]|destruct (Q5 ltac:(lia)) as [G H]]; (split; [exact G|apply H]). }
  destruct ch as (ms & MS & H). unfold pre_check. cbn [j_acc with_acc j_other].
  destruct (attempts_bounds _ ms a (fun i I => proj2 (H i I))) as (b & E & B1 & B2). exists b. split; [exact E|]. split; [rewrite <- MS; exact B1|].
  intros ->. apply B2. intros i I. rewrite Rabs_R0. apply (proj1 (H i I)).
Qed.
(** After the last one; with the bound below the mean acceleration every attempt fails. *)
Lemma post_check_spec dur tp t_post j : 0 < dur -> 0 <= t_post < tp -> tp <= dur -> exists m, 0 <= m /\ forall a, exists b,
  post_check dur tp t_post (with_acc j a) = FOk b /\ (m < Rabs a -> b = false) /\ (a = 0 -> b = true)
  /\ (t_post = 0 -> j_rate j = 0 -> 3 / 2 * dur * dur * Rabs a <= Rabs (j_angle j - j_other j) -> b = true).
Proof.
  intros D T0 T1.
  set (tg := final_tangent tp j). set (slope := (eval tg t_post - j_other j) / (t_post - - dur)).
  assert (Q : forall i, exists m, (1 <= i <= 5)%Z -> 0 <= m /\ (t_post = 0 -> j_rate j = 0 -> Rabs slope <= m * (3 / 2 * dur)) /\ forall a, (segment <-- linear_interpolation (- dur) (j_other j) t_post (eval tg t_post) ;;
    quintic_within segment tg (t_post - IZR i * (dur + t_post) / 10) (t_post + IZR i * (tp - t_post) / 5) a) = FOk (if Rlt_dec m (Rabs a) then true else false)).
  { intros i. destruct (Z_le_dec 1 i) as [I1|]; [|exists 0; intros; lia]. destruct (Z_le_dec i 5) as [I2|]; [|exists 0; intros; lia]. pose proof (i_range i ltac:(lia)) as I3.
    unfold linear_interpolation. rewrite fdiv_ok by lra. cbn [fbind]. fold slope.
    set (s := [_; _]). assert (A1 : 0 < IZR i * (dur + t_post)) by nra. assert (A2 : 0 < IZR i * (tp - t_post)) by nra.
    destruct (quintic_within_spec s tg (t_post - IZR i * (dur + t_post) / 10) (t_post + IZR i * (tp - t_post) / 5) ltac:(lra)) as (m & M & MM & E).
    exists m. intros _. split; [exact M|]. split; [|exact E]. intros Z R. replace (deriv_at tg _) with 0 in MM by (unfold tg, final_tangent, point_slope; rewrite R; cbn; ring).
    replace (deriv_at s _) with slope in MM by (unfold s; cbn; ring). rewrite Rminus_0_l, Rabs_Ropp in MM. apply Rle_trans with (1 := MM). subst t_post. apply Rmult_le_compat_l; [exact M|]. nra. }
  destruct (Q 1%Z) as (m1 & Q1). destruct (Q1 ltac:(lia)) as [M1 [_ E1]]. exists m1. split; [exact M1|]. intros a.
  assert (ch : exists ms : Z -> R, ms 1%Z = m1 /\ forall i, (1 <= i <= 5)%Z -> (0 <= ms i /\ (t_post = 0 -> j_rate j = 0 -> Rabs slope <= ms i * (3 / 2 * dur))) /\ (segment <-- linear_interpolation (- dur) (j_other j) t_post (eval tg t_post) ;;
    quintic_within segment tg (t_post - IZR i * (dur + t_post) / 10) (t_post + IZR i * (tp - t_post) / 5) a) = FOk (if Rlt_dec (ms i) (Rabs a) then true else false)).
  { destruct (Q 2%Z) as (m2 & Q2). destruct (Q 3%Z) as (m3 & Q3). destruct (Q 4%Z) as (m4 & Q4). destruct (Q 5%Z) as (m5 & Q5).
    exists (fun i => match i with 1 => m1 | 2 => m2 | 3 => m3 | 4 => m4 | _ => m5 end)%Z. split; [reflexivity|]. intros i I. assert (K : (i = 1 \/ i = 2 \/ i = 3 \/ i = 4 \/ i = 5)%Z) by lia.
    destruct K as [->|[->|[->|[->| ->]]]]; [destruct (Q1 ltac:(lia)) as [G [F H]]|destruct (Q2 ltac:(lia)) as [G [F H]]|destruct (Q3 ltac:(lia)) as [G [F H]]|destruct (Q4 ltac:(lia)) as [G [F H]]|destruct (Q5 ltac:(lia)) as [G [F H]]]; (split; [split; [exact G|exact F]|apply H]). }
  destruct ch as (ms & MS & H). unfold post_check. cbn [j_acc with_acc j_other]. change (final_tangent tp (with_acc j a)) with tg.
  destruct (attempts_bounds _ ms a (fun i I => proj2 (H i I))) as (b & E & B1 & B2). exists b. split; [exact E|]. split; [rewrite <- MS; exact B1|]. split.
  - intros ->. apply B2. intros i I. rewrite Rabs_R0. apply (proj1 (H i I)).
  - intros Z R L. apply B2. intros i I. destruct (H i I) as [[G F] _]. specialize (F Z R).
    assert (SL : Rabs slope = Rabs (j_angle j - j_other j) / dur).
    { unfold slope, tg, final_tangent, point_slope. rewrite R, Z. cbn [eval eval_loop]. replace ((j_angle j - 0 * tp + 0 * 0 - j_other j) / (0 - - dur)) with ((j_angle j - j_other j) / dur) by (field; lra).
      unfold Rdiv. rewrite Rabs_mult. rewrite (Rabs_right (/ dur)) by (left; now apply Rinv_0_lt_compat). reflexivity. }
    rewrite SL in F. apply Rmult_le_compat_r with (r := dur) in F; [|lra]. replace (Rabs (j_angle j - j_other j) / dur * dur) with (Rabs (j_angle j - j_other j)) in F by (field; lra).
    apply Rmult_le_reg_l with (3 / 2 * dur * dur); [nra|]. lra.
Qed.

(** * The pseudo points *)

Definition jpos (js : list ljoint) : Prop := Forall (fun j => 0 < j_nominal j) js.

Lemma psign_mult r : IZR (psign r) * r = Rabs r /\ IZR (psign r) * IZR (psign r) = 1.
Proof. unfold psign. destruct (Rle_dec 0 r); [rewrite Rabs_right by lra|rewrite Rabs_left by lra]; simpl IZR; lra. Qed.
(** The two lines are never taken for parallel. *)
Lemma not_approx r n : 0 < n -> is_approx r (-1 * IZR (psign r) * n) double_precision = false.
Proof.
  intros N. unfold is_approx. destruct (Rle_dec _ _) as [L|]; [exfalso|reflexivity].
  assert (P : 0 < double_precision < 1). { unfold double_precision. split; [apply Rinv_0_lt_compat; lra|]. rewrite <- Rinv_1. apply Rinv_lt_contravar; lra. }
  assert (E : Rabs (r - -1 * IZR (psign r) * n) = Rabs r + n).
  { unfold psign. destruct (Rle_dec 0 r); simpl IZR; [rewrite (Rabs_right r) by lra; rewrite Rabs_right by lra|rewrite (Rabs_left r) by lra; rewrite Rabs_left by lra]; lra. }
  assert (E2 : Rabs (-1 * IZR (psign r) * n) = n). { unfold psign. destruct (Rle_dec 0 r); simpl IZR; [rewrite Rabs_left by lra|rewrite Rabs_right by lra]; lra. }
  rewrite E, E2 in L. pose proof (Rmin_r (Rabs r) n). pose proof (Rmin_glb_lt (Rabs r) n (-1) ltac:(pose proof (Rabs_pos r); lra) ltac:(lra)). pose proof (Rabs_pos r).
  assert (0 <= Rmin (Rabs r) n) by (apply Rmin_glb; lra). nra.
Qed.

Lemma pre_cross j tp : 0 < j_nominal j -> let slope := -1 * IZR (psign (j_rate j)) * j_nominal j in
  exists y, snd (intersection (j_angle j - j_rate j * 0) (j_rate j) (j_angle j - slope * tp) slope false) = FOk (j_nominal j * tp / (Rabs (j_rate j) + j_nominal j), y).
Proof.
  intros N slope. unfold intersection. unfold slope at 1. rewrite (not_approx _ _ N). cbn [snd]. destruct (psign_mult (j_rate j)) as [P1 P2]. pose proof (Rabs_pos (j_rate j)) as RP.
  assert (S1 : slope = - IZR (psign (j_rate j)) * j_nominal j) by (unfold slope; ring).
  assert (S2 : j_rate j = IZR (psign (j_rate j)) * Rabs (j_rate j)). { rewrite <- P1 at 1. rewrite <- Rmult_assoc, P2. ring. }
  assert (S3 : slope - j_rate j = - IZR (psign (j_rate j)) * (Rabs (j_rate j) + j_nominal j)) by (rewrite S1; rewrite S2 at 2; ring).
  assert (PN : IZR (psign (j_rate j)) <> 0) by nra.
  rewrite fdiv_ok by (rewrite S3; apply Rmult_integral_contrapositive_currified; [lra|lra]). cbn [fbind]. eexists. apply (f_equal FOk). apply f_equal2; [|reflexivity].
  rewrite S3, S1. field. split; lra.
Qed.
Lemma post_cross j tp : 0 < j_nominal j -> let slope := -1 * IZR (psign (j_rate j)) * j_nominal j in
  exists y, snd (intersection (j_angle j - j_rate j * tp) (j_rate j) (j_angle j - slope * 0) slope false) = FOk (Rabs (j_rate j) * tp / (Rabs (j_rate j) + j_nominal j), y).
Proof.
  intros N slope. unfold intersection. unfold slope at 1. rewrite (not_approx _ _ N). cbn [snd]. destruct (psign_mult (j_rate j)) as [P1 P2]. pose proof (Rabs_pos (j_rate j)) as RP.
  assert (S1 : slope = - IZR (psign (j_rate j)) * j_nominal j) by (unfold slope; ring).
  assert (S2 : j_rate j = IZR (psign (j_rate j)) * Rabs (j_rate j)). { rewrite <- P1 at 1. rewrite <- Rmult_assoc, P2. ring. }
  assert (S3 : slope - j_rate j = - IZR (psign (j_rate j)) * (Rabs (j_rate j) + j_nominal j)) by (rewrite S1; rewrite S2 at 2; ring).
  assert (PN : IZR (psign (j_rate j)) <> 0) by nra.
  rewrite fdiv_ok by (rewrite S3; apply Rmult_integral_contrapositive_currified; [lra|lra]). cbn [fbind]. eexists. apply (f_equal FOk). apply f_equal2; [|reflexivity].
  assert (S4 : j_angle j - j_rate j * tp - (j_angle j - slope * 0) = - IZR (psign (j_rate j)) * (Rabs (j_rate j) * tp)).
  { transitivity (- (j_rate j * tp)); [ring|]. rewrite S2 at 1. ring. }
  rewrite S3, S4. field. split; lra.
Qed.
Lemma frac_lt a b tp : 0 < a -> 0 <= b -> 0 < tp -> 0 < a * tp / (b + a) <= tp.
Proof.
  intros A B T. assert (I : 0 < / (b + a)) by (apply Rinv_0_lt_compat; lra). split; [apply Rmult_lt_0_compat; [nra|exact I]|].
  apply Rmult_le_reg_r with (b + a); [lra|]. unfold Rdiv. rewrite Rmult_assoc, Rinv_l by lra. nra.
Qed.
Lemma frac_lt' a b tp : 0 < a -> 0 <= b -> 0 < tp -> 0 <= b * tp / (b + a) < tp.
Proof.
  intros A B T. assert (I : 0 < / (b + a)) by (apply Rinv_0_lt_compat; lra). split; [apply Rmult_le_pos; [nra|lra]|].
  apply Rmult_lt_reg_r with (b + a); [lra|]. unfold Rdiv. rewrite Rmult_assoc, Rinv_l by lra. nra.
Qed.

Lemma pre_time_spec js tp : jpos js -> 0 < tp -> forall t, 0 < t -> exists t', pre_time js tp t = FOk t' /\ 0 < t' <= t
  /\ forall j, In j js -> t' <= j_nominal j * tp / (Rabs (j_rate j) + j_nominal j).
Proof.
  intros P T. induction P as [|j js PJ P IH]; intros t T0; cbn [pre_time].
  { exists t. split; [reflexivity|]. split; [lra|]. intros j []. }
  destruct (pre_cross j tp PJ) as (y & E). rewrite E. cbn [fbind fst]. pose proof (frac_lt (j_nominal j) (Rabs (j_rate j)) tp PJ (Rabs_pos _) T) as F.
  set (x := j_nominal j * tp / (Rabs (j_rate j) + j_nominal j)) in *.
  destruct (IH (if Rlt_dec x t then x else t) ltac:(destruct (Rlt_dec x t); lra)) as (t' & E' & B & A). exists t'. split; [exact E'|].
  assert (Q : (if Rlt_dec x t then x else t) <= t /\ (if Rlt_dec x t then x else t) <= x) by (destruct (Rlt_dec x t); lra). split; [lra|]. intros k [<-|K]; [fold x; lra|]. now apply A.
Qed.
Lemma post_time_spec js tp : jpos js -> 0 < tp -> forall t, 0 <= t < tp -> exists t', post_time js tp t = FOk t' /\ t <= t' < tp
  /\ (forall j, In j js -> Rabs (j_rate j) * tp / (Rabs (j_rate j) + j_nominal j) <= t')
  /\ ((forall j, In j js -> j_rate j = 0) -> t' = t).
Proof.
  intros P T. induction P as [|j js PJ P IH]; intros t T0; cbn [post_time].
  { exists t. split; [reflexivity|]. split; [lra|]. split; [intros j []|reflexivity]. }
  destruct (post_cross j tp PJ) as (y & E). rewrite E. cbn [fbind fst]. pose proof (frac_lt' (j_nominal j) (Rabs (j_rate j)) tp PJ (Rabs_pos _) T) as F.
  set (x := Rabs (j_rate j) * tp / (Rabs (j_rate j) + j_nominal j)) in *.
  destruct (IH (if Rlt_dec t x then x else t) ltac:(destruct (Rlt_dec t x); lra)) as (t' & E' & B & A & Z). exists t'. split; [exact E'|].
  assert (Q : t <= (if Rlt_dec t x then x else t) /\ x <= (if Rlt_dec t x then x else t)) by (destruct (Rlt_dec t x); lra). split; [lra|]. split; [intros k [<-|K]; [fold x; lra|now apply A]|].
  intros R. rewrite Z by (intros k K; apply R; now right). assert (X0 : x = 0) by (unfold x; rewrite (R j (or_introl eq_refl)), Rabs_R0; unfold Rdiv; ring). destruct (Rlt_dec t x); lra.
Qed.

(** The flag at the end of the loop over the joints is the last joint's. *)
Lemma broken_joints_spec check js : (forall j, In j js -> exists b, check j = FOk b) -> forall b0, exists b, broken_joints check js b0 = FOk b
  /\ (js = [] -> b = b0) /\ (forall j0, js <> [] -> check (last js j0) = FOk b).
Proof.
  induction js as [|j js IH]; intros H b0; cbn [broken_joints].
  { exists b0. split; [reflexivity|]. split; [auto|]. congruence. }
  destruct (H j (or_introl eq_refl)) as (b1 & E1). rewrite E1. cbn [fbind]. destruct (IH (fun k K => H k (or_intror K)) b1) as (b & E & A & B). exists b. split; [exact E|].
  split; [discriminate|]. intros j0 _. destruct js as [|k js]; [cbn; now rewrite (A eq_refl)|]. apply (B j0). discriminate.
Qed.

Lemma pre_loop_spec js dur : jpos js -> js <> [] -> 0 < dur -> forall fuel tp b t0, 0 < tp -> dur < tp * 2 ^ fuel -> exists b' tp' t', pre_loop (S fuel) js dur tp b t0 = FOk (b', tp', t')
  /\ (b = false -> b' = false /\ tp' = tp /\ t' = t0)
  /\ (b = true -> b' = false -> exists q, tp <= q <= dur /\ tp' = 2 * q /\ 0 < t' <= dur / 2 /\ forall j, In j js -> t' <= j_nominal j * q / (Rabs (j_rate j) + j_nominal j))
  /\ (b = true -> (forall j0, j_acc (last js j0) = 0) -> b' = true).
Proof.
  intros P NE D. induction fuel as [|fuel IH]; intros tp b t0 T F.
  - cbn [pow] in F. cbn [pre_loop]. destruct (Rle_dec tp dur); [lra|]. rewrite Bool.andb_false_r. exists b, tp, t0. split; [reflexivity|]. split; [auto|]. split; [congruence|auto].
  - remember (S fuel) as f1. cbn [pre_loop]. subst f1. destruct (Rle_dec tp dur) as [L|L]; [|rewrite Bool.andb_false_r; exists b, tp, t0; split; [reflexivity|]; split; [auto|]; split; [congruence|auto]].
    destruct b; cbn [andb]; [|exists false, tp, t0; split; [reflexivity|]; split; [auto|]; split; congruence].
    destruct (pre_time_spec js tp P T (dur / 2) ltac:(lra)) as (t & E & B & A). rewrite E. cbn [fbind].
    assert (CH : forall j, In j js -> exists b, pre_check dur tp t j = FOk b /\ (j_acc j = 0 -> b = true)).
    { intros j J. destruct (pre_check_spec dur tp t j ltac:(lra) ltac:(lra)) as (m & _ & H). destruct (H (j_acc j)) as (b & Eb & _ & Z). rewrite with_acc_id in Eb. eauto. }
    destruct (broken_joints_spec (pre_check dur tp t) js (fun j J => let (b, H) := CH j J in ex_intro _ b (proj1 H)) false) as (b & Eb & _ & LB). rewrite Eb. cbn [fbind].
    destruct (IH (tp * 2) b t ltac:(lra) ltac:(cbn [pow] in F; lra)) as (b' & tp' & t' & E' & H1 & H2 & H3). exists b', tp', t'. split; [exact E'|]. split; [discriminate|]. split.
    + intros _ Ef. destruct b.
      * destruct (H2 eq_refl Ef) as (q & Q1 & Q2 & Q3). exists q. split; [lra|]. auto.
      * destruct (H1 eq_refl) as (_ & -> & ->). exists tp. split; [lra|]. split; [ring|]. split; [exact B|exact A].
    + intros _ Z. destruct b; [now apply H3|]. exfalso. destruct js as [|j1 js1]; [congruence|]. specialize (LB j1 ltac:(discriminate)).
      destruct (CH (last (j1 :: js1) j1)) as (b2 & E2 & Z2). { destruct (exists_last (l := j1 :: js1) ltac:(discriminate)) as (u & v & Q). rewrite Q. rewrite last_last. apply in_or_app. right. now left. }
      rewrite LB in E2. injection E2 as <-. specialize (Z2 (Z j1)). discriminate.
Qed.
Lemma post_loop_spec js dur : jpos js -> js <> [] -> 0 < dur -> forall fuel tp b t0, 0 < tp -> dur < tp * 2 ^ fuel -> exists b' tp' t', post_loop (S fuel) js dur tp b t0 = FOk (b', tp', t')
  /\ (b = false -> b' = false /\ tp' = tp /\ t' = t0)
  /\ (b = true -> b' = false -> exists q, tp <= q <= dur /\ tp' = 2 * q /\ 0 <= t' < q /\ forall j, In j js -> Rabs (j_rate j) * q / (Rabs (j_rate j) + j_nominal j) <= t')
  /\ (b = true -> (forall j0, j_acc (last js j0) = 0) -> b' = true)
  /\ (b = true -> dur < tp -> b' = true)
  /\ (b = true -> (forall j, In j js -> j_rate j = 0) -> (forall j0, let j := last js j0 in 3 / 2 * dur * dur * Rabs (j_acc j) <= Rabs (j_angle j - j_other j)) -> b' = true).
Proof.
  intros P NE D. induction fuel as [|fuel IH]; intros tp b t0 T F.
  - cbn [pow] in F. cbn [post_loop]. destruct (Rle_dec tp dur); [lra|]. rewrite Bool.andb_false_r. exists b, tp, t0. split; [reflexivity|]. split; [auto|]. split; [congruence|auto].
  - remember (S fuel) as f1. cbn [post_loop]. subst f1. destruct (Rle_dec tp dur) as [L|L]; [|rewrite Bool.andb_false_r; exists b, tp, t0; split; [reflexivity|]; split; [auto|]; split; [congruence|auto]].
    destruct b; cbn [andb]; [|exists false, tp, t0; split; [reflexivity|]; split; [auto|]; split; [congruence|]; repeat split; congruence].
    destruct (post_time_spec js tp P T 0 ltac:(lra)) as (t & E & B & A & TZ). rewrite E. cbn [fbind].
    assert (CH : forall j, In j js -> exists b, post_check dur tp t j = FOk b /\ (j_acc j = 0 -> b = true) /\ (t = 0 -> j_rate j = 0 -> 3 / 2 * dur * dur * Rabs (j_acc j) <= Rabs (j_angle j - j_other j) -> b = true)).
    { intros j J. destruct (post_check_spec dur tp t j ltac:(lra) ltac:(lra) L) as (m & _ & H). destruct (H (j_acc j)) as (b & Eb & _ & Z). rewrite with_acc_id in Eb. eauto. }
    destruct (broken_joints_spec (post_check dur tp t) js (fun j J => let (b, H) := CH j J in ex_intro _ b (proj1 H)) false) as (b & Eb & _ & LB). rewrite Eb. cbn [fbind].
    destruct (IH (tp * 2) b t ltac:(lra) ltac:(cbn [pow] in F; lra)) as (b' & tp' & t' & E' & H1 & H2 & H3 & H4 & H5). exists b', tp', t'. split; [exact E'|]. split; [discriminate|].
    assert (LS : forall j1, In (last js j1) js). { intros j1. destruct js as [|j2 js2]; [congruence|]. destruct (exists_last (l := j2 :: js2) ltac:(discriminate)) as (u & v & Q). rewrite Q. rewrite last_last. apply in_or_app. right. now left. }
    split; [|split; [|split]].
    + intros _ Ef. destruct b.
      * destruct (H2 eq_refl Ef) as (q & Q1 & Q2 & Q3). exists q. split; [lra|]. auto.
      * destruct (H1 eq_refl) as (_ & -> & ->). exists tp. split; [lra|]. split; [ring|]. split; [lra|exact A].
    + intros _ Z. destruct b; [now apply H3|]. exfalso. specialize (LB (mk_lj 0 0 0 0 0) NE).
      destruct (CH _ (LS (mk_lj 0 0 0 0 0))) as (b2 & E2 & Z2 & _). rewrite LB in E2. injection E2 as <-. specialize (Z2 (Z _)). discriminate.
    + intros _ Z. lra.
    + intros _ RZ Z. destruct b; [now apply H5|]. exfalso. specialize (LB (mk_lj 0 0 0 0 0) NE).
      destruct (CH _ (LS (mk_lj 0 0 0 0 0))) as (b2 & E2 & _ & Z2). rewrite LB in E2. injection E2 as <-. specialize (Z2 (TZ RZ) (RZ _ (LS _)) (Z _)). discriminate.
Qed.

Lemma pow2_ge k : INR k + 1 <= 2 ^ k.
Proof. induction k as [|k IH]; [cbn; lra|]. rewrite S_INR. cbn [pow]. pose proof (pos_INR k). lra. Qed.
Lemma doublings_spec dur : 0 < dur -> exists f, doublings dur = S f /\ dur < 1 / 1000 * 2 ^ f.
Proof.
  intros D. unfold doublings. eexists. split; [reflexivity|]. set (k := Z.to_nat (up (dur * 1000))). pose proof (pow2_ge (S k)) as P. rewrite S_INR in P. pose proof (archimed (dur * 1000)) as [A _].
  assert (K : INR k = IZR (up (dur * 1000))). { unfold k. rewrite INR_IZR_INZ. rewrite Z2Nat.id; [reflexivity|]. apply le_IZR. lra. }
  lra.
Qed.

(** With large enough bounds the first round succeeds. [like] relates two joints that differ in the bound only. *)
Definition like (b j : ljoint) : Prop := j = with_acc b (j_acc j).
Lemma pre_time_like bs js tp : Forall2 like bs js -> forall t, pre_time js tp t = pre_time bs tp t.
Proof. intros F. induction F as [|b j bs js L F IH]; intros t; cbn [pre_time]; [reflexivity|]. red in L. rewrite L. cbn [with_acc j_angle j_rate j_nominal]. destruct (snd _) as [p| | |]; cbn [fbind]; auto. Qed.
Lemma post_time_like bs js tp : Forall2 like bs js -> forall t, post_time js tp t = post_time bs tp t.
Proof. intros F. induction F as [|b j bs js L F IH]; intros t; cbn [post_time]; [reflexivity|]. red in L. rewrite L. cbn [with_acc j_angle j_rate j_nominal]. destruct (snd _) as [p| | |]; cbn [fbind]; auto. Qed.
Lemma checks_like (check : ljoint -> fres bool) bs : (forall b, In b bs -> exists m, 0 <= m /\ forall a, m < Rabs a -> check (with_acc b a) = FOk false) ->
  exists m, 0 <= m /\ forall js, Forall2 like bs js -> (forall j, In j js -> m < Rabs (j_acc j)) -> broken_joints check js false = FOk false.
Proof.
  induction bs as [|b bs IH]; intros H.
  { exists 0. split; [lra|]. intros js F _. inversion F; subst. reflexivity. }
  destruct (H b (or_introl eq_refl)) as (m1 & M1 & H1). destruct (IH (fun c C => H c (or_intror C))) as (m2 & M2 & H2). exists (Rmax m1 m2). pose proof (Rmax_l m1 m2). pose proof (Rmax_r m1 m2). split; [lra|].
  intros js F A. inversion F as [|? j ? js' L F']; subst. cbn [broken_joints]. red in L. rewrite L. rewrite H1 by (specialize (A j (or_introl eq_refl)); lra). cbn [fbind].
  apply H2; [exact F'|]. intros k K. specialize (A k (or_intror K)). lra.
Qed.
Lemma pre_loop_large bs dur : jpos bs -> 1 / 1000 <= dur -> exists m t, 0 <= m /\ 0 < t <= dur / 2 /\ (forall j, In j bs -> t <= j_nominal j * (1 / 1000) / (Rabs (j_rate j) + j_nominal j)) /\ forall js, Forall2 like bs js -> (forall j, In j js -> m < Rabs (j_acc j)) ->
  pre_loop (doublings dur) js dur (1 / 1000) true 0 = FOk (false, 1 / 1000 * 2, t).
Proof.
  intros P L. destruct (pre_time_spec bs (1 / 1000) P ltac:(lra) (dur / 2) ltac:(lra)) as (t & E & B & A).
  destruct (checks_like (pre_check dur (1 / 1000) t) bs) as (m & M & H).
  { intros b I. destruct (pre_check_spec dur (1 / 1000) t b ltac:(lra) ltac:(lra)) as (m & M & H). exists m. split; [exact M|]. intros a A'. destruct (H a) as (r & Er & R & _). rewrite Er. now rewrite (R A'). }
  exists m, t. split; [exact M|]. split; [exact B|]. split; [exact A|]. intros js F G. unfold doublings. set (k := Z.to_nat _). cbn [pre_loop]. destruct (Rle_dec (1 / 1000) dur); [|lra]. cbn [andb].
  rewrite (pre_time_like bs js _ F), E. cbn [fbind]. rewrite (H js F G). reflexivity.
Qed.
Lemma post_loop_large bs dur : jpos bs -> 1 / 1000 <= dur -> exists m t, 0 <= m /\ 0 <= t < 1 / 1000 /\ forall js, Forall2 like bs js -> (forall j, In j js -> m < Rabs (j_acc j)) ->
  post_loop (doublings dur) js dur (1 / 1000) true 0 = FOk (false, 1 / 1000 * 2, t).
Proof.
  intros P L. destruct (post_time_spec bs (1 / 1000) P ltac:(lra) 0 ltac:(lra)) as (t & E & B & A & _).
  destruct (checks_like (post_check dur (1 / 1000) t) bs) as (m & M & H).
  { intros b I. destruct (post_check_spec dur (1 / 1000) t b ltac:(lra) ltac:(lra) L) as (m & M & H). exists m. split; [exact M|]. intros a A'. destruct (H a) as (r & Er & R & _). rewrite Er. now rewrite (R A'). }
  exists m, t. split; [exact M|]. split; [lra|]. intros js F G. unfold doublings. set (k := Z.to_nat _). cbn [post_loop]. destruct (Rle_dec (1 / 1000) dur); [|lra]. cbn [andb].
  rewrite (post_time_like bs js _ F), E. cbn [fbind]. rewrite (H js F G). reflexivity.
Qed.

(** * The times and the values *)

Lemma fmap_ok {A B} (f : A -> fres B) (g : A -> B) l : (forall a, In a l -> f a = FOk (g a)) -> fmap f l = FOk (map g l).
Proof. induction l as [|a l IH]; intros H; cbn [fmap map]; [reflexivity|]. rewrite (H a (or_introl eq_refl)). cbn [fbind]. rewrite IH by (intros b B'; apply H; now right). reflexivity. Qed.
Lemma fmap_joints {B} (f : Z -> fres B) (g : nat -> B) dim : (forall j, (j < dim)%nat -> f (Z.of_nat j) = FOk (g j)) -> fmap f (joints dim) = FOk (map g (seq 0 dim)).
Proof.
  intros H. unfold joints. assert (G : forall s, (forall j, In j s -> (j < dim)%nat) -> fmap f (map Z.of_nat s) = FOk (map g s)).
  { induction s as [|a s IH]; intros K; cbn [map fmap]; [reflexivity|]. rewrite H by (apply K; now left). cbn [fbind]. rewrite IH by (intros j J; apply K; now right). reflexivity. }
  apply G. intros j J. apply in_seq in J. lia.
Qed.

Lemma increasing_cons a l : (l <> [] -> a < hd 0 l) -> increasing l -> increasing (a :: l).
Proof. intros H I i L. destruct i as [|i]; [destruct l as [|b l]; [cbn in L; lia|]; apply H; discriminate|]. apply I. cbn in L. lia. Qed.
Lemma increasing_snoc l t : increasing l -> (l <> [] -> last l 0 < t) -> increasing (l ++ [t]).
Proof.
  intros I H i L. rewrite app_length in L. cbn in L. destruct (Nat.eq_dec (S i) (length l)) as [E|E].
  - rewrite app_nth1 by lia. rewrite app_nth2 by lia. replace (S i - length l)%nat with 0%nat by lia. cbn [nth]. assert (NE : l <> []) by (intros ->; cbn in E; lia).
    specialize (H NE). rewrite last_nth in H by auto. now replace (length l - 1)%nat with i in H by lia.
  - rewrite !app_nth1 by lia. apply I. lia.
Qed.
Definition total (ds : list R) : R := fold_right Rplus 0 ds.
Lemma cumulate_spec ds : forall t, Forall (fun d => 0 < d) ds -> increasing (t :: cumulate t ds) /\ length (cumulate t ds) = length ds /\ last (t :: cumulate t ds) 0 = t + total ds.
Proof.
  induction ds as [|d ds IH]; intros t F; cbn [cumulate].
  { split; [intros i L; cbn in L; lia|]. split; [reflexivity|]. cbn. lra. }
  inversion F as [|? ? D F']; subst. destruct (IH (t + d) F') as (I & L & E). split; [apply increasing_cons; [intros _; cbn [hd]; lra|exact I]|]. split; [cbn [length]; lia|].
  change (last (t :: (t + d) :: cumulate (t + d) ds) 0) with (last ((t + d) :: cumulate (t + d) ds) 0). rewrite E. unfold total. cbn [fold_right]. fold (total ds). ring.
Qed.

(** The times increase; the first two and the last two are these. *)
Lemma times_spec n t_pre pd mids ld t_post qd : (1 <= n)%nat -> length mids = (n - 2)%nat -> 0 < t_pre -> 0 < pd -> Forall (fun d => 0 < d) mids -> 0 < ld -> 0 <= t_post -> 0 < qd ->
  let x := linear_times n t_pre pd mids ld t_post qd in
  increasing x /\ length x = (n + 3)%nat /\ sq x 0 = 0 /\ sq x 1 = t_pre
  /\ sq x (n + 2) = (if (n =? 1)%nat then t_pre else t_pre + pd + total mids) + ld + t_post + qd /\ sq x (n + 2) - sq x (n + 1) = qd.
Proof.
  intros N LM T1 P M L T2 Q. cbn zeta. unfold linear_times. set (inner := t_pre :: _).
  assert (I : increasing inner /\ length inner = n /\ last inner 0 = if (n =? 1)%nat then t_pre else t_pre + pd + total mids).
  { unfold inner. destruct (Nat.eqb_spec n 1) as [E|E].
    - split; [intros i K; cbn in K; lia|]. split; [cbn; lia|reflexivity].
    - destruct (cumulate_spec (pd :: mids) t_pre ltac:(constructor; auto)) as (I & LI & LA). split; [exact I|]. split; [cbn [length] in *; lia|]. rewrite LA. unfold total. cbn [fold_right]. ring. }
  destruct I as (I & LI & LA). set (t := last inner 0 + ld + t_post).
  assert (NE : inner <> []) by (unfold inner; discriminate).
  change [t; t + qd] with ([t] ++ [t + qd]). rewrite app_assoc. change (0 :: (inner ++ [t]) ++ [t + qd]) with ((0 :: inner ++ [t]) ++ [t + qd]).
  split.
  { apply increasing_snoc; [|intros _; change (0 :: inner ++ [t]) with ((0 :: inner) ++ [t]); rewrite last_last; lra]. apply increasing_cons; [intros _; unfold inner; cbn [hd app]; exact T1|].
    apply increasing_snoc; [exact I|]. intros _. unfold t. lra. }
  assert (LL : length (0 :: inner ++ [t]) = (n + 2)%nat) by (cbn [length]; rewrite app_length; cbn [length]; lia).
  split; [rewrite app_length, LL; cbn; lia|]. split; [reflexivity|]. split; [reflexivity|].
  assert (E2 : sq ((0 :: inner ++ [t]) ++ [t + qd]) (n + 2) = t + qd) by (unfold sq; rewrite app_nth2 by lia; rewrite LL, Nat.sub_diag; reflexivity).
  assert (E1 : sq ((0 :: inner ++ [t]) ++ [t + qd]) (n + 1) = t).
  { unfold sq. rewrite app_nth1 by lia. change (0 :: inner ++ [t]) with ((0 :: inner) ++ [t]). rewrite app_nth2 by (cbn [length]; lia). cbn [length]. replace (n + 1 - S (length inner))%nat with 0%nat by lia. reflexivity. }
  rewrite E2, E1. split; [unfold t; rewrite LA; ring|ring].
Qed.

(** Where the smooth linear spline gives up. *)
Lemma broken_corner_spec x segs a n todo : forall i, sl_corners x segs a n todo i = FThrow ConstructorError -> (i <= broken_corner x segs a n todo i < i + Z.of_nat todo)%Z.
Proof.
  induction todo as [|todo IH]; intros i H; [discriminate H|]. cbn [sl_corners] in H. cbn [broken_corner]. destruct (corner_broken x segs a n i) eqn:CB; [lia|]. unfold corner_broken in CB.
  destruct (aget segs (i - 1)) as [l| | |]; cbn [fbind] in *; try discriminate. destruct (aget segs i) as [r| | |]; cbn [fbind] in *; try discriminate.
  destruct (rget l 0) as [l0| | |] eqn:E0; cbn [fbind] in *; try discriminate; [|exfalso; unfold rget in E0; destruct (zget l 0); discriminate]. destruct (rget l 1) as [l1| | |]; cbn [fbind] in *; try discriminate. destruct (rget r 1) as [r1| | |]; cbn [fbind] in *; try discriminate.
  destruct (rget x i) as [xi| | |]; cbn [fbind] in *; try discriminate.
  destruct (Req_EM_T l1 r1) as [RE|RN].
  - cbn [fbind] in H. destruct (sl_corners x segs a n todo (i + 1)) as [[cs ds]| |e|] eqn:E; cbn [fbind] in H; try discriminate. injection H as ->. specialize (IH _ E). lia.
  - destruct (rget x (i - 1)) as [xm| | |]; cbn [fbind] in *; try discriminate. destruct (rget x (i + 1)) as [xp| | |]; cbn [fbind] in *; try discriminate.
    destruct (sl_attempts _ _ _ _ _ _ _ _ _ _) as [[[q xl] xr]| |e2|] eqn:EA; cbn [fbind] in *; try discriminate.
    destruct (sl_corners x segs a n todo (i + 1)) as [[cs ds]| |e|] eqn:E; cbn [fbind] in H; try discriminate. injection H as ->. specialize (IH _ E). lia.
Qed.
Lemma failing_corner_spec x y a N : length x = S N -> length y = S N -> (1 <= N)%nat -> increasing x -> smooth_linear x y a = FThrow ConstructorError -> (1 <= failing_corner x y a < Z.of_nat N)%Z.
Proof.
  intros LX LY N1 H E. unfold smooth_linear in E. replace (Zlen x =? Zlen y)%Z with true in E by (unfold Zlen; lia). cbn [negb] in E. replace (Zlen x <? 2)%Z with false in E by (unfold Zlen; lia).
  unfold failing_corner. rewrite LX in *. cbn zeta in E. replace (S N - 1)%nat with N in * by lia. pose proof (slsegs_spec x y N LX LY H N 0 ltac:(lia)) as ES. change (Z.of_nat 0) with 0%Z in ES. rewrite ES in *. cbn [fbind] in E.
  pose proof (rget_nth x 0 ltac:(lia)) as E0. change (Z.of_nat 0) with 0%Z in E0. rewrite E0 in E. rewrite rget_nth in E by lia. cbn [fbind] in E.
  match type of E with (_ <-- ?m ;; _) = _ => destruct m as [[cs ds]| |e|] eqn:EC; cbn [fbind] in E; try discriminate end. injection E as ->. apply broken_corner_spec in EC. lia.
Qed.
