(** Properties of planar poses, trajectories and the differential drive: C58-C61, C144-C147. *)
From Verif Require Import RBase AngleModel AngleProofs PoseModel PoseProofs.
Open Scope R_scope.

(** * C58: distance to a trajectory *)

Theorem C58_distance_is_the_minimum : forall x y t, t <> [] ->
  exists d, trajectory_distance x y t = FOk d /\
    (exists qx qy, on_polyline t qx qy /\ d = dist x y qx qy) /\
    (forall qx qy, on_polyline t qx qy -> d <= dist x y qx qy).
Proof. exact trajectory_distance_spec. Qed.
Print Assumptions C58_distance_is_the_minimum.
(** The polyline of three poses contains inner points of its second segment. *)
Example C58_polyline : on_polyline [mk_xyh 0 0 0; mk_xyh 1 0 0; mk_xyh 1 2 0] 1 1.
Proof. exists 1%nat, (/ 2), (mk_xyh 1 0 0), (mk_xyh 1 2 0). cbn. repeat split; try reflexivity; lra. Qed.

(** * C59: appending trajectories *)

Theorem C59_append_refuted : exists (t a : list xyh) debug,
  t <> [] /\ a <> [] /\ add_at_end debug t a <> FOk (t ++ a).
Proof.
  exists [mk_xyh 0 0 0], [mk_xyh 1 0 0], true. split; [discriminate|]. split; [discriminate|].
  intros H. injection H. discriminate.
Qed.
Print Assumptions C59_append_refuted.

(** No call with a non-empty target and a non-empty addition appends, in any build. *)
Theorem C59_never_appends : forall (A : Type) debug (t a : list A), t <> [] -> a <> [] ->
  (add_at_end debug t a = FUB \/ exists r, add_at_end debug t a = FOk r /\ length r = length t /\ firstn (length a) r = a /\ skipn (length a) r = skipn (length a) t) /\
  (add_at_end debug t a = FUB <-> (length t < length a)%nat \/ (debug = true /\ (length a < length t)%nat)).
Proof.
  intros A debug t a T NA. split.
  2:{ unfold add_at_end, Zlen. destruct t; [contradiction|]. replace (Z.of_nat (length (a0 :: t)) =? 0)%Z with false by (cbn [length]; lia).
      destruct (Z.ltb_spec (Z.of_nat (length (a0 :: t))) (Z.of_nat (length a))); [split; [left; lia|reflexivity]|].
      destruct debug; cbn [andb]; [|split; [discriminate|intros [?|[? _]]; [lia|discriminate]]].
      destruct (Z.eqb_spec (Z.of_nat (length (a0 :: t))) (Z.of_nat (length a))); cbn [negb]; split; try discriminate; auto; try (right; split; [reflexivity|lia]). intros [?|[_ ?]]; lia. }
  unfold add_at_end. destruct (Z.eqb_spec (Zlen t) 0) as [E|_].
  { destruct t; [contradiction|]. unfold Zlen in E. cbn in E. lia. }
  destruct (Z.ltb_spec (Zlen t) (Zlen a)); [left; reflexivity|]. destruct (debug && negb (Zlen t =? Zlen a)%Z); [left; reflexivity|].
  right. eexists. split; [reflexivity|]. unfold Zlen in *. split.
  - rewrite app_length, skipn_length. lia.
  - split; [rewrite firstn_app, Nat.sub_diag, firstn_O, app_nil_r; apply firstn_all|].
    rewrite skipn_app, Nat.sub_diag, skipn_all. reflexivity.
Qed.
Print Assumptions C59_never_appends.

Theorem C59_append_to_empty_partial : forall (A : Type) debug (a : list A), add_at_end debug [] a = FOk ([] ++ a).
Proof. reflexivity. Qed.
Print Assumptions C59_append_to_empty_partial.

(** * C60: poses compose as rigid motions *)

Theorem C60_concatenation_composes : forall b c pt,
  xyh_motion (concatenate b c) pt = xyh_motion b (xyh_motion c pt).
Proof.
  intros b c [u v]. unfold xyh_motion, motion, concatenate. cbn [px py ph fst snd].
  destruct (wrap_cs (ph b + ph c)) as [-> ->]. rewrite cos_plus, sin_plus. pair_eq.
Qed.
Print Assumptions C60_concatenation_composes.

Theorem C60_heading_in_range : forall b c,
  - PI <= ph (concatenate b c) <= PI /\ same_angle (ph (concatenate b c)) (ph b + ph c).
Proof. intros b c. split; [apply wrap_range|apply wrap_same]. Qed.
Print Assumptions C60_heading_in_range.

Theorem C60_associative : forall a b c,
  same_pose (concatenate (concatenate a b) c) (concatenate a (concatenate b c)).
Proof.
  intros a b c. unfold concatenate, same_pose. cbn [px py ph]. destruct (wrap_cs (ph a + ph b)) as [-> ->].
  rewrite cos_plus, sin_plus. split; [ring|]. split; [ring|].
  eapply same_trans; [apply wrap_same|]. apply same_sym. eapply same_trans; [apply wrap_same|].
  eapply same_trans; [apply same_plus; [apply same_refl|apply wrap_same]|].
  apply same_sym. eapply same_trans; [apply same_plus; [apply wrap_same|apply same_refl]|].
  replace (ph a + (ph b + ph c)) with (ph a + ph b + ph c) by ring. apply same_refl.
Qed.
Print Assumptions C60_associative.

Theorem C60_identity : forall p, let id := mk_xyh 0 0 0 in
  same_pose (concatenate id p) p /\ same_pose (concatenate p id) p.
Proof.
  intros p id. unfold id, concatenate, same_pose. cbn [px py ph]. rewrite cos_0, sin_0.
  pose proof (wrap_same (0 + ph p)) as W1. pose proof (wrap_same (ph p + 0)) as W2. rewrite Rplus_0_l in W1 at 2. rewrite Rplus_0_r in W2 at 2.
  split; (split; [ring|split; [ring|assumption]]).
Qed.
Print Assumptions C60_identity.

Theorem C60_extension_is_concatenation : forall p e pt,
  extend p e = concatenate p e /\ xyh_motion (extend p e) pt = xyh_motion p (xyh_motion e pt).
Proof.
  intros p e pt. assert (E : extend p e = concatenate p e) by reflexivity. split; [exact E|]. rewrite E. apply C60_concatenation_composes.
Qed.
Print Assumptions C60_extension_is_concatenation.

(** Legacy poses: products compose motions, in either storage and for mixed storages. *)
Theorem C60_legacy_product : forall p q, is_rotation (rot p) -> is_rotation (rot q) ->
  is_rotation (rot (pose_product p q)) /\
  forall pt, pose_motion (pose_product p q) pt = pose_motion p (pose_motion q pt).
Proof.
  intros p q P Q. destruct (rot_cs _ P) as (c1 & s1 & U1 & E1). destruct (rot_cs _ Q) as (c2 & s2 & U2 & E2).
  pose proof (product_cs _ _ _ _ _ _ P Q U1 U2 E1 E2) as EP. unfold pose_product, rot_apply. rewrite E1. cbn [rot].
  split; [now apply product_rotation|]. intros [u v]. unfold pose_motion. cbn [rot tx ty]. rewrite EP, E1, E2. cbn [fst snd]. pair_eq.
Qed.
Print Assumptions C60_legacy_product.

Theorem C60_legacy_inverse : forall p, is_rotation (rot p) ->
  is_rotation (rot (pose_inverse p)) /\
  (forall pt, pose_motion (pose_inverse p) (pose_motion p pt) = pt) /\
  (forall pt, pose_motion p (pose_motion (pose_inverse p) pt) = pt) /\
  (forall mat, same_motion (pose_product p (pose_inverse p)) (pose_identity mat)) /\
  (forall mat, same_motion (pose_product (pose_inverse p) p) (pose_identity mat)).
Proof.
  intros p P. destruct (rot_cs _ P) as (c & s & U & E). pose proof (inverse_cs _ _ _ P E) as EI.
  assert (R' : is_rotation (rot (pose_inverse p))).
  { unfold pose_inverse, rot_apply. rewrite EI. cbn [rot]. now apply inverse_rotation. }
  assert (M1 : forall pt, pose_motion (pose_inverse p) (pose_motion p pt) = pt).
  { intros [u v]. unfold pose_inverse, rot_apply. rewrite EI. unfold pose_motion. cbn [rot tx ty]. rewrite E, EI. cbn [fst snd]. apply f_equal2.
    - transitivity ((c * c + s * s) * u); [ring|]. rewrite U. ring.
    - transitivity ((c * c + s * s) * v); [ring|]. rewrite U. ring. }
  assert (M2 : forall pt, pose_motion p (pose_motion (pose_inverse p) pt) = pt).
  { intros [u v]. unfold pose_inverse, rot_apply. rewrite EI. unfold pose_motion. cbn [rot tx ty]. rewrite E, EI. cbn [fst snd]. apply f_equal2.
    - transitivity (tx p - (c * c + s * s) * tx p + (c * c + s * s) * u); [ring|]. rewrite U. ring.
    - transitivity (ty p - (c * c + s * s) * ty p + (c * c + s * s) * v); [ring|]. rewrite U. ring. }
  assert (ID : forall mat pt, pose_motion (pose_identity mat) pt = pt).
  { intros mat [u v]. destruct mat; unfold pose_motion; cbn.
    - pair_eq.
    - unfold mk_angle. destruct (wrap_cs 0) as [-> ->]. rewrite cos_0, sin_0. pair_eq. }
  split; [exact R'|]. split; [exact M1|]. split; [exact M2|]. split; intros mat pt; rewrite ID.
  - rewrite (proj2 (C60_legacy_product _ _ P R')). apply M2.
  - rewrite (proj2 (C60_legacy_product _ _ R' P)). apply M1.
Qed.
Print Assumptions C60_legacy_inverse.

(** relative() is the pose to multiply with; and it recovers the factor of a product. *)
Theorem C60_legacy_relative : forall p ref, is_rotation (rot p) -> is_rotation (rot ref) ->
  same_motion (pose_product ref (pose_relative p ref)) p /\
  same_motion (pose_relative (pose_product ref p) ref) p /\
  same_motion (pose_times_assign ref (pose_relative p ref)) p.
Proof.
  intros p r P Q. destruct (C60_legacy_inverse r Q) as (RI & M1 & M2 & _ & _).
  destruct (C60_legacy_product _ _ RI P) as [RR MR].
  assert (H : same_motion (pose_product r (pose_relative p r)) p).
  { intros pt. unfold pose_relative. rewrite (proj2 (C60_legacy_product _ _ Q RR)), MR. apply M2. }
  split; [exact H|]. split; [|exact H].
  intros pt. unfold pose_relative. destruct (C60_legacy_product _ _ Q P) as [RP MP].
  rewrite (proj2 (C60_legacy_product _ _ RI RP)), MP. apply M1.
Qed.
Print Assumptions C60_legacy_relative.

(** Poses built from a position and a heading describe that motion and meet the hypotheses above. *)
Theorem C60_legacy_construction : forall mat x y h,
  is_rotation (rot (pose_make mat x y h)) /\
  (forall pt, pose_motion (pose_make mat x y h) pt = motion x y h pt) /\
  same_angle (as_angle (rot (pose_make mat x y h))) h.
Proof.
  intros mat x y h. unfold pose_make. cbn [rot]. destruct (of_angle_matrix mat h) as [E RT]. split; [exact RT|]. split.
  - intros [u v]. unfold pose_motion, motion. cbn [rot tx ty]. rewrite E. cbn [fst snd]. pair_eq.
  - unfold rot_of_angle, mk_angle. destruct mat; cbn; [|apply wrap_same].
    eapply same_trans; [|apply wrap_same]. unfold from_matrix.
    pose proof (atan2_range (sin (wrap h)) (cos (wrap h))) as R1. pose proof (wrap_range h) as R2.
    assert (U : cos (wrap h) * cos (wrap h) + sin (wrap h) * sin (wrap h) = 1) by (pose proof (sin2_cos2 (wrap h)) as X; unfold Rsqr in X; lra).
    destruct (atan2_unit _ _ U) as [C S'].
    destruct (Req_dec (wrap h) (- PI)) as [N|N].
    + rewrite N, cos_neg, sin_neg, sin_PI, cos_PI. unfold atan2. destruct (Rlt_dec 0 (-1)); [lra|]. destruct (Rlt_dec (-1) 0); [|lra].
      destruct (Rle_dec 0 (- 0)); [|lra]. replace (- 0 / -1) with 0 by lra. rewrite atan_0. exists 1%Z. lra.
    + rewrite (cos_sin_unique _ (wrap h) R1) by (try assumption; lra). apply same_refl.
Qed.
Print Assumptions C60_legacy_construction.
Example C60_quarter_turn : forall mat, pose_motion (pose_make mat 1 2 (PI / 2)) (1, 0) = (1, 3).
Proof.
  intros mat. destruct (C60_legacy_construction mat 1 2 (PI / 2)) as (_ & -> & _). unfold motion. rewrite cos_PI2, sin_PI2. cbn. apply f_equal2; ring.
Qed.

(** * C144: extending a pose by itself *)

Theorem C144_early_partial : forall p, extend_self true p = concatenate p p.
Proof. reflexivity. Qed.
Print Assumptions C144_early_partial.

(** Extending a pose that faces the y axis by itself: the second coefficient uses the new first one. *)
Theorem C144_self_extension_refuted : exists p, extend_self false p <> concatenate p p.
Proof.
  exists (mk_xyh 0 1 (PI / 2)). unfold extend_self, concatenate. cbn [px py ph]. rewrite cos_PI2, sin_PI2. intros H. injection H. lra.
Qed.
Print Assumptions C144_self_extension_refuted.

(** With the operands evaluated from left to right, self-extension is right exactly for these poses. *)
Theorem C144_self_extension_exactly : forall p,
  extend_self false p = concatenate p p <-> sin (ph p) * (cos (ph p) * px p - sin (ph p) * py p) = 0.
Proof.
  intros p. unfold extend_self, concatenate. cbn [px py ph]. split.
  - intros H. injection H. intros E. lra.
  - intros H. f_equal. transitivity (py p + sin (ph p) * px p + cos (ph p) * py p + sin (ph p) * (cos (ph p) * px p - sin (ph p) * py p)); [ring|rewrite H; ring].
Qed.
Print Assumptions C144_self_extension_exactly.

(** * C145: the two storages of a legacy pose agree *)

Theorem C145_conversion_preserves_the_motion : forall mat p, is_rotation (rot p) ->
  is_rotation (rot (pose_convert mat p)) /\ same_motion (pose_convert mat p) p.
Proof.
  intros mat p P. unfold pose_convert. cbn [rot]. destruct (convert_matrix mat _ P) as [E RT]. split; [exact RT|].
  intros pt. unfold pose_motion. cbn [rot tx ty]. now rewrite E.
Qed.
Print Assumptions C145_conversion_preserves_the_motion.

Theorem C145_storages_agree : forall m1 m2 p q, is_rotation (rot p) -> is_rotation (rot q) ->
  same_motion (pose_product (pose_convert m1 p) (pose_convert m1 q)) (pose_product (pose_convert m2 p) (pose_convert m2 q)) /\
  same_motion (pose_inverse (pose_convert m1 p)) (pose_inverse (pose_convert m2 p)) /\
  same_motion (pose_relative (pose_convert m1 p) (pose_convert m1 q)) (pose_relative (pose_convert m2 p) (pose_convert m2 q)).
Proof.
  intros m1 m2 p q P Q.
  destruct (C145_conversion_preserves_the_motion m1 p P) as [P1 S1]. destruct (C145_conversion_preserves_the_motion m2 p P) as [P2 S2].
  destruct (C145_conversion_preserves_the_motion m1 q Q) as [Q1 T1]. destruct (C145_conversion_preserves_the_motion m2 q Q) as [Q2 T2].
  assert (INV : forall r a b, is_rotation (rot r) -> is_rotation (rot (pose_convert a r)) -> is_rotation (rot (pose_convert b r)) ->
    same_motion (pose_convert a r) r -> same_motion (pose_convert b r) r ->
    same_motion (pose_inverse (pose_convert a r)) (pose_inverse (pose_convert b r))).
  { intros r a b R0 RA RB SA SB pt. destruct (C60_legacy_inverse _ RA) as (_ & A1 & A2 & _). destruct (C60_legacy_inverse _ RB) as (_ & B1 & B2 & _).
    rewrite <- (B2 pt) at 1. rewrite SB. rewrite <- SA. apply A1. }
  split; [|split].
  - intros pt. rewrite (proj2 (C60_legacy_product _ _ P1 Q1)), (proj2 (C60_legacy_product _ _ P2 Q2)). now rewrite S1, T1, S2, T2.
  - now apply INV.
  - intros pt. unfold pose_relative.
    rewrite (proj2 (C60_legacy_product _ _ (proj1 (C60_legacy_inverse _ Q1)) P1)), (proj2 (C60_legacy_product _ _ (proj1 (C60_legacy_inverse _ Q2)) P2)).
    rewrite S1, S2. now apply INV.
Qed.
Print Assumptions C145_storages_agree.

(** * C146: trajectories hold the poses they are made of *)

Theorem C146_vector_to_trajectory : forall (A : Type) (junk : nat -> A) v, vector_to_trajectory junk v = FOk v.
Proof.
  intros A junk v. unfold vector_to_trajectory. apply (fill_spec v [] (map junk (seq 0 (length v)))). now rewrite map_length, seq_length.
Qed.
Print Assumptions C146_vector_to_trajectory.

Theorem C146_set_then_get : forall (A : Type) (t : list A) i p, (0 <= i < Zlen t)%Z ->
  exists t', set_at t i p = FOk t' /\ Zlen t' = Zlen t /\ get_at t' i = FOk p /\
    forall j, j <> i -> get_at t' j = get_at t j.
Proof.
  intros A t i p H. destruct (zget_some t i H) as [q E]. exists (zset t i p). unfold set_at, get_at. rewrite E. split; [reflexivity|].
  split; [apply Zlen_zset|]. rewrite zget_zset_eq by exact H. split; [reflexivity|]. intros j J. now rewrite zget_zset_neq by auto.
Qed.
Print Assumptions C146_set_then_get.

Theorem C146_front_and_back : forall (A : Type) (t : list A) x y, get_front (x :: t) = FOk x /\ get_back (t ++ [y]) = FOk y.
Proof.
  intros A t x y. split; [reflexivity|]. unfold get_back, get_at, zget, Zlen. rewrite app_length. cbn [length].
  replace (Z.of_nat (length t + 1) - 1)%Z with (Z.of_nat (length t)) by lia.
  destruct (Z.ltb_spec (Z.of_nat (length t)) 0); [lia|]. rewrite Nat2Z.id, nth_error_app2, Nat.sub_diag by lia. reflexivity.
Qed.
Print Assumptions C146_front_and_back.

Theorem C146_resize_keeps : forall (A : Type) (junk : nat -> A) t n, (0 <= n)%Z ->
  exists t', resize junk t n = FOk t' /\ Zlen t' = n /\
    forall i, (0 <= i < n)%Z -> (i < Zlen t)%Z -> get_at t' i = get_at t i.
Proof.
  intros A junk t n N. unfold resize. destruct (Z.ltb_spec n 0); [lia|]. eexists. split; [reflexivity|]. split.
  - unfold Zlen. rewrite app_length, firstn_length, map_length, seq_length. lia.
  - intros i I1 I2. unfold get_at, zget, Zlen in *. destruct (Z.ltb_spec i 0); [lia|].
    rewrite nth_error_app1 by (rewrite firstn_length; lia). rewrite <- (firstn_skipn (Z.to_nat n) t) at 2.
    rewrite nth_error_app1 by (rewrite firstn_length; lia). reflexivity.
Qed.
Print Assumptions C146_resize_keeps.

Theorem C146_poses_and_twists : forall t i, get_at (get_poses t) i = (o <-- get_at t i ;; FOk (o_pose o)) /\
  get_at (get_twists t) i = (o <-- get_at t i ;; FOk (o_twist o)) /\ Zlen (get_poses t) = Zlen t.
Proof.
  intros t i. unfold get_at, zget, get_poses, get_twists, Zlen. rewrite map_length, !nth_error_map.
  destruct (i <? 0)%Z; [auto|]. destruct (nth_error t (Z.to_nat i)); auto.
Qed.
Print Assumptions C146_poses_and_twists.
Example C146_two : set_at [mk_xyh 0 0 0; mk_xyh 1 1 1] 1 (mk_xyh 2 2 2) = FOk [mk_xyh 0 0 0; mk_xyh 2 2 2].
Proof. reflexivity. Qed.

(** * C147: queries of an empty trajectory *)

Theorem C147_empty_trajectory_refuted : exists (x y : R) (t : list xyh),
  trajectory_distance x y t = FUB /\ get_front t = FUB /\ get_back t = FUB.
Proof. exists 0, 0, []. repeat split. Qed.
Print Assumptions C147_empty_trajectory_refuted.

(** Only the empty trajectory: every other one has a distance, a front and a back. *)
Theorem C147_exactly_the_empty_one : forall x y t,
  (trajectory_distance x y t = FUB <-> t = []) /\ (get_front t = FUB <-> t = []) /\ (get_back t = FUB <-> t = []).
Proof.
  intros x y t. destruct t as [|p t]; [split; [|split]; split; reflexivity|].
  split; [|split]; (split; [|discriminate]); intros H; exfalso.
  - destruct (C58_distance_is_the_minimum x y (p :: t)) as (d & E & _); [discriminate|]. rewrite E in H. discriminate.
  - discriminate H.
  - destruct (exists_last (l := p :: t)) as (t' & q & E); [discriminate|]. rewrite E in H.
    rewrite (proj2 (C146_front_and_back _ t' p q)) in H. discriminate.
Qed.
Print Assumptions C147_exactly_the_empty_one.

(** * C61: differential drive *)

Theorem C61_wheel_update : forall bias radius dl dr, bias <> 0 ->
  exists p, wheel_update bias radius dl dr = FOk p /\
    (* the middle of the axle moves by the mean of the two arc lengths, straight ahead *)
    px p = (radius * dl + radius * dr) / 2 /\ py p = 0 /\
    (* the heading changes by the difference of the arc lengths over the axle length *)
    same_angle (ph p) ((radius * dr - radius * dl) / bias) /\ - PI <= ph p <= PI.
Proof.
  intros b r dl dr B. unfold wheel_update. rewrite fdiv_ok by exact B. cbn [fbind]. eexists. split; [reflexivity|]. cbn [px py ph].
  split; [lra|]. split; [reflexivity|]. split; [|apply wrap_range]. eapply same_trans; [apply wrap_same|].
  replace (r * (dr - dl) / b) with ((r * dr - r * dl) / b) by (field; exact B). apply same_refl.
Qed.
Print Assumptions C61_wheel_update.

(** Driving the wheels at the computed rates for a time dt moves the base by v dt and turns it by w dt. *)
Theorem C61_rates_reproduce_the_velocity : forall bias radius v w dt, bias <> 0 -> radius <> 0 ->
  exists l r, base_to_wheel bias radius v w = FOk (l, r) /\
    wheel_update bias radius (l * dt) (r * dt) = FOk (base_update (v * dt) (w * dt)).
Proof.
  intros b r v w dt B R'. unfold base_to_wheel. rewrite fdiv_ok by lra. cbn [fbind]. rewrite fdiv_ok by exact R'. cbn [fbind].
  do 2 eexists. split; [reflexivity|]. unfold wheel_update. rewrite fdiv_ok by exact B. cbn [fbind]. unfold base_update. apply (f_equal FOk).
  apply f_equal3; [field; auto|reflexivity|]. apply (f_equal wrap). field. auto.
Qed.
Print Assumptions C61_rates_reproduce_the_velocity.

Lemma pose_to_base_eq a b : exists r0 r1,
  r0 = cos (ph a) * (px b - px a) + sin (ph a) * (py b - py a) /\
  r1 = - sin (ph a) * (px b - px a) + cos (ph a) * (py b - py a) /\
  pose_to_base a b = FOk ((if Rlt_dec r0 0 then - sqrt (r0 * r0 + r1 * r1) else sqrt (r0 * r0 + r1 * r1)), wrap (ph b - ph a)).
Proof.
  do 2 eexists. split; [reflexivity|]. split; [reflexivity|]. unfold pose_to_base, rotation_matrix, mk_angle.
  destruct (wrap_cs (ph a)) as [C S']. rewrite C, S'. assert (D : cos (ph a) * cos (ph a) - - sin (ph a) * sin (ph a) = 1)
    by (pose proof (sin2_cos2 (ph a)) as X; unfold Rsqr in X; lra).
  rewrite D, fdiv_ok by lra. cbn [fbind]. replace (1 / 1) with 1 by lra. rewrite !Rmult_1_r, Ropp_involutive.
  rewrite fsqrt_ok by (apply Rplus_le_le_0_compat; apply Rle_0_sqr). reflexivity.
Qed.

(** The recovered translation is the distance between the positions, negative when the second is behind. *)
Theorem C61_base_differential : forall a b, exists ds dtheta,
  pose_to_base a b = FOk (ds, dtheta) /\
  Rabs ds = dist (px a) (py a) (px b) (py b) /\
  (ds < 0 <-> cos (ph a) * (px b - px a) + sin (ph a) * (py b - py a) < 0) /\
  same_angle (ph a + dtheta) (ph b) /\ - PI <= dtheta <= PI.
Proof.
  intros a b. destruct (pose_to_base_eq a b) as (r0 & r1 & E0 & E1 & ->). do 2 eexists. split; [reflexivity|].
  set (u := px b - px a) in *. set (v := py b - py a) in *.
  assert (U : cos (ph a) * cos (ph a) + sin (ph a) * sin (ph a) = 1) by (pose proof (sin2_cos2 (ph a)) as X; unfold Rsqr in X; lra).
  assert (N : r0 * r0 + r1 * r1 = u * u + v * v).
  { rewrite E0, E1. transitivity ((cos (ph a) * cos (ph a) + sin (ph a) * sin (ph a)) * (u * u + v * v)); [ring|rewrite U; ring]. }
  assert (NN : 0 <= sqrt (r0 * r0 + r1 * r1)) by apply sqrt_pos.
  split; [|split; [|split]].
  - unfold dist. replace ((px a - px b) * (px a - px b) + (py a - py b) * (py a - py b)) with (r0 * r0 + r1 * r1) by (rewrite N; unfold u, v; ring).
    destruct (Rlt_dec r0 0); [rewrite Rabs_Ropp|]; apply Rabs_pos_eq, NN.
  - rewrite <- E0. destruct (Rlt_dec r0 0) as [L|L]; split; intros H; try lra.
    assert (P : 0 < sqrt (r0 * r0 + r1 * r1)) by (apply sqrt_lt_R0; nra). lra.
  - replace (ph b) with (ph a + (ph b - ph a)) at 2 by ring. apply same_plus; [apply same_refl|apply wrap_same].
  - apply wrap_range.
Qed.
Print Assumptions C61_base_differential.

(** Recovering the base motion that produced a pose update gives it back. *)
Theorem C61_recovers_the_motion : forall a s w, exists dtheta,
  pose_to_base a (concatenate a (base_update s w)) = FOk (s, dtheta) /\ same_angle dtheta w /\ - PI <= dtheta <= PI.
Proof.
  intros a s w. destruct (pose_to_base_eq a (concatenate a (base_update s w))) as (r0 & r1 & E0 & E1 & ->).
  assert (U : cos (ph a) * cos (ph a) + sin (ph a) * sin (ph a) = 1) by (pose proof (sin2_cos2 (ph a)) as X; unfold Rsqr in X; lra).
  unfold concatenate, base_update in E0, E1. cbn [px py ph] in E0, E1.
  assert (R0 : r0 = s). { rewrite E0. transitivity ((cos (ph a) * cos (ph a) + sin (ph a) * sin (ph a)) * s); [ring|rewrite U; ring]. }
  assert (R1 : r1 = 0) by (rewrite E1; ring). rewrite R0, R1. eexists. split; [|split; [|apply wrap_range]].
  - replace (s * s + 0 * 0) with (Rsqr s) by (unfold Rsqr; ring). rewrite sqrt_Rsqr_abs. repeat f_equal.
    destruct (Rlt_dec s 0); [rewrite Rabs_left by lra; ring|apply Rabs_pos_eq; lra].
  - eapply same_trans; [apply wrap_same|]. unfold concatenate, base_update. cbn [ph].
    replace w with (ph a + w + - ph a) at 2 by ring. unfold Rminus. apply same_plus; [|apply same_refl].
    eapply same_trans; [apply wrap_same|]. apply same_plus; [apply same_refl|apply wrap_same].
Qed.
Print Assumptions C61_recovers_the_motion.
(** Reversing by two metres while facing the y axis. *)
Example C61_reverse : exists d, pose_to_base (mk_xyh 0 0 (PI / 2)) (mk_xyh 0 (-2) (PI / 2)) = FOk (-2, d).
Proof.
  destruct (pose_to_base_eq (mk_xyh 0 0 (PI / 2)) (mk_xyh 0 (-2) (PI / 2))) as (r0 & r1 & E0 & E1 & ->). cbn [px py ph] in E0, E1.
  rewrite cos_PI2, sin_PI2 in E0, E1. eexists. destruct (Rlt_dec r0 0); [|exfalso; lra]. apply (f_equal FOk). apply f_equal2; [|reflexivity].
  replace (r0 * r0 + r1 * r1) with (Rsqr 2) by (rewrite E0, E1; unfold Rsqr; ring). rewrite sqrt_Rsqr; lra.
Qed.

(** * C160: the distance of two poses is a metric on positions *)
Theorem C160_distance_metric : forall a b c,
  0 <= pose_distance a b /\ (pose_distance a b = 0 <-> px a = px b /\ py a = py b) /\
  pose_distance a b = pose_distance b a /\ pose_distance a c <= pose_distance a b + pose_distance b c /\
  pose_distance_squared a b = pose_distance a b * pose_distance a b.
Proof.
  intros a b c. unfold pose_distance, pose_distance_squared, norm2.
  assert (NN : forall u v, 0 <= u * u + v * v) by (intros; nra).
  split; [apply sqrt_pos|]. split; [split|split; [|split]].
  - intros H. apply sqrt_eq_0 in H; [|apply NN]. apply Rplus_sqr_eq_0 in H. split; lra.
  - intros [-> ->]. replace (_ + _) with 0 by ring. apply sqrt_0.
  - f_equal. ring.
  - set (x := px a - px b). set (y := py a - py b). set (u := px b - px c). set (v := py b - py c).
    replace (px a - px c) with (x + u) by (unfold x, u; ring). replace (py a - py c) with (y + v) by (unfold y, v; ring).
    pose proof (sqrt_pos (x * x + y * y)) as P1. pose proof (sqrt_pos (u * u + v * v)) as P2.
    pose proof (sqrt_sqrt (x * x + y * y) (NN x y)) as S1. pose proof (sqrt_sqrt (u * u + v * v) (NN u v)) as S2.
    set (r := sqrt (x * x + y * y)) in *. set (s := sqrt (u * u + v * v)) in *.
    rewrite <- (sqrt_square (r + s)) by lra. apply sqrt_le_1; [apply NN|nra|].
    assert (CS : x * u + y * v <= r * s).
    { destruct (Rle_dec (x * u + y * v) 0) as [L|L]; [nra|]. apply Rsqr_incr_0_var; [|nra]. unfold Rsqr.
      replace (r * s * (r * s)) with ((r * r) * (s * s)) by ring. rewrite S1, S2. pose proof (Rle_0_sqr (x * v - y * u)) as Q. unfold Rsqr in Q. nra. }
    nra.
  - symmetry. apply sqrt_sqrt. apply NN.
Qed.
Print Assumptions C160_distance_metric.
Example C160_case : pose_distance (mk_xyh 0 0 1) (mk_xyh 3 4 2) = 5.
Proof. unfold pose_distance, norm2. cbn. replace ((0 - 3) * (0 - 3) + (0 - 4) * (0 - 4)) with (5 * 5) by ring. apply sqrt_square. lra. Qed.

(** Cases meeting the hypotheses of C145 and C59. *)
Example C145_case : is_rotation (rot (pose_make true 1 2 (PI / 2))) /\ is_rotation (rot (pose_make false 3 4 1)).
Proof.
  split; cbn; [|exact I]. split; [reflexivity|]. split; [reflexivity|]. pose proof (sin2_cos2 (mk_angle (PI / 2))) as H. unfold Rsqr in H. lra.
Qed.
Example C59_case : add_at_end false [1; 2; 3]%nat [7; 8]%nat = FOk [7; 8; 3]%nat /\ add_at_end true [1; 2; 3]%nat [7; 8]%nat = FUB /\ add_at_end false [1]%nat [7; 8]%nat = FUB.
Proof. repeat split; reflexivity. Qed.
