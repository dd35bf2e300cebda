(** Specifications and lemmas for planar poses and odometry. *)
From Verif Require Import RBase AngleModel AngleProofs SegModel PolyProperties PoseModel.
Open Scope R_scope.

(** * Rigid motions of the plane, independently of how a pose is stored *)

(** The motion that turns by an angle and then shifts. *)
Definition motion (x y h : R) (q : R * R) : R * R :=
  (x + (cos h * fst q - sin h * snd q), y + (sin h * fst q + cos h * snd q)).
Definition xyh_motion (p : xyh) : R * R -> R * R := motion (px p) (py p) (ph p).
(** Poses that agree up to full turns of the heading. *)
Definition same_pose (p q : xyh) : Prop := px p = px q /\ py p = py q /\ same_angle (ph p) (ph q).

(** A legacy pose maps a point of its frame to the reference frame. *)
Definition pose_motion (p : pose) (q : R * R) : R * R :=
  let '(a, b, c, d) := as_matrix (rot p) in (tx p + (a * fst q + b * snd q), ty p + (c * fst q + d * snd q)).
(** The stored rotation really is one: an angle, or a matrix with orthonormal columns and determinant one. *)
Definition is_rotation (r : rotation) : Prop :=
  match r with
  | RotMatrix a b c d => a = d /\ b = - c /\ a * a + c * c = 1
  | RotAngle _ => True
  end.
Definition same_motion (p q : pose) : Prop := forall pt, pose_motion p pt = pose_motion q pt.

Lemma wrap_cs a : cos (wrap a) = cos a /\ sin (wrap a) = sin a.
Proof. apply same_cos, wrap_same. Qed.

Lemma rot_cs r : is_rotation r -> exists c s, c * c + s * s = 1 /\ as_matrix r = (c, - s, s, c).
Proof.
  destruct r as [a b c d|a]; cbn.
  - intros [-> [-> U]]. exists d, c. split; [exact U|]. now rewrite <- ?Ropp_involutive.
  - intros _. exists (cos a), (sin a). split; [|reflexivity]. pose proof (sin2_cos2 a) as H. unfold Rsqr in H. lra.
Qed.

Lemma inverse_cs r c s : is_rotation r -> as_matrix r = (c, - s, s, c) -> as_matrix (rot_inverse r) = (c, s, - s, c).
Proof.
  destruct r as [a b c' d|a]; cbn.
  - intros _ E. injection E as -> -> -> ->. reflexivity.
  - intros _ E. unfold rotation_matrix in E. injection E as C _ S' _. unfold rotation_matrix, mk_angle.
    destruct (wrap_cs (-1 * a)) as [-> ->]. replace (-1 * a) with (- a) by ring. rewrite cos_neg, sin_neg, C, S'.
    now rewrite Ropp_involutive.
Qed.
Lemma inverse_rotation r : is_rotation r -> is_rotation (rot_inverse r).
Proof. destruct r as [a b c d|a]; cbn; [|auto]. intros [-> [-> U]]. repeat split; lra. Qed.

Lemma from_matrix_cs c s : c * c + s * s = 1 -> rotation_matrix (from_matrix c s) = (c, - s, s, c).
Proof. intros U. unfold rotation_matrix, from_matrix. destruct (atan2_unit c s U) as [-> ->]. reflexivity. Qed.
Lemma as_angle_cs r c s : is_rotation r -> c * c + s * s = 1 -> as_matrix r = (c, - s, s, c) ->
  cos (as_angle r) = c /\ sin (as_angle r) = s.
Proof.
  destruct r as [a b c' d|a]; cbn.
  - intros _ U E. injection E as -> _ -> _. unfold from_matrix. now apply atan2_unit.
  - intros _ _ E. unfold rotation_matrix in E. injection E as C _ S' _. auto.
Qed.

Lemma product_cs r1 r2 c1 s1 c2 s2 : is_rotation r1 -> is_rotation r2 -> c1 * c1 + s1 * s1 = 1 -> c2 * c2 + s2 * s2 = 1 ->
  as_matrix r1 = (c1, - s1, s1, c1) -> as_matrix r2 = (c2, - s2, s2, c2) ->
  as_matrix (rot_product r1 r2) = (c1 * c2 - s1 * s2, - (s1 * c2 + c1 * s2), s1 * c2 + c1 * s2, c1 * c2 - s1 * s2).
Proof.
  intros H1 H2 U1 U2 E1 E2. destruct r1 as [a b c d|a]; cbn [rot_product].
  - cbn [as_matrix] in E1. injection E1 as -> -> -> ->. rewrite E2. cbn [as_matrix]. apply f_equal2; [apply f_equal2; [apply f_equal2|]|]; ring.
  - destruct (as_angle_cs r2 c2 s2 H2 U2 E2) as [C2 S2]. cbn [as_matrix] in *. unfold rotation_matrix in *.
    injection E1 as C1 _ S1 _. unfold plus, mk_angle. destruct (wrap_cs (wrap (a + as_angle r2))) as [-> ->].
    destruct (wrap_cs (a + as_angle r2)) as [-> ->]. rewrite cos_plus, sin_plus, C1, S1, C2, S2. reflexivity.
Qed.
Lemma product_rotation r1 r2 : is_rotation r1 -> is_rotation r2 -> is_rotation (rot_product r1 r2).
Proof.
  intros H1 H2. destruct r1 as [a b c d|a]; [|exact I]. destruct (rot_cs r2 H2) as (c2 & s2 & U & E). cbn [rot_product].
  rewrite E. cbn in *. destruct H1 as [-> [-> V]]. repeat split; try ring.
  transitivity ((d * d + c * c) * (c2 * c2 + s2 * s2)); [ring|rewrite V, U; ring].
Qed.
Lemma of_angle_matrix mat h : as_matrix (rot_of_angle mat h) = (cos h, - sin h, sin h, cos h) /\ is_rotation (rot_of_angle mat h).
Proof.
  unfold rot_of_angle, mk_angle. destruct (wrap_cs h) as [C S']. destruct mat; cbn; unfold rotation_matrix; rewrite ?C, ?S'.
  - split; [reflexivity|]. repeat split. pose proof (sin2_cos2 h) as H. unfold Rsqr in H. lra.
  - split; [reflexivity|exact I].
Qed.
Lemma convert_matrix mat r : is_rotation r -> as_matrix (rot_convert mat r) = as_matrix r /\ is_rotation (rot_convert mat r).
Proof.
  intros H. destruct (rot_cs r H) as (c & s & U & E). unfold rot_convert. rewrite E. destruct mat; cbn [as_matrix].
  - split; [reflexivity|]. cbn. repeat split; assumption.
  - destruct (as_angle_cs r c s H U E) as [C S']. unfold rotation_matrix. rewrite C, S'. split; [reflexivity|exact I].
Qed.

Ltac pair_eq := apply f_equal2; ring.

(** * Polylines *)

(** The points of the polyline through the positions of a list of poses: the single point, or the points of the
    segments between neighbours. *)
Definition on_polyline (t : list xyh) (qx qy : R) : Prop :=
  match t with
  | [] => False
  | [p] => qx = px p /\ qy = py p
  | _ => exists i u p q, nth_error t i = Some p /\ nth_error t (S i) = Some q /\ 0 <= u <= 1 /\
           qx = px p + u * (px q - px p) /\ qy = py p + u * (py q - py p)
  end.
Definition dist (x y qx qy : R) : R := sqrt ((x - qx) * (x - qx) + (y - qy) * (y - qy)).

Definition seg_value (x y : R) (p q : xyh) : R := squared_distance (px p) (py p) (px q) (py q) x y.

Lemma segments_min_spec x y : forall rest best p,
  match segments_min best (px p) (py p) rest x y with
  | None => best = None /\ rest = []
  | Some m =>
      (best = Some m \/ exists i a b, nth_error (p :: rest) i = Some a /\ nth_error (p :: rest) (S i) = Some b /\ m = seg_value x y a b)
      /\ (forall b, best = Some b -> m <= b)
      /\ (forall i a b, nth_error (p :: rest) i = Some a -> nth_error (p :: rest) (S i) = Some b -> m <= seg_value x y a b)
  end.
Proof.
  induction rest as [|e tl IH]; intros best p.
  - cbn. destruct best as [m|]; [|auto]. split; [auto|]. split; [intros b E; injection E as ->; apply Rle_refl|].
    intros [|i] a b A B; [discriminate B|]. destruct i; discriminate B.
  - cbn [segments_min]. cbv zeta. change (squared_distance (px p) (py p) (px e) (py e) x y) with (seg_value x y p e).
    set (t := seg_value x y p e).
    set (best' := match best with None => Some t | Some m => if Rlt_dec t m then Some t else Some m end).
    assert (B' : exists b', best' = Some b' /\ b' <= t /\ (forall b, best = Some b -> b' <= b) /\ (best = Some b' \/ b' = t)).
    { unfold best'. destruct best as [m|].
      - destruct (Rlt_dec t m).
        + exists t. split; [reflexivity|]. split; [apply Rle_refl|]. split; [|auto]. intros b E. injection E as <-. lra.
        + exists m. split; [reflexivity|]. split; [lra|]. split; [|auto]. intros b E. injection E as <-. lra.
      - exists t. split; [reflexivity|]. split; [apply Rle_refl|]. split; [discriminate|auto]. }
    destruct B' as (b' & E' & LT & LB & OR). specialize (IH best' e). destruct (segments_min best' (px e) (py e) tl x y) as [m|].
    + destruct IH as (WIT & LB' & ALL). split; [|split].
      * destruct WIT as [W|(i & a & b & A & B & M)].
        -- rewrite E' in W. injection W as <-. destruct OR as [O|O]; [left; exact O|]. right. exists 0%nat, p, e. auto.
        -- right. exists (S i), a, b. auto.
      * intros b E. apply Rle_trans with b'; [now apply LB'|now apply LB].
      * intros [|i] a b A B.
        -- cbn in A, B. injection A as <-. injection B as <-. apply Rle_trans with b'; [now apply LB'|exact LT].
        -- apply (ALL i); assumption.
    + destruct IH as [IH _]. rewrite E' in IH. discriminate IH.
Qed.

Lemma seg_value_nonneg x y p q : 0 <= seg_value x y p q.
Proof.
  destruct (C56_distance_is_the_minimum (px p) (py p) (px q) (py q) x y) as [(t & T & E) _]. unfold seg_value. rewrite E.
  apply Rplus_le_le_0_compat; apply Rle_0_sqr.
Qed.

Lemma trajectory_distance_spec x y t : t <> [] ->
  exists d, trajectory_distance x y t = FOk d /\
    (exists qx qy, on_polyline t qx qy /\ d = dist x y qx qy) /\
    (forall qx qy, on_polyline t qx qy -> d <= dist x y qx qy).
Proof.
  intros NE. destruct t as [|p [|e tl]]; [contradiction| |].
  - exists (dist x y (px p) (py p)). split; [reflexivity|]. split; [exists (px p), (py p); split; [split; reflexivity|reflexivity]|].
    intros qx qy [-> ->]. apply Rle_refl.
  - unfold trajectory_distance. assert (L : (Zlen (p :: e :: tl) =? 1)%Z = false) by (apply Z.eqb_neq; unfold Zlen; cbn [length]; lia).
    rewrite L. pose proof (segments_min_spec x y (e :: tl) None p) as H.
    destruct (segments_min None (px p) (py p) (e :: tl) x y) as [m|]; [|destruct H; discriminate].
    destruct H as ([H|(i & a & b & A & B & M)] & _ & ALL); [discriminate H|].
    rewrite fsqrt_ok by (rewrite M; apply seg_value_nonneg). exists (sqrt m). split; [reflexivity|]. split.
    + destruct (C56_distance_is_the_minimum (px a) (py a) (px b) (py b) x y) as [(u & U & E) _].
      exists (px a + u * (px b - px a)), (py a + u * (py b - py a)). split.
      * exists i, u, a, b. auto.
      * unfold dist. f_equal. rewrite M. exact E.
    + intros qx qy (j & u & p' & q' & P & Q & U & -> & ->). unfold dist. apply sqrt_le_1_alt.
      apply Rle_trans with (seg_value x y p' q'); [now apply (ALL j)|].
      apply (proj2 (C56_distance_is_the_minimum (px p') (py p') (px q') (py q') x y) u U).
Qed.

(** * Trajectories as lists *)

Lemma fill_spec {A} : forall (v : list A) (pre t : list A), length t = length v ->
  fill (pre ++ t) (Zlen pre) v = FOk (pre ++ v).
Proof.
  induction v as [|p tl IH]; intros pre t L.
  - destruct t; [reflexivity|discriminate].
  - destruct t as [|q t]; [discriminate|]. cbn [fill].
    assert (G : set_at (pre ++ q :: t) (Zlen pre) p = FOk ((pre ++ [p]) ++ t)).
    { unfold set_at, zget, zset, Zlen. destruct (Z.ltb_spec (Z.of_nat (length pre)) 0); [lia|]. rewrite Nat2Z.id.
      rewrite nth_error_app2, Nat.sub_diag by lia. cbn [nth_error]. f_equal. clear.
      induction pre as [|a pre IH]; [reflexivity|]. cbn. f_equal. exact IH. }
    rewrite G. cbn [fbind]. replace (Zlen pre + 1)%Z with (Zlen (pre ++ [p])) by (unfold Zlen; rewrite app_length; cbn; lia).
    rewrite IH by (cbn in L; lia). now rewrite <- app_assoc.
Qed.
