(** Proofs about the linear interpolation of a trajectory. *)
From Verif Require Import RBase PolyModel SplineModel PolyProofs RootsProofs SplineProofs CubicProofs SmoothProofs SplineProperties PolyProperties TrajModel TrajProofs.
Open Scope R_scope.

(** Waypoints that passed the checks. *)
Record valid (dim : nat) (wps : list waypoint) : Prop := {
  v_len : (2 <= length wps)%nat;
  v_ok : Forall (wp_ok dim) wps;
  v_rates : forall i, (S i < length wps)%nat -> rates_pos (wp wps i);
  v_dur : forall i, (S i < length wps)%nat -> 0 < w_duration (wp wps i) }.

Lemma wp_at dim wps i : Forall (wp_ok dim) wps -> (i < length wps)%nat -> wp_ok dim (wp wps i).
Proof. intros F L. rewrite Forall_forall in F. apply F. apply nth_In. exact L. Qed.
Lemma aget_wp wps i : (i < length wps)%nat -> aget wps (Z.of_nat i) = FOk (wp wps i).
Proof. intros L. now rewrite (aget_nth _ _ wp0). Qed.

Definition pj (w v : waypoint) (acc : list R) (j : nat) : ljoint := mk_lj (angle w j) (nth j (w_rates w) 0) (nominal w j) (angle v j) (nth j acc 0).
Definition qj (v w : waypoint) (acc : list R) (j : nat) : ljoint := mk_lj (angle w j) (nth j (w_rates w) 0) (nominal v j) (angle v j) (nth j acc 0).
Lemma pre_joints dim w v acc : wp_ok dim w -> wp_ok dim v -> length acc = dim -> fmap (pre_joint w v acc) (joints dim) = FOk (map (pj w v acc) (seq 0 dim)).
Proof. intros (A & B & C) (D & E & F) G. apply fmap_joints. intros j J. unfold pre_joint. rewrite !rget_nth by lia. reflexivity. Qed.
Lemma post_joints dim v w acc : wp_ok dim w -> wp_ok dim v -> length acc = dim -> fmap (post_joint v w acc) (joints dim) = FOk (map (qj v w acc) (seq 0 dim)).
Proof. intros (A & B & C) (D & E & F) G. apply fmap_joints. intros j J. unfold post_joint. rewrite !rget_nth by lia. reflexivity. Qed.
Lemma pj_pos dim w v acc : wp_ok dim w -> rates_pos w -> jpos (map (pj w v acc) (seq 0 dim)).
Proof.
  intros (A & B & C) P. apply Forall_forall. intros j J. apply in_map_iff in J. destruct J as (k & <- & K). apply in_seq in K. cbn. unfold rates_pos in P. rewrite Forall_forall in P. apply P. apply nth_In. lia.
Qed.
Lemma qj_pos dim v w acc : wp_ok dim v -> rates_pos v -> jpos (map (qj v w acc) (seq 0 dim)).
Proof.
  intros (A & B & C) P. apply Forall_forall. intros j J. apply in_map_iff in J. destruct J as (k & <- & K). apply in_seq in K. cbn. unfold rates_pos in P. rewrite Forall_forall in P. apply P. apply nth_In. lia.
Qed.
Lemma last_map_seq {A} (f : nat -> A) dim d : (1 <= dim)%nat -> last (map f (seq 0 dim)) d = f (dim - 1)%nat.
Proof. intros D. destruct dim as [|k]; [lia|]. rewrite seq_S, map_app. cbn [map]. rewrite last_last. f_equal. lia. Qed.

Lemma linear_splines_spec times N : length times = S N -> (1 <= N)%nat -> increasing times -> forall cols, Forall (fun c => length (fst c) = S N) cols ->
  (exists ss, linear_splines times cols = FOk (inl ss) /\ Forall2 (fun c s => smooth_linear times (fst c) (snd c) = FOk s) cols ss)
  \/ exists d, linear_splines times cols = FOk (inr d) /\ (1 <= d < Z.of_nat N)%Z.
Proof.
  intros LT N1 H. induction cols as [|[v a] cols IH]; intros F; cbn [linear_splines].
  { left. exists []. split; [reflexivity|constructor]. }
  inversion F as [|? ? L F']; subst. cbn [fst] in L. destruct (smooth_spec true times v a N LT L N1 H) as [E|(s & _ & _ & _ & E & _)]; rewrite E.
  - right. eexists. split; [reflexivity|]. now apply failing_corner_spec.
  - destruct (IH F') as [(ss & E2 & F2)|(d & E2 & D)]; rewrite E2; cbn [fbind].
    + left. exists (s :: ss). split; [reflexivity|]. constructor; [exact E|exact F2].
    + right. exists d. split; [reflexivity|exact D].
Qed.

Definition col (wps : list waypoint) (j : nat) : list R := map (fun w => angle w j) wps.
Definition lin_values (wps : list waypoint) (p q : R) (j : nat) : list R := angle (wp wps 0) j :: p :: removelast (col (tl wps) j) ++ [q; angle (last wps wp0) j].
Lemma last_map {A B} (f : A -> B) l a b : l <> [] -> last (map f l) b = f (last l a).
Proof. induction l as [|x l IH]; intros N; [congruence|]. destruct l as [|y l]; [reflexivity|]. apply (IH ltac:(discriminate)). Qed.
Lemma linear_values_spec dim wps pre post j : Forall (wp_ok dim) wps -> (2 <= length wps)%nat -> (j < dim)%nat -> (j < length pre)%nat -> (j < length post)%nat ->
  linear_values wps pre post (Z.of_nat j) = FOk (lin_values wps (nth j pre 0) (nth j post 0) j).
Proof.
  intros W L J P Q. unfold linear_values. rewrite (fmap_ok _ (fun w => angle w j)).
  2:{ intros w I. rewrite Forall_forall in W. destruct (W w I) as (A & _). now rewrite rget_nth by lia. }
  cbn [fbind]. rewrite !rget_nth by lia. cbn [fbind]. destruct wps as [|w [|v tl]]; cbn in L; try lia. cbn [map]. unfold lin_values, wp. cbn [nth List.tl]. do 3 f_equal.
  apply f_equal2; [reflexivity|]. do 2 f_equal. change (angle v j :: map (fun w0 => angle w0 j) tl) with (map (fun w0 => angle w0 j) (v :: tl)).
  rewrite (last_map _ _ wp0) by discriminate. reflexivity.
Qed.
Lemma eval_initial j t : eval (initial_tangent j) t = j_angle j + j_rate j * t.
Proof. unfold initial_tangent, point_slope. cbn [eval eval_loop]. ring. Qed.
Lemma eval_final tp j t : eval (final_tangent tp j) t = j_angle j + j_rate j * (t - tp).
Proof. unfold final_tangent, point_slope. cbn [eval eval_loop]. ring. Qed.

Definition n_of (wps : list waypoint) : nat := (length wps - 1)%nat.
Definition mids_of (wps : list waypoint) : list R := map w_duration (firstn (n_of wps - 2) (skipn 1 wps)).
(** The times and the values for these pseudo points. *)
Definition lin_times (wps : list waypoint) (tp t_pre q t_post : R) : list R :=
  linear_times (n_of wps) t_pre (2 * tp + w_duration (wp wps 0) - t_pre) (mids_of wps) (w_duration (wp wps (n_of wps - 1))) t_post (2 * q - t_post).
Definition lin_column (wps : list waypoint) (t_pre q t_post : R) (j : nat) : list R :=
  lin_values wps (angle (wp wps 0) j + nth j (w_rates (wp wps 0)) 0 * t_pre) (angle (wp wps (n_of wps)) j + nth j (w_rates (wp wps (n_of wps))) 0 * (t_post - q)) j.
(** What the searches for the pseudo points guarantee. *)
Record pseudo (dim : nat) (wps : list waypoint) (tp t_pre q t_post : R) : Prop := {
  ps_tp : 1 / 1000 <= tp <= w_duration (wp wps 0);
  ps_pre : 0 < t_pre <= w_duration (wp wps 0) / 2;
  ps_pre_rate : forall j, (j < dim)%nat -> let r := Rabs (nth j (w_rates (wp wps 0)) 0) in t_pre <= nominal (wp wps 0) j * tp / (r + nominal (wp wps 0) j);
  ps_q : 1 / 1000 <= q <= w_duration (wp wps (n_of wps - 1));
  ps_post : 0 <= t_post < q;
  ps_post_rate : forall j, (j < dim)%nat -> let r := Rabs (nth j (w_rates (wp wps (n_of wps))) 0) in r * q / (r + nominal (wp wps (n_of wps - 1)) j) <= t_post }.

Lemma nth_firstn {A} (d : A) k : forall l i, (i < k)%nat -> nth i (firstn k l) d = nth i l d.
Proof. induction k as [|k IH]; intros l i I; [lia|]. destruct l as [|a l]; [reflexivity|]. destruct i as [|i]; [reflexivity|]. cbn. apply IH. lia. Qed.
Lemma mids_spec dim wps : valid dim wps -> length (mids_of wps) = (n_of wps - 2)%nat /\ Forall (fun d => 0 < d) (mids_of wps).
Proof.
  intros [L W R D]. unfold mids_of, n_of. split; [rewrite map_length, firstn_length, skipn_length; lia|].
  apply Forall_forall. intros d I. apply in_map_iff in I. destruct I as (w & <- & I). apply In_nth with (d := wp0) in I. destruct I as (i & I & <-). rewrite firstn_length, skipn_length in I.
  assert (E : nth i (firstn (length wps - 1 - 2) (skipn 1 wps)) wp0 = wp wps (S i)).
  { rewrite nth_firstn by lia. unfold wp. now destruct wps as [|w tl]; [cbn in L; lia|]. }
  rewrite E. apply D. lia.
Qed.
Lemma lin_times_spec dim wps tp t_pre q t_post : valid dim wps -> pseudo dim wps tp t_pre q t_post ->
  let x := lin_times wps tp t_pre q t_post in let n := n_of wps in
  increasing x /\ length x = (n + 3)%nat /\ sq x 0 = 0 /\ sq x 1 = t_pre
  /\ sq x (n + 2) = (if (n =? 1)%nat then t_pre else 2 * tp + w_duration (wp wps 0) + total (mids_of wps)) + w_duration (wp wps (n - 1)) + 2 * q /\ sq x (n + 2) - sq x (n + 1) = 2 * q - t_post.
Proof.
  intros V [P1 P2 P3 P4 P5 P6]. destruct (mids_spec dim wps V) as [ML MP]. pose proof (v_dur _ _ V 0%nat ltac:(pose proof (v_len _ _ V); lia)) as D0. pose proof (v_dur _ _ V (n_of wps - 1)%nat ltac:(pose proof (v_len _ _ V); unfold n_of; lia)) as Dn.
  destruct (times_spec (n_of wps) t_pre (2 * tp + w_duration (wp wps 0) - t_pre) (mids_of wps) (w_duration (wp wps (n_of wps - 1))) t_post (2 * q - t_post)) as (A & B & C & D & E & F); auto; try lra.
  { pose proof (v_len _ _ V). unfold n_of. lia. }
  cbn zeta. unfold lin_times. split; [exact A|]. split; [exact B|]. split; [exact C|]. split; [exact D|]. split; [rewrite E; destruct (n_of wps =? 1)%nat; ring|exact F].
Qed.
Lemma lin_column_len wps t_pre q t_post j : (2 <= length wps)%nat -> length (lin_column wps t_pre q t_post j) = (n_of wps + 3)%nat.
Proof.
  intros L. unfold lin_column, lin_values. cbn [length]. rewrite app_length, removelast_len. unfold col. rewrite map_length. unfold n_of. destruct wps; cbn in *; lia.
Qed.

Lemma generate_spec dim wps acc : valid dim wps -> (1 <= dim)%nat -> length acc = dim -> exists r, generate_linear wps acc = FOk r
  /\ (nth (dim - 1) acc 0 = 0 -> r = inr 0%Z)
  /\ (w_duration (wp wps (n_of wps - 1)) < 1 / 1000 -> r = inr 0%Z)
  /\ ((forall j, (j < dim)%nat -> nth j (w_rates (wp wps (n_of wps))) 0 = 0) ->
      (let k := (dim - 1)%nat in let d := w_duration (wp wps (n_of wps - 1)) in 3 / 2 * d * d * Rabs (nth k acc 0) <= Rabs (angle (wp wps (n_of wps)) k - angle (wp wps (n_of wps - 1)) k)) -> r = inr 0%Z)
  /\ match r with
     | inr d => (0 <= d <= Z.of_nat (n_of wps) + 1)%Z
     | inl ss => exists tp t_pre q t_post, pseudo dim wps tp t_pre q t_post
         /\ Forall2 (fun j s => smooth_linear (lin_times wps tp t_pre q t_post) (lin_column wps t_pre q t_post j) (nth j acc 0) = FOk s) (seq 0 dim) ss
     end.
Proof.
  intros V D1 LA. pose proof (v_len _ _ V) as L. unfold generate_linear. rewrite LA. fold (n_of wps). set (n := n_of wps) in *.
  assert (N1 : (1 <= n)%nat) by (unfold n, n_of; lia). assert (LN : length wps = S n) by (unfold n, n_of; lia).
  change 0%Z with (Z.of_nat 0) at 1. change 1%Z with (Z.of_nat 1) at 1. replace (Z.of_nat n - 1)%Z with (Z.of_nat (n - 1)) by lia. rewrite !aget_wp by lia. cbn [fbind].
  set (w0 := wp wps 0). set (w1 := wp wps 1). set (wm := wp wps (n - 1)). set (wn := wp wps n).
  pose proof (v_ok _ _ V) as W. assert (O0 : wp_ok dim w0) by (apply wp_at; auto; lia). assert (O1 : wp_ok dim w1) by (apply wp_at; auto; lia). assert (Om : wp_ok dim wm) by (apply wp_at; auto; lia). assert (On : wp_ok dim wn) by (apply wp_at; auto; lia).
  pose proof (v_dur _ _ V 0%nat ltac:(lia)) as Q0. fold w0 in Q0. pose proof (v_dur _ _ V (n - 1)%nat ltac:(lia)) as Qm. fold wm in Qm.
  pose proof (v_rates _ _ V 0%nat ltac:(lia)) as R0. fold w0 in R0. pose proof (v_rates _ _ V (n - 1)%nat ltac:(lia)) as Rm. fold wm in Rm.
  rewrite (pre_joints dim) by auto. cbn [fbind]. set (pres := map (pj w0 w1 acc) (seq 0 dim)).
  assert (NE : forall (f : nat -> ljoint), map f (seq 0 dim) <> []) by (intros f; destruct dim; [lia|discriminate]).
  destruct (doublings_spec (w_duration w0) Q0) as (f & EF & HF). rewrite EF.
  destruct (pre_loop_spec pres (w_duration w0) (pj_pos dim w0 w1 acc O0 R0) (NE _) Q0 f (1 / 1000) true 0 ltac:(lra) HF) as (b & tp' & t_pre & E1 & _ & A1 & Z1). rewrite E1. cbn [fbind].
  destruct b. { exists (inr 0%Z). split; [reflexivity|]. repeat split; lia. }
  rewrite (post_joints dim) by auto. cbn [fbind]. set (posts := map (qj wm wn acc) (seq 0 dim)).
  destruct (doublings_spec (w_duration wm) Qm) as (f2 & EF2 & HF2). rewrite EF2.
  destruct (post_loop_spec posts (w_duration wm) (qj_pos dim wm wn acc Om Rm) (NE _) Qm f2 (1 / 1000) true 0 ltac:(lra) HF2) as (b & q' & t_post & E2 & _ & A2 & Z2 & Z3 & Z4). rewrite E2. cbn [fbind].
  destruct b. { exists (inr 0%Z). split; [reflexivity|]. repeat split; lia. }
  destruct (A1 eq_refl eq_refl) as (tp & T1 & -> & T2 & T3). destruct (A2 eq_refl eq_refl) as (q & S1 & -> & S2 & S3).
  assert (PS : pseudo dim wps tp t_pre q t_post).
  { constructor; fold n w0 wm wn; auto; try lra.
    - intros j J. apply (T3 (pj w0 w1 acc j)). apply in_map. apply in_seq. lia.
    - intros j J. apply (S3 (qj wm wn acc j)). apply in_map. apply in_seq. lia. }
  rewrite (fmap_joints _ (fun j => (lin_column wps t_pre q t_post j, nth j acc 0))).
  2:{ intros j J. rewrite (linear_values_spec dim) by (auto; rewrite map_length; unfold pres, posts; rewrite map_length, seq_length; lia). cbn [fbind]. rewrite rget_nth by lia. cbn [fbind]. do 2 f_equal.
    unfold lin_column. fold n w0 wn. unfold pres, posts. rewrite !map_map. set (g := fun x => eval (initial_tangent _) _). set (h := fun x => eval (final_tangent _ _) _).
    rewrite (nth_indep (map g (seq 0 dim)) 0 (g 0%nat)) by (rewrite map_length, seq_length; lia). rewrite (nth_indep (map h (seq 0 dim)) 0 (h 0%nat)) by (rewrite map_length, seq_length; lia). rewrite !map_nth, !seq_nth by lia.
    unfold g, h. rewrite eval_initial, eval_final. cbn [Nat.add pj qj j_angle j_rate]. replace (2 * q / 2) with q by field. reflexivity. }
  cbn [fbind]. fold (mids_of wps). change (map w_duration (firstn (n - 2) (skipn 1 wps))) with (mids_of wps).
  change (linear_times n t_pre (2 * tp + w_duration w0 - t_pre) (mids_of wps) (w_duration wm) t_post (2 * q - t_post)) with (lin_times wps tp t_pre q t_post).
  destruct (lin_times_spec dim wps tp t_pre q t_post V PS) as (I & LT & _). fold n in LT.
  assert (ZZ : (nth (dim - 1) acc 0 <> 0) /\ ~ (w_duration wm < 1 / 1000) /\ ~ ((forall j, (j < dim)%nat -> nth j (w_rates wn) 0 = 0) /\ (let k := (dim - 1)%nat in let d := w_duration wm in 3 / 2 * d * d * Rabs (nth k acc 0) <= Rabs (angle wn k - angle wm k)))).
  { split; [|split].
    - intros Z. assert (K : false = true); [apply (Z1 eq_refl)|discriminate K]. intros j0. unfold pres. rewrite last_map_seq by lia. exact Z.
    - intros Z. discriminate (Z3 eq_refl Z).
    - intros [Za Zb]. assert (K : false = true); [apply (Z4 eq_refl)|discriminate K].
      + intros j J. apply in_map_iff in J. destruct J as (k & <- & K). apply in_seq in K. cbn. apply Za. lia.
      + intros j0. cbn zeta. unfold posts. rewrite last_map_seq by lia. exact Zb. }
  destruct ZZ as (ZA & ZB & ZC).
  destruct (linear_splines_spec (lin_times wps tp t_pre q t_post) (n + 2) ltac:(lia) ltac:(lia) I (map (fun j => (lin_column wps t_pre q t_post j, nth j acc 0)) (seq 0 dim))) as [(ss & E & F)|(d & E & DD)].
  { apply Forall_forall. intros c C. apply in_map_iff in C. destruct C as (j & <- & _). cbn [fst]. rewrite lin_column_len by auto. fold n. lia. }
  - exists (inl ss). split; [exact E|]. split; [intros Z; contradiction|]. split; [intros Z; contradiction|]. split; [intros Za Zb; exfalso; apply ZC; split; assumption|]. exists tp, t_pre, q, t_post. split; [exact PS|].
    clear - F. revert ss F. induction (seq 0 dim) as [|j js IH]; intros ss F; inversion F; subst; constructor; auto.
  - exists (inr d). split; [exact E|]. split; [intros Z; contradiction|]. split; [intros Z; contradiction|]. split; [intros Za Zb; exfalso; apply ZC; split; assumption|]. lia.
Qed.

(** * One joint of a finished interpolation *)

Definition smooth2 (f f1 f2 : R -> R) : Prop := forall t, derivable_pt_lim f t (f1 t) /\ derivable_pt_lim f1 t (f2 t) /\ continuity_pt f2 t.
Record joint_path (debug : bool) (s : lspline) (T a0 an r0 rn amax : R) (f f1 f2 : R -> R) : Prop := {
  jp_eval : forall t, 0 <= t <= T -> ls_eval debug s t = FOk (f t) /\ ls_deriv debug s t = FOk (f1 t) /\ ls_dderiv debug s t = FOk (f2 t);
  jp_smooth : smooth2 f f1 f2;
  jp_first : f 0 = a0;
  jp_last : f T = an;
  jp_rate : f1 0 = r0;
  jp_end_rate : exists k, 0 < k <= 1 / 2 /\ f1 T = k * rn;
  jp_ends : f2 0 = 0 /\ f2 T = 0;
  jp_acc : forall t, f2 t = 0 \/ Rabs (f2 t) < Rabs amax;
  jp_dom : hd 0 (ls_domain s) = 0 /\ last (ls_domain s) 0 = T }.

Lemma wp_last wps : wps <> [] -> last wps wp0 = wp wps (n_of wps).
Proof. intros NE. destruct (exists_last NE) as (u & w & ->). rewrite last_last. unfold wp, n_of. rewrite app_length. cbn [length]. rewrite app_nth2 by lia. replace (length u + 1 - 1 - length u)%nat with 0%nat by lia. reflexivity. Qed.
Lemma joint_spec debug dim wps tp t_pre q t_post j a s : valid dim wps -> pseudo dim wps tp t_pre q t_post -> (j < dim)%nat ->
  smooth_linear (lin_times wps tp t_pre q t_post) (lin_column wps t_pre q t_post j) a = FOk s ->
  exists f f1 f2, joint_path debug s (sq (lin_times wps tp t_pre q t_post) (n_of wps + 2)) (angle (wp wps 0) j) (angle (wp wps (n_of wps)) j)
    (nth j (w_rates (wp wps 0)) 0) (nth j (w_rates (wp wps (n_of wps))) 0) a f f1 f2.
Proof.
  intros V P J E. destruct (lin_times_spec dim wps tp t_pre q t_post V P) as (I & LT & X0 & X1 & XN & XD). cbn zeta in *. set (n := n_of wps) in *. set (x := lin_times wps tp t_pre q t_post) in *. set (y := lin_column wps t_pre q t_post j) in *.
  pose proof (lin_column_len wps t_pre q t_post j (v_len _ _ V)) as LY. fold y n in LY.
  destruct (smooth_spec debug x y a (n + 2) ltac:(lia) ltac:(lia) ltac:(lia) I) as [E'|(s' & f & f1 & f2 & E' & EV & SM & F0 & FN & D0 & DN & A0 & AN & H0 & HN & _ & B)]; rewrite E' in E; [discriminate|]. injection E as ->.
  fold (sq x 0) (sq x (n + 2)) (sq y 0) (sq y (n + 2)) in *. rewrite X0 in *. destruct P as [P1 P2 P3 P4 P5 P6].
  assert (Y0 : sq y 0 = angle (wp wps 0) j) by reflexivity. assert (Y1 : sq y 1 = angle (wp wps 0) j + nth j (w_rates (wp wps 0)) 0 * t_pre) by reflexivity.
  assert (LR : length (angle (wp wps 0) j :: (angle (wp wps 0) j + nth j (w_rates (wp wps 0)) 0 * t_pre) :: removelast (col (tl wps) j)) = (n + 1)%nat).
  { cbn [length]. rewrite removelast_len. unfold col. rewrite map_length. pose proof (v_len _ _ V). unfold n, n_of. destruct wps; cbn in *; lia. }
  assert (YM : sq y (n + 1) = angle (wp wps n) j + nth j (w_rates (wp wps n)) 0 * (t_post - q)).
  { unfold sq, y, lin_column, lin_values. rewrite !app_comm_cons. rewrite app_nth2 by lia. rewrite LR. rewrite Nat.sub_diag. reflexivity. }
  assert (YN : sq y (n + 2) = angle (wp wps n) j).
  { unfold sq, y, lin_column, lin_values. rewrite !app_comm_cons. rewrite app_nth2 by lia. rewrite LR. replace (n + 2 - (n + 1))%nat with 1%nat by lia. cbn [nth]. rewrite wp_last; [reflexivity|]. pose proof (v_len _ _ V). destruct wps; [cbn in *; lia|discriminate]. }
  exists f, f1, f2. constructor.
  - exact EV.
  - exact SM.
  - now rewrite F0.
  - now rewrite FN.
  - rewrite D0. unfold secant. cbn [Nat.add]. rewrite X0, X1, Y0, Y1. field. lra.
  - exists ((q - t_post) / (2 * q - t_post)). split.
    + split; [apply Rmult_lt_0_compat; [lra|apply Rinv_0_lt_compat; lra]|]. apply Rmult_le_reg_r with (2 * q - t_post); [lra|]. unfold Rdiv. rewrite Rmult_assoc, Rinv_l by lra. lra.
    + rewrite DN. unfold secant. replace (n + 2 - 1 + 1)%nat with (n + 2)%nat by lia. replace (n + 2 - 1)%nat with (n + 1)%nat by lia. rewrite XD, YN, YM. field. lra.
  - now split.
  - exact B.
  - now split.
Qed.

(** * The rounds *)

Lemma wp_zset wps i v k : (i < length wps)%nat -> wp (zset wps (Z.of_nat i) v) k = if Nat.eq_dec i k then v else wp wps k.
Proof.
  intros L. unfold zset. replace (Z.of_nat i <? 0)%Z with false by lia. rewrite Nat2Z.id. unfold wp. revert i k L. induction wps as [|w wps IH]; intros i k L; [cbn in L; lia|].
  destruct i as [|i], k as [|k]; cbn [upd nth]; try reflexivity. rewrite IH by (cbn in L; lia). destruct (Nat.eq_dec i k), (Nat.eq_dec (S i) (S k)); try lia; reflexivity.
Qed.
Lemma len_zset (wps : list waypoint) i v : length (zset wps i v) = length wps.
Proof. pose proof (Zlen_zset wps i v) as Q. unfold Zlen in Q. lia. Qed.
Lemma ok_nth dim wps : (forall i, (i < length wps)%nat -> wp_ok dim (wp wps i)) -> Forall (wp_ok dim) wps.
Proof. intros H. apply Forall_forall. intros w I. apply In_nth with (d := wp0) in I. destruct I as (i & I & <-). now apply H. Qed.

(** [ws] is [wps] with durations that are not shorter and possibly with the end rates settled. *)
Record evolves (dim : nat) (wps ws : list waypoint) : Prop := {
  e_len : length ws = length wps;
  e_angles : forall i, w_angles (wp ws i) = w_angles (wp wps i);
  e_nominal : forall i, w_nominal (wp ws i) = w_nominal (wp wps i);
  e_dur : forall i, w_duration (wp wps i) <= w_duration (wp ws i);
  e_rates : forall i j, (j < dim)%nat -> end_rate (wp ws i) j = end_rate (wp wps i) j }.
Lemma evolves_refl dim wps : evolves dim wps wps. Proof. constructor; auto; intros; lra. Qed.
Lemma evolves_trans dim a b c : evolves dim a b -> evolves dim b c -> evolves dim a c.
Proof.
  intros [A1 A2 A3 A4 A5] [B1 B2 B3 B4 B5]. constructor; [congruence| | | |].
  - intros i. now rewrite B2.
  - intros i. now rewrite B3.
  - intros i. specialize (A4 i). specialize (B4 i). lra.
  - intros i j J. now rewrite B5, A5.
Qed.

Lemma stretch_spec dim wps i f : valid dim wps -> (S i < length wps)%nat -> 1 <= f -> exists ws, stretch wps (Z.of_nat i) f = FOk ws /\ valid dim ws /\ evolves dim wps ws
  /\ (forall k, k <> i -> wp ws k = wp wps k) /\ (forall k, w_rates (wp ws k) = w_rates (wp wps k) /\ w_rates_set (wp ws k) = w_rates_set (wp wps k)).
Proof.
  intros V L F. unfold stretch. rewrite aget_wp by lia. cbn [fbind]. eexists. split; [reflexivity|]. set (v := set_duration _ _). pose proof (v_dur _ _ V i L) as D.
  assert (W : forall k, wp (zset wps (Z.of_nat i) v) k = if Nat.eq_dec i k then v else wp wps k) by (intros k; apply wp_zset; lia). split; [|split; [|split]].
  - constructor; try rewrite len_zset.
    + apply (v_len _ _ V).
    + apply ok_nth. rewrite len_zset. intros k K. rewrite W. pose proof (wp_at dim wps k (v_ok _ _ V) K) as O. destruct (Nat.eq_dec i k) as [<-|]; [exact O|exact O].
    + intros k K. rewrite W. pose proof (v_rates _ _ V k K) as O. destruct (Nat.eq_dec i k) as [<-|]; exact O.
    + intros k K. rewrite W. pose proof (v_dur _ _ V k K) as O. destruct (Nat.eq_dec i k) as [<-|]; [cbn; nra|exact O].
  - constructor; [now rewrite len_zset| | | |]; intros k; rewrite W; destruct (Nat.eq_dec i k) as [<-|]; try reflexivity; try lra. cbn. nra.
  - intros k K. rewrite W. destruct (Nat.eq_dec i k); congruence.
  - intros k. rewrite W. destruct (Nat.eq_dec i k) as [<-|]; split; reflexivity.
Qed.

Lemma stretch_for_spec dim wps d : valid dim wps -> (0 <= d <= Z.of_nat (n_of wps) + 1)%Z -> exists ws, stretch_for wps d = FOk ws /\ valid dim ws /\ evolves dim wps ws
  /\ (forall k, w_rates (wp ws k) = w_rates (wp wps k) /\ w_rates_set (wp ws k) = w_rates_set (wp wps k))
  /\ (d = 0%Z -> forall k, (1 <= k)%nat -> wp ws k = wp wps k).
Proof.
  intros V D. pose proof (v_len _ _ V) as L. assert (LN : length wps = S (n_of wps)) by (unfold n_of; lia). set (n := n_of wps) in *. unfold stretch_for. cbv zeta. replace (Zlen wps - 1)%Z with (Z.of_nat n) by (unfold Zlen; lia).
  destruct (Z.leb_spec d 1) as [D1|D1].
  { destruct (stretch_spec dim wps 0 (11 / 10) V ltac:(lia) ltac:(lra)) as (ws & E & V' & EV & K & RS). exists ws. split; [exact E|]. split; [exact V'|]. split; [exact EV|]. split; [exact RS|]. intros _ k K1. apply K. lia. }
  destruct (Z.leb_spec (Z.of_nat n + 1) d) as [D2|D2].
  { replace (Z.of_nat n - 1)%Z with (Z.of_nat (n - 1)) by lia. destruct (stretch_spec dim wps (n - 1) (11 / 10) V ltac:(lia) ltac:(lra)) as (ws & E & V' & EV & _ & RS). exists ws. split; [exact E|]. split; [exact V'|]. split; [exact EV|]. split; [exact RS|]. lia. }
  replace (d - 2)%Z with (Z.of_nat (Z.to_nat (d - 2))) by lia. replace (d - 1)%Z with (Z.of_nat (Z.to_nat (d - 1))) by lia.
  destruct (stretch_spec dim wps (Z.to_nat (d - 2)) (21 / 20) V ltac:(lia) ltac:(lra)) as (ws & E & V' & EV & _ & RS). rewrite E. cbn [fbind].
  destruct (stretch_spec dim ws (Z.to_nat (d - 1)) (21 / 20) V' ltac:(rewrite (e_len _ _ _ EV); lia) ltac:(lra)) as (ws2 & E2 & V2 & EV2 & _ & RS2). exists ws2. split; [exact E2|]. split; [exact V2|]. split; [eapply evolves_trans; eauto|].
  split; [|lia]. intros k. destruct (RS k) as [A B]. destruct (RS2 k) as [A2 B2]. split; congruence.
Qed.

Lemma settle_spec w : w_angles (settle_rates w) = w_angles w /\ w_nominal (settle_rates w) = w_nominal w /\ w_duration (settle_rates w) = w_duration w /\ w_rates_set (settle_rates w) = true
  /\ (forall dim, wp_ok dim w -> wp_ok dim (settle_rates w)) /\ (forall j, (j < length (w_angles w))%nat -> nth j (w_rates (settle_rates w)) 0 = end_rate w j).
Proof.
  unfold settle_rates, end_rate, wp_ok. destruct (w_rates_set w) eqn:E; cbn [w_angles w_nominal w_duration w_rates_set w_rates]; (split; [reflexivity|]); (split; [reflexivity|]); (split; [reflexivity|]).
  - split; [exact E|]. split; [auto|]. intros j _. reflexivity.
  - split; [reflexivity|]. split.
    + intros dim (H1 & H2 & H3). rewrite map_length. auto.
    + intros j _. exact (map_nth (fun _ : R => 0) (w_angles w) 0 j).
Qed.
Lemma settle_ends_spec dim wps : valid dim wps -> valid dim (settle_ends wps) /\ evolves dim wps (settle_ends wps)
  /\ (forall i, w_duration (wp (settle_ends wps) i) = w_duration (wp wps i))
  /\ (forall j, (j < dim)%nat -> nth j (w_rates (wp (settle_ends wps) 0)) 0 = end_rate (wp wps 0) j /\ nth j (w_rates (wp (settle_ends wps) (n_of wps))) 0 = end_rate (wp wps (n_of wps)) j).
Proof.
  intros V. pose proof (v_len _ _ V) as L. assert (LN : length wps = S (n_of wps)) by (unfold n_of; lia). set (n := n_of wps) in *.
  assert (G : forall (ws : list waypoint) i, (i < length ws)%nat -> zget ws (Z.of_nat i) = Some (wp ws i)).
  { intros ws i I. unfold zget. replace (Z.of_nat i <? 0)%Z with false by lia. rewrite Nat2Z.id. now apply nth_error_nth'. }
  unfold settle_ends. cbv zeta. replace (Zlen wps - 1)%Z with (Z.of_nat n) by (unfold Zlen; lia). change 0%Z with (Z.of_nat 0). rewrite (G wps 0%nat) by lia. set (ws1 := zset wps (Z.of_nat 0) _).
  assert (L1 : length ws1 = length wps) by apply len_zset. rewrite (G ws1 n) by lia. set (ws2 := zset ws1 (Z.of_nat n) _). assert (L2 : length ws2 = length wps) by (unfold ws2; rewrite len_zset; exact L1).
  assert (W : forall k, wp ws2 k = if Nat.eq_dec n k then settle_rates (wp wps k) else if Nat.eq_dec 0 k then settle_rates (wp wps k) else wp wps k).
  { intros k. unfold ws2. rewrite wp_zset by lia. unfold ws1. rewrite !wp_zset by lia. destruct (Nat.eq_dec n k) as [<-|]; [destruct (Nat.eq_dec 0 n); [lia|reflexivity]|]. destruct (Nat.eq_dec 0 k) as [<-|]; reflexivity. }
  assert (W' : forall k, wp ws2 k = settle_rates (wp wps k) \/ wp ws2 k = wp wps k) by (intros k; rewrite W; destruct (Nat.eq_dec n k); [auto|]; destruct (Nat.eq_dec 0 k); auto).
  split; [|split; [|split]].
  - constructor; try rewrite L2.
    + exact L.
    + apply ok_nth. rewrite L2. intros k K. pose proof (wp_at dim wps k (v_ok _ _ V) K) as O. destruct (W' k) as [->| ->]; [apply settle_spec|]; exact O.
    + intros k K. pose proof (v_rates _ _ V k K) as O. unfold rates_pos in *. destruct (W' k) as [->| ->]; [destruct (settle_spec (wp wps k)) as (_ & -> & _)|]; exact O.
    + intros k K. pose proof (v_dur _ _ V k K) as O. destruct (W' k) as [->| ->]; [destruct (settle_spec (wp wps k)) as (_ & _ & -> & _)|]; exact O.
  - constructor; [exact L2| | | |].
    + intros k. destruct (W' k) as [->| ->]; [apply settle_spec|reflexivity].
    + intros k. destruct (W' k) as [->| ->]; [apply settle_spec|reflexivity].
    + intros k. destruct (W' k) as [->| ->]; [destruct (settle_spec (wp wps k)) as (_ & _ & -> & _)|]; lra.
    + intros k j J. destruct (W' k) as [->| ->]; [|reflexivity]. destruct (settle_spec (wp wps k)) as (_ & _ & _ & ST & _ & N). unfold end_rate at 1. rewrite ST. destruct (lt_dec k (length wps)) as [K|K].
      * apply N. destruct (wp_at dim wps k (v_ok _ _ V) K) as (-> & _). exact J.
      * replace (wp wps k) with wp0 by (unfold wp; symmetry; apply nth_overflow; lia). unfold end_rate. cbn. now destruct j.
  - intros k. destruct (W' k) as [->| ->]; [apply settle_spec|reflexivity].
  - intros j J. pose proof (wp_at dim wps 0 (v_ok _ _ V) ltac:(lia)) as (O0 & _). pose proof (wp_at dim wps n (v_ok _ _ V) ltac:(lia)) as (On & _). split.
    + rewrite W. destruct (Nat.eq_dec n 0); [lia|]. destruct (Nat.eq_dec 0 0); [|lia]. apply settle_spec. lia.
    + rewrite W. destruct (Nat.eq_dec n n); [|lia]. apply settle_spec. lia.
Qed.

(** * The whole interpolation *)

Definition durations (wps : list waypoint) : list R := map w_duration (removelast wps).
Lemma total_app a b : total (a ++ b) = total a + total b. Proof. unfold total. induction a as [|x a IH]; cbn; [lra|]. rewrite IH. lra. Qed.
Lemma total_mids dim wps : valid dim wps -> (2 <= n_of wps)%nat -> total (durations wps) = w_duration (wp wps 0) + total (mids_of wps) + w_duration (wp wps (n_of wps - 1)).
Proof.
  intros V N. destruct wps as [|w0 tl]; [cbn in N; lia|]. destruct (exists_last (l := tl)) as (u1 & wn & ->). { destruct tl; [cbn in N; lia|discriminate]. }
  destruct (exists_last (l := u1)) as (u & wm & ->). { destruct u1; [cbn in N; lia|discriminate]. }
  assert (EN : n_of (w0 :: (u ++ [wm]) ++ [wn]) = (length u + 2)%nat) by (unfold n_of; cbn [length]; rewrite !app_length; cbn [length]; lia). unfold mids_of. rewrite EN. unfold durations. rewrite app_comm_cons, removelast_last.
  cbn [skipn app]. replace (length u + 2 - 2)%nat with (length u) by lia. rewrite <- app_assoc. rewrite firstn_app, Nat.sub_diag, firstn_all, firstn_O, app_nil_r. cbn [map]. rewrite map_app. cbn [total fold_right]. fold (total (map w_duration u ++ map w_duration [wm])). rewrite total_app.
  replace (length u + 2 - 1)%nat with (S (length u)) by lia. unfold wp. cbn [nth]. rewrite app_nth2 by lia. rewrite Nat.sub_diag. cbn. lra.
Qed.
Lemma total_le_n (l l' : list waypoint) : length l = length l' -> (forall i, w_duration (wp l i) <= w_duration (wp l' i)) -> total (durations l) <= total (durations l').
Proof.
  revert l'. induction l as [|a l IH]; intros [|b l'] LE H; try discriminate; [unfold durations; cbn; lra|]. injection LE as LE. specialize (IH l' LE (fun i => H (S i))). pose proof (H 0%nat) as H0. cbn in H0.
  destruct l as [|a' l], l' as [|b' l']; try discriminate; [unfold durations; cbn; lra|]. unfold durations in *. cbn [removelast map total fold_right] in *. unfold total in IH. cbn [removelast] in IH. lra.
Qed.
Lemma total_nonneg l : (forall i, (S i < length l)%nat -> 0 < w_duration (wp l i)) -> 0 <= total (durations l).
Proof.
  induction l as [|a l IH]; intros H; [unfold durations; cbn; lra|]. destruct l as [|b l]; [unfold durations; cbn; lra|]. pose proof (H 0%nat ltac:(cbn; lia)) as H0. cbn in H0.
  specialize (IH (fun i I => H (S i) ltac:(cbn in *; lia))). unfold durations, total in *. cbn [removelast map fold_right] in *. lra.
Qed.
Lemma lin_time_total dim wps tp t_pre q t_post : valid dim wps -> pseudo dim wps tp t_pre q t_post -> total (durations wps) < sq (lin_times wps tp t_pre q t_post) (n_of wps + 2).
Proof.
  intros V P. destruct (lin_times_spec dim wps tp t_pre q t_post V P) as (_ & _ & _ & _ & -> & _). destruct P as [P1 P2 P3 P4 P5 P6]. destruct (Nat.eqb_spec (n_of wps) 1) as [N|N].
  - rewrite N. cbn [Nat.sub]. pose proof (v_len _ _ V). unfold n_of in N. destruct wps as [|a [|b [|c tl]]]; cbn in N; try lia. unfold durations, wp, total in *. cbn in *. lra.
  - pose proof (v_len _ _ V). rewrite (total_mids dim wps V) by (unfold n_of in *; lia). lra.
Qed.

Lemma forall2_impl {A B} (P Q : A -> B -> Prop) l l' : (forall a b, In a l -> P a b -> Q a b) -> Forall2 P l l' -> Forall2 Q l l'.
Proof. intros H F. induction F; constructor; [apply H; [now left|assumption]|]. apply IHF. intros a b I. apply H. now right. Qed.

(** What a finished interpolation provides for the joints of the given waypoints. *)
Definition linear_done (dim : nat) (wps : list waypoint) (acc : list R) (T : R) (ss : list lspline) : Prop :=
  Forall2 (fun j s => forall debug, exists f f1 f2, joint_path debug s T (angle (wp wps 0) j) (angle (wp wps (n_of wps)) j)
    (end_rate (wp wps 0) j) (end_rate (wp wps (n_of wps)) j) (nth j acc 0) f f1 f2) (seq 0 dim) ss.
Lemma evolves_n dim a b : evolves dim a b -> n_of b = n_of a. Proof. intros E. unfold n_of. now rewrite (e_len _ _ _ E). Qed.
Lemma done_mono dim wps ws acc T ss : evolves dim wps ws -> linear_done dim ws acc T ss -> linear_done dim wps acc T ss.
Proof.
  intros E D. unfold linear_done in *. rewrite (evolves_n _ _ _ E) in D. eapply forall2_impl; [|exact D]. intros j s0 J. cbn beta. apply in_seq in J. unfold angle in *. rewrite !(e_angles _ _ _ E), !(e_rates _ _ _ E) by lia. auto.
Qed.

Lemma linear_loop_spec dim acc : (1 <= dim)%nat -> length acc = dim -> forall fuel wps, valid dim wps -> exists o ws, linear_loop fuel acc wps = FOk (o, ws) /\ evolves dim wps ws /\ valid dim ws
  /\ match o with None => True | Some ss => exists T, total (durations ws) < T /\ linear_done dim wps acc T ss end.
Proof.
  intros D1 LA. induction fuel as [|fuel IH]; intros wps V; cbn [linear_loop].
  { exists None, wps. split; [reflexivity|]. split; [apply evolves_refl|]. split; [exact V|exact Logic.I]. }
  destruct (settle_ends_spec dim wps V) as (V1 & E1 & _ & N1). set (ws := settle_ends wps) in *. destruct (generate_spec dim ws acc V1 D1 LA) as (r & ER & _ & _ & _ & H). cbv zeta. rewrite ER. cbn [fbind].
  destruct r as [ss|d].
  - destruct H as (tp & t_pre & q & t_post & PS & F). exists (Some ss), ws. split; [reflexivity|]. split; [exact E1|]. split; [exact V1|]. exists (sq (lin_times ws tp t_pre q t_post) (n_of ws + 2)). split; [now apply (lin_time_total dim)|].
    eapply forall2_impl; [|exact F]. intros j s0 J HS debug. apply in_seq in J. assert (JD : (j < dim)%nat) by lia. destruct (joint_spec debug dim ws tp t_pre q t_post j _ _ V1 PS JD HS) as (f & f1 & f2 & JP).
    rewrite (evolves_n _ _ _ E1) in *. destruct (N1 j JD) as [R0 RN]. rewrite R0, RN in JP. unfold angle in *. rewrite !(e_angles _ _ _ E1) in JP. exists f, f1, f2. exact JP.
  - destruct (stretch_for_spec dim ws d V1 H) as (ws' & E2 & V2 & EV2 & _). rewrite E2. cbn [fbind]. destruct (IH ws' V2) as (o & w3 & E3 & EV3 & V3 & O). exists o, w3. split; [exact E3|].
    assert (E13 : evolves dim wps ws') by (eapply evolves_trans; eauto). split; [eapply evolves_trans; eauto|]. split; [exact V3|]. destruct o as [ss|]; [|exact Logic.I]. destruct O as (T & TT & DD). exists T. split; [exact TT|]. eapply done_mono; eauto.
Qed.

(** * Rounds without end *)

Definition rest_at_end (dim : nat) (wps : list waypoint) : Prop := forall j, (j < dim)%nat -> end_rate (wp wps (n_of wps)) j = 0.
Definition hopeless (dim : nat) (acc : list R) (wps : list waypoint) : Prop :=
  nth (dim - 1) acc 0 = 0
  \/ (2 <= n_of wps)%nat /\ w_duration (wp wps (n_of wps - 1)) < 1 / 1000
  \/ (2 <= n_of wps)%nat /\ rest_at_end dim wps
     /\ let k := (dim - 1)%nat in let d := w_duration (wp wps (n_of wps - 1)) in 3 / 2 * d * d * Rabs (nth k acc 0) <= Rabs (angle (wp wps (n_of wps)) k - angle (wp wps (n_of wps - 1)) k).
Lemma hopeless_loop dim acc : (1 <= dim)%nat -> length acc = dim -> forall fuel wps, valid dim wps -> hopeless dim acc wps -> exists ws, linear_loop fuel acc wps = FOk (None, ws).
Proof.
  intros D1 LA. induction fuel as [|fuel IH]; intros wps V HP; cbn [linear_loop]; [now exists wps|].
  destruct (settle_ends_spec dim wps V) as (V1 & E1 & DU & N1). set (ws := settle_ends wps) in *. destruct (generate_spec dim ws acc V1 D1 LA) as (r & ER & H1 & H2 & H3 & _). pose proof (evolves_n _ _ _ E1) as EN. rewrite EN in *.
  assert (R0 : r = inr 0%Z).
  { destruct HP as [Z|[(N2 & Z)|(N2 & Z & Z')]]; [now apply H1|apply H2; now rewrite DU|]. apply H3; [intros j J; destruct (N1 j J) as [_ ->]; now apply Z|]. cbn zeta in *. unfold angle. rewrite DU, !(e_angles _ _ _ E1). exact Z'. }
  cbv zeta. rewrite ER, R0. cbn [fbind]. destruct (stretch_for_spec dim ws 0 V1 ltac:(lia)) as (ws' & E2 & V2 & EV2 & RS & K). rewrite E2. cbn [fbind]. apply IH; [exact V2|].
  pose proof (evolves_n _ _ _ EV2) as EN2. specialize (K eq_refl). unfold hopeless. rewrite EN2, EN. destruct HP as [Z|[(N2 & Z)|(N2 & Z & Z')]]; [now left|right; left; rewrite K by lia; now rewrite DU|].
  right; right. split; [exact N2|]. split. { intros j J. rewrite EN2, EN. rewrite (e_rates _ _ _ EV2) by auto. rewrite (e_rates _ _ _ E1) by auto. now apply Z. }
  cbn zeta in *. rewrite !K by lia. unfold angle. rewrite DU, !(e_angles _ _ _ E1). exact Z'.
Qed.

(** * Success at the first round *)

Lemma generate_tail dim wps acc tp t_pre q t_post : valid dim wps -> (1 <= dim)%nat -> length acc = dim ->
  pre_loop (doublings (w_duration (wp wps 0))) (map (pj (wp wps 0) (wp wps 1) acc) (seq 0 dim)) (w_duration (wp wps 0)) (1 / 1000) true 0 = FOk (false, 2 * tp, t_pre) ->
  post_loop (doublings (w_duration (wp wps (n_of wps - 1)))) (map (qj (wp wps (n_of wps - 1)) (wp wps (n_of wps)) acc) (seq 0 dim)) (w_duration (wp wps (n_of wps - 1))) (1 / 1000) true 0 = FOk (false, 2 * q, t_post) ->
  generate_linear wps acc = linear_splines (lin_times wps tp t_pre q t_post) (map (fun j => (lin_column wps t_pre q t_post j, nth j acc 0)) (seq 0 dim)).
Proof.
  intros V D1 LA E1 E2. pose proof (v_len _ _ V) as L. unfold generate_linear. rewrite LA. fold (n_of wps). set (n := n_of wps) in *.
  assert (N1 : (1 <= n)%nat) by (unfold n, n_of; lia). assert (LN : length wps = S n) by (unfold n, n_of; lia).
  change 0%Z with (Z.of_nat 0) at 1. change 1%Z with (Z.of_nat 1) at 1. replace (Z.of_nat n - 1)%Z with (Z.of_nat (n - 1)) by lia. rewrite !aget_wp by lia. cbn [fbind].
  set (w0 := wp wps 0) in *. set (w1 := wp wps 1) in *. set (wm := wp wps (n - 1)) in *. set (wn := wp wps n) in *.
  pose proof (v_ok _ _ V) as W. assert (O0 : wp_ok dim w0) by (apply wp_at; auto; lia). assert (O1 : wp_ok dim w1) by (apply wp_at; auto; lia). assert (Om : wp_ok dim wm) by (apply wp_at; auto; lia). assert (On : wp_ok dim wn) by (apply wp_at; auto; lia).
  rewrite (pre_joints dim) by auto. cbn [fbind]. set (pres := map (pj w0 w1 acc) (seq 0 dim)) in *. rewrite E1. cbn [fbind].
  rewrite (post_joints dim) by auto. cbn [fbind]. set (posts := map (qj wm wn acc) (seq 0 dim)) in *. rewrite E2. cbn [fbind].
  rewrite (fmap_joints _ (fun j => (lin_column wps t_pre q t_post j, nth j acc 0))).
  2:{ intros j J. rewrite (linear_values_spec dim) by (auto; rewrite map_length; unfold pres, posts; rewrite map_length, seq_length; lia). cbn [fbind]. rewrite rget_nth by lia. cbn [fbind]. do 2 f_equal.
    unfold lin_column. fold n w0 wn. unfold pres, posts. rewrite !map_map. set (g := fun x => eval (initial_tangent _) _). set (h := fun x => eval (final_tangent _ _) _).
    rewrite (nth_indep (map g (seq 0 dim)) 0 (g 0%nat)) by (rewrite map_length, seq_length; lia). rewrite (nth_indep (map h (seq 0 dim)) 0 (h 0%nat)) by (rewrite map_length, seq_length; lia). rewrite !map_nth, !seq_nth by lia.
    unfold g, h. rewrite eval_initial, eval_final. cbn [Nat.add pj qj j_angle j_rate]. replace (2 * q / 2) with q by field. reflexivity. }
  reflexivity.
Qed.
Lemma pj_like w v acc acc' js : Forall2 like (map (pj w v acc) js) (map (pj w v acc') js).
Proof. induction js; constructor; auto. reflexivity. Qed.
Lemma qj_like w v acc acc' js : Forall2 like (map (qj w v acc) js) (map (qj w v acc') js).
Proof. induction js; constructor; auto. reflexivity. Qed.
Lemma smooth_large_list x (g : nat -> list R) js : (2 <= length x)%nat -> increasing x -> (forall j, In j js -> length (g j) = length x) ->
  exists m, forall acc, (forall j, In j js -> m < Rabs (nth j acc 0)) -> exists ss, linear_splines x (map (fun j => (g j, nth j acc 0)) js) = FOk (inl ss).
Proof.
  intros L I. induction js as [|j js IH]; intros G. { exists 0. intros acc _. now exists []. }
  destruct IH as (m1 & M1); [intros k K; apply G; now right|]. destruct (C54_large_bound x (g j)) as (m2 & M2); [symmetry; apply G; now left|exact L|exact I|].
  exists (Rmax m1 m2). intros acc A. destruct (M2 (nth j acc 0)) as (s & ES). { pose proof (A j (or_introl eq_refl)) as Q. pose proof (Rmax_r m1 m2). lra. }
  destruct (M1 acc) as (ss & ESS). { intros k K. pose proof (A k (or_intror K)) as Q. pose proof (Rmax_l m1 m2). lra. }
  exists (s :: ss). cbn [map linear_splines]. rewrite ES. rewrite ESS. reflexivity.
Qed.
Lemma generate_large dim wps : valid dim wps -> (1 <= dim)%nat -> 1 / 1000 <= w_duration (wp wps 0) -> 1 / 1000 <= w_duration (wp wps (n_of wps - 1)) ->
  exists m, forall acc, length acc = dim -> (forall j, (j < dim)%nat -> m < Rabs (nth j acc 0)) -> exists ss, generate_linear wps acc = FOk (inl ss).
Proof.
  intros V D1 L0 Lm. pose proof (v_len _ _ V) as L. set (n := n_of wps) in *. assert (N1 : (1 <= n)%nat) by (unfold n, n_of; lia). assert (LN : length wps = S n) by (unfold n, n_of; lia).
  set (w0 := wp wps 0) in *. set (w1 := wp wps 1). set (wm := wp wps (n - 1)) in *. set (wn := wp wps n).
  pose proof (v_ok _ _ V) as W. assert (O0 : wp_ok dim w0) by (apply wp_at; auto; lia). assert (Om : wp_ok dim wm) by (apply wp_at; auto; lia).
  pose proof (v_rates _ _ V 0%nat ltac:(lia)) as R0. fold w0 in R0. pose proof (v_rates _ _ V (n - 1)%nat ltac:(lia)) as Rm. fold wm in Rm.
  destruct (pre_loop_large (map (pj w0 w1 []) (seq 0 dim)) (w_duration w0) (pj_pos dim w0 w1 [] O0 R0) L0) as (m1 & t_pre & M1 & T1 & T2 & H1).
  destruct (post_loop_large (map (qj wm wn []) (seq 0 dim)) (w_duration wm) (qj_pos dim wm wn [] Om Rm) Lm) as (m2 & t_post & M2 & S1 & H2).
  assert (NE : forall (f : nat -> ljoint), map f (seq 0 dim) <> []) by (intros f; destruct dim; [lia|discriminate]).
  assert (PS : increasing (lin_times wps (1 / 1000) t_pre (1 / 1000) t_post) /\ length (lin_times wps (1 / 1000) t_pre (1 / 1000) t_post) = (n + 3)%nat).
  { destruct (mids_spec dim wps V) as [ML MP]. pose proof (v_dur _ _ V 0%nat ltac:(lia)) as Q0. pose proof (v_dur _ _ V (n - 1)%nat ltac:(lia)) as Qm. fold w0 in Q0. fold wm in Qm.
    destruct (times_spec n t_pre (2 * (1 / 1000) + w_duration w0 - t_pre) (mids_of wps) (w_duration wm) t_post (2 * (1 / 1000) - t_post)) as (A & B & _); auto; try lra. }
  destruct PS as [I LT].
  destruct (smooth_large_list (lin_times wps (1 / 1000) t_pre (1 / 1000) t_post) (lin_column wps t_pre (1 / 1000) t_post) (seq 0 dim)) as (m3 & H3); [lia|exact I|intros j _; rewrite lin_column_len by auto; rewrite LT; fold n; lia|].
  exists (Rmax m1 (Rmax m2 m3)). intros acc LA A. pose proof (Rmax_l m1 (Rmax m2 m3)). pose proof (Rmax_r m1 (Rmax m2 m3)). pose proof (Rmax_l m2 m3). pose proof (Rmax_r m2 m3).
  destruct (H3 acc) as (ss & ES). { intros j J. apply in_seq in J. specialize (A j ltac:(lia)). lra. }
  exists ss. rewrite (generate_tail dim wps acc (1 / 1000) t_pre (1 / 1000) t_post V D1 LA); [exact ES| |].
  - fold w0 w1. replace (2 * (1 / 1000)) with (1 / 1000 * 2) by ring. apply H1; [apply pj_like|]. intros j J. apply in_map_iff in J. destruct J as (k & <- & K). apply in_seq in K. cbn. specialize (A k ltac:(lia)). lra.
  - fold n wm wn. replace (2 * (1 / 1000)) with (1 / 1000 * 2) by ring. apply H2; [apply qj_like|]. intros j J. apply in_map_iff in J. destruct J as (k & <- & K). apply in_seq in K. cbn. specialize (A k ltac:(lia)). lra.
Qed.

(** * linearSplineInterpolation *)

(** What a user sees of joint [j] of a trajectory of duration [T]: three functions that its evaluators compute. *)
Definition observed (fss : list (list sfun)) (j : nat) (T : R) (f f1 f2 : R -> R) : Prop :=
  forall debug t, 0 <= t <= T -> traj_joint piece_eval debug fss (Z.of_nat j) t = FOk (f t)
    /\ traj_joint piece_deriv debug fss (Z.of_nat j) t = FOk (f1 t) /\ traj_joint piece_dderiv debug fss (Z.of_nat j) t = FOk (f2 t).
(** Waypoints the interpolation accepts. *)
Definition acceptable (dim : nat) (wps : list waypoint) : Prop :=
  (2 <= length wps)%nat /\ (forall i, (S i < length wps)%nat -> rates_pos (wp wps i))
  /\ forall i, (S i < length wps)%nat -> 0 < w_duration (wp wps i) \/ exists j, (j < dim)%nat /\ angle (wp wps (S i)) j <> angle (wp wps i) j.

Lemma initialise_iff dim wps : wps <> [] -> Forall (wp_ok dim) wps -> (forall i, (S i < length wps)%nat -> rates_pos (wp wps i)) ->
  exists ws b, initialise_loop dim wps = FOk (ws, b) /\ length ws = length wps
    /\ (forall i, same_wp (wp ws i) (wp wps i) /\ w_duration (wp wps i) <= w_duration (wp ws i))
    /\ w_duration (last ws wp0) = w_duration (last wps wp0)
    /\ (b = true -> forall i, (S i < length wps)%nat -> 0 < w_duration (wp ws i) /\ seg_dur dim (wp wps i) (wp wps (S i)) (w_duration (wp wps i)) (w_duration (wp ws i)))
    /\ (b = false <-> exists i, (S i < length wps)%nat /\ w_duration (wp wps i) <= 0 /\ forall j, (j < dim)%nat -> angle (wp wps (S i)) j = angle (wp wps i) j).
Proof.
  intros NE W P. destruct (initialise_spec dim wps NE W P) as (ws & b & E & L & S & LA & T & F). exists ws, b. do 5 (split; [assumption|]). split; [exact F|]. intros (i & I & D & A). destruct b; [|reflexivity]. exfalso.
  destruct (T eq_refl i I) as (Q & [Q1 Q2 Q3]). destruct Q3 as [Q3|(j & J & Q3)]; [lra|]. rewrite (A j J), Rminus_diag_eq, Rabs_R0 in Q3 by reflexivity.
  pose proof (P i I) as PR. unfold rates_pos in PR. rewrite Forall_forall in PR. pose proof (wp_at dim wps i W ltac:(lia)) as (_ & _ & LN). specialize (PR (nominal (wp wps i) j)). assert (0 < nominal (wp wps i) j) by (apply PR; apply nth_In; lia). nra.
Qed.
Lemma same_evolves dim wps ws : length ws = length wps -> (forall i, same_wp (wp ws i) (wp wps i) /\ w_duration (wp wps i) <= w_duration (wp ws i)) -> evolves dim wps ws.
Proof.
  intros L H. constructor; [exact L| | | |]; intros i; destruct (H i) as [(A & B & C & D) E]; auto. intros j _. unfold end_rate. rewrite B, C. reflexivity.
Qed.
Lemma initialised_valid dim wps ws : (2 <= length wps)%nat -> Forall (wp_ok dim) wps -> (forall i, (S i < length wps)%nat -> rates_pos (wp wps i)) -> initialise_loop dim wps = FOk (ws, true) -> valid dim ws /\ evolves dim wps ws.
Proof.
  intros L2 W P E. destruct (initialise_iff dim wps) as (ws' & b & E' & L & S & _ & T & _); auto. { destruct wps; [cbn in L2; lia|discriminate]. } rewrite E in E'. injection E' as <- <-. split; [|now apply same_evolves].
  constructor; try rewrite L; auto.
  - apply ok_nth. rewrite L. intros i I. pose proof (wp_at dim wps i W I) as O. destruct (S i) as [(A & B & C & D) _]. unfold wp_ok. rewrite A, B, D. exact O.
  - intros i I. specialize (P i I). destruct (S i) as [(A & B & C & D) _]. unfold rates_pos. rewrite D. exact P.
  - intros i I. now apply T.
Qed.
Lemma last_indep {A} (l : list A) d d' : l <> [] -> last l d = last l d'.
Proof. induction l as [|a l IH]; [congruence|]. intros _. destruct l; [reflexivity|]. cbn [last] in *. apply IH. discriminate. Qed.

Lemma linear_spec dim wps acc fuel : (1 <= dim)%nat -> length acc = dim -> Forall (wp_ok dim) wps ->
  (~ acceptable dim wps -> linear_interpolate fuel wps acc = FThrow ConfigurationError)
  /\ (acceptable dim wps -> exists ws1 o ws, initialise_loop dim wps = FOk (ws1, true) /\ valid dim ws1 /\ evolves dim wps ws1 /\ evolves dim wps ws /\ valid dim ws /\
       linear_loop fuel acc ws1 = FOk (o, ws) /\
       match o with
       | None => linear_interpolate fuel wps acc = FOk (None, ws)
       | Some ss => exists T, total (durations ws) < T /\ linear_done dim wps acc T ss /\ linear_interpolate fuel wps acc = FOk (Some (T, linear_functions ss), ws)
       end).
Proof.
  intros D1 LA W. unfold linear_interpolate, validate. destruct (Z.ltb_spec (Zlen wps) 2) as [L|L].
  { cbn [fbind negb]. split; [reflexivity|]. intros (A & _). unfold Zlen in L. lia. }
  assert (L2 : (2 <= length wps)%nat) by (unfold Zlen in L; lia). assert (NE : wps <> []) by (destruct wps; [cbn in L2; lia|discriminate]).
  assert (EV : forall A (k : bool -> fres A), fbind match wps with [] => FUB | _ => FOk (validate_loop wps) end k = k (validate_loop wps)) by (intros A k; destruct wps; [congruence|reflexivity]). rewrite EV.
  pose proof (validate_spec wps) as VS. destruct (validate_loop wps) eqn:EVL; cbn [negb].
  2:{ split; [reflexivity|]. intros (_ & A & _). apply VS in A. discriminate. }
  assert (P : forall i, (S i < length wps)%nat -> rates_pos (wp wps i)) by now apply VS. rewrite LA.
  destruct (initialise_iff dim wps NE W P) as (ws & b & E & LW & S & _ & T & F). rewrite E. cbn [fbind]. destruct b; cbn [negb].
  2:{ split; [reflexivity|]. intros (_ & _ & A). exfalso. destruct F as [F _]. destruct (F eq_refl) as (i & I & D & AE). destruct (A i I) as [Q|(j & J & Q)]; [lra|]. apply Q. now apply AE. }
  split.
  { intros NA. exfalso. apply NA. split; [exact L2|]. split; [exact P|]. intros i I. destruct (T eq_refl i I) as (Q & [Q1 Q2 Q3]). destruct (Rlt_dec 0 (w_duration (wp wps i))) as [D|D]; [now left|right].
    destruct Q3 as [Q3|(j & J & Q3)]; [lra|]. exists j. split; [exact J|]. intros EQ. rewrite EQ, Rminus_diag_eq, Rabs_R0 in Q3 by reflexivity.
    pose proof (P i I) as PR. unfold rates_pos in PR. rewrite Forall_forall in PR. pose proof (wp_at dim wps i W ltac:(lia)) as (_ & _ & LN). specialize (PR (nominal (wp wps i) j)). assert (0 < nominal (wp wps i) j) by (apply PR; apply nth_In; lia). nra. }
  intros _. destruct (initialised_valid dim wps ws L2 W P E) as [V EVW]. destruct (linear_loop_spec dim acc D1 LA fuel ws V) as (o & w2 & EL & EV2 & V2 & H).
  exists ws, o, w2. split; [reflexivity|]. split; [exact V|]. split; [exact EVW|]. assert (E13 : evolves dim wps w2) by (eapply evolves_trans; eauto). split; [exact E13|]. split; [exact V2|]. split; [exact EL|]. rewrite EL. cbn [fbind]. destruct o as [ss|]; [|reflexivity].
  destruct H as (T0 & T1 & T2). exists T0. split; [exact T1|]. assert (T3 : linear_done dim wps acc T0 ss) by exact (done_mono dim wps ws acc T0 ss EVW T2). split; [exact T3|].
  unfold linear_done in T3. destruct dim as [|d']; [lia|]. cbn [seq] in T3. inversion T3 as [|? s0 ? ss0 HS FS E3 E4]. destruct (HS true) as (f & f1 & f2 & JP). destruct (jp_dom _ _ _ _ _ _ _ _ _ _ _ JP) as [Da Db]. change (aget (s0 :: ss0) 0) with (FOk s0). cbn [fbind]. rewrite Da, Db. do 4 f_equal. lra.
Qed.

Lemma index_debug d t i : spline_index true d t = FOk i -> spline_index false d t = FOk i.
Proof. unfold spline_index. destruct d as [|a d]; [auto|]. cbn [andb]. destruct (negb _); [discriminate|]. auto. Qed.
Lemma observed_spec dim wps acc T ss j : linear_done dim wps acc T ss -> (j < dim)%nat -> 0 <= T ->
  exists f f1 f2, observed (linear_functions ss) j T f f1 f2 /\ exists s, joint_path false s T (angle (wp wps 0) j) (angle (wp wps (n_of wps)) j) (end_rate (wp wps 0) j) (end_rate (wp wps (n_of wps)) j) (nth j acc 0) f f1 f2.
Proof.
  intros D J T0. unfold linear_done in D.
  assert (G : forall js ss, Forall2 (fun j s => forall debug, exists f f1 f2, joint_path debug s T (angle (wp wps 0) j) (angle (wp wps (n_of wps)) j)
    (end_rate (wp wps 0) j) (end_rate (wp wps (n_of wps)) j) (nth j acc 0) f f1 f2) js ss -> forall k, (k < length js)%nat -> exists s, nth_error ss k = Some s /\ forall debug, exists f f1 f2, joint_path debug s T (angle (wp wps 0) (nth k js 0%nat)) (angle (wp wps (n_of wps)) (nth k js 0%nat))
    (end_rate (wp wps 0) (nth k js 0%nat)) (end_rate (wp wps (n_of wps)) (nth k js 0%nat)) (nth (nth k js 0%nat) acc 0) f f1 f2).
  { intros js ss' F. induction F as [|j0 s js ss' H F IH]; intros k K; [cbn in K; lia|]. destruct k as [|k]; [exists s; split; [reflexivity|exact H]|]. cbn [nth nth_error]. apply IH. cbn in K. lia. }
  destruct (G _ _ D j ltac:(rewrite seq_length; lia)) as (s & ES & H). rewrite seq_nth in H by lia. cbn [Nat.add] in H. destruct (H false) as (f & f1 & f2 & JF). exists f, f1, f2.
  split; [|exists s; exact JF]. destruct (H true) as (g & g1 & g2 & JT). destruct (jp_dom _ _ _ _ _ _ _ _ _ _ _ JF) as [DA DB].
  assert (EG : forall debug t, 0 <= t <= T -> ls_eval debug s t = FOk (f t) /\ ls_deriv debug s t = FOk (f1 t) /\ ls_dderiv debug s t = FOk (f2 t)).
  { intros debug t B. pose proof (jp_eval _ _ _ _ _ _ _ _ _ _ _ JF t B) as (A1 & A2 & A3). destruct debug; [|auto]. pose proof (jp_eval _ _ _ _ _ _ _ _ _ _ _ JT t B) as (B1 & B2 & B3).
    assert (NT : ls_eval true s t = ls_eval false s t /\ ls_deriv true s t = ls_deriv false s t /\ ls_dderiv true s t = ls_dderiv false s t).
    { unfold ls_eval, ls_deriv, ls_dderiv in *. destruct (spline_index true (ls_domain s) t) as [i| | |] eqn:EI; try discriminate. rewrite (index_debug _ _ _ EI). auto. }
    destruct NT as (-> & -> & ->). auto. }
  intros debug t B. unfold traj_joint, linear_functions, aget, zget. replace (Z.of_nat j <? 0)%Z with false by lia. rewrite Nat2Z.id, nth_error_map, ES. cbn [option_map fbind]. unfold traj_at. cbn [last first_function s_end]. rewrite DB.
  destruct (Rle_dec 0 t) as [|]; [|lra]. destruct (Rle_dec t (T + / 10000)) as [|]; [|lra]. cbn [negb andb]. rewrite andb_false_r. destruct (Rle_dec t T) as [|]; [|lra]. unfold sfun_at. cbn [s_begin s_end]. destruct (Rle_dec 0 t); [|lra]. destruct (Rle_dec t T); [|lra]. cbn [negb andb]. rewrite andb_false_r. cbn [piece_eval piece_deriv piece_dderiv s_piece]. now apply EG.
Qed.
