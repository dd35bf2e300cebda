(** Splines: C52 to C55, C141 to C143. *)
From Verif Require Import RBase PolyModel SplineModel PolyProofs RootsProofs SplineProofs CubicProofs TensionProofs SmoothProofs.
Open Scope R_scope.

(** What a user expects of a smooth interpolant, stated on functions over the real line:
    [f1] and [f2] are the first and second derivatives of [f], and [f2] is continuous. *)
Definition twice_smooth (f f1 f2 : R -> R) : Prop :=
  forall t, derivable_pt_lim f t (f1 t) /\ derivable_pt_lim f1 t (f2 t) /\ continuity_pt f2 t.
Definition through (x y : list R) (f : R -> R) : Prop := forall i, (i < length x)%nat -> f (nth i x 0) = nth i y 0.
Definition piecewise_cubic (x : list R) (f : R -> R) : Prop :=
  forall i, (S i < length x)%nat -> exists c0 c1 c2 c3, forall t, nth i x 0 <= t <= nth (S i) x 0 -> f t = c0 + c1 * t + c2 * (t * t) + c3 * (t * t * t).
Definition in_domain (x : list R) (t : R) : Prop := hd 0 x <= t <= last x 0.

Lemma domain_ends x N : length x = S N -> hd 0 x = nth 0 x 0 /\ last x 0 = nth N x 0.
Proof. intros L. split; [now destruct x|]. rewrite last_nth by (intros ->; discriminate). f_equal. lia. Qed.

Ltac prep x y :=
  let N := fresh "N" in let EN := fresh "EN" in let LX := fresh "LX" in let LY := fresh "LY" in let N1 := fresh "N1" in let HD := fresh "HD" in let LA := fresh "LA" in
  remember (length x - 1)%nat as N eqn:EN;
  match goal with LE : length x = length y, L2 : (2 <= length x)%nat |- _ =>
    assert (LX : length x = S N) by lia; assert (LY : length y = S N) by lia; assert (N1 : (1 <= N)%nat) by lia end;
  destruct (domain_ends x N LX) as [HD LA]; unfold in_domain, through, piecewise_cubic, twice_smooth; rewrite ?HD, ?LA.

(** A natural cubic spline. *)
Theorem C52_natural : forall debug x y, length x = length y -> (2 <= length x)%nat -> increasing x ->
  exists s f f1 f2, natural_spline debug x y = FOk s
    /\ (forall t, in_domain x t -> cs_eval debug s t = FOk (f t) /\ cs_deriv debug s t = FOk (f1 t) /\ cs_dderiv debug s t = FOk (f2 t))
    /\ twice_smooth f f1 f2 /\ through x y f /\ piecewise_cubic x f
    /\ f2 (hd 0 x) = 0 /\ f2 (last x 0) = 0.
Proof.
  intros debug x y LE L2 H. prep x y.
  destruct (solve_spec x y 0 0 0 0 N LX LY N1 H ltac:(lra) ltac:(lra)) as (m & E & LM & M0 & MN & TRI).
  destruct (c2_apply_spec debug x y m N LX LY LM N1 H TRI) as (s & f & f1 & f2 & ES & EV & D & K & CU & _).
  exists s, f, f1, f2. split; [|split; [exact EV|split; [exact D|split; [|split]]]].
  - unfold natural_spline, c2_natural, size_checks. replace (Zlen x <? 2)%Z with false by (unfold Zlen; lia). replace (Zlen y <? 2)%Z with false by (unfold Zlen; lia).
    replace (Zlen x =? Zlen y)%Z with true by (unfold Zlen; lia). cbn [orb negb]. rewrite Bool.andb_false_r. cbn [fbind]. rewrite E. cbn [fbind]. exact ES.
  - intros i I. apply K. lia.
  - intros i I. apply CU. lia.
  - unfold sq in M0, MN. destruct (K 0%nat ltac:(lia)) as [_ ->]. destruct (K N ltac:(lia)) as [_ ->]. split; lra.
Qed.
Print Assumptions C52_natural.

(** A clamped cubic spline takes the requested slopes at the ends. *)
Theorem C52_clamped : forall debug x y v0 vf, length x = length y -> (2 <= length x)%nat -> increasing x ->
  exists s f f1 f2, clamped_spline debug x y v0 vf = FOk s
    /\ (forall t, in_domain x t -> cs_eval debug s t = FOk (f t) /\ cs_deriv debug s t = FOk (f1 t) /\ cs_dderiv debug s t = FOk (f2 t))
    /\ twice_smooth f f1 f2 /\ through x y f /\ piecewise_cubic x f
    /\ f1 (hd 0 x) = v0 /\ f1 (last x 0) = vf.
Proof.
  intros debug x y v0 vf LE L2 H. prep x y.
  set (u0 := 3 / (sq x 1 - sq x 0) * (secant x y 0 - v0)). set (ul := 3 / (sq x N - sq x (N - 1)) * (vf - secant x y (N - 1))).
  destruct (solve_spec x y (- (1 / 2)) u0 (1 / 2) ul N LX LY N1 H ltac:(lra) ltac:(lra)) as (m & E & LM & M0 & MN & TRI).
  destruct (c2_apply_spec debug x y m N LX LY LM N1 H TRI) as (s & f & f1 & f2 & ES & EV & D & K & CU & S0 & SN).
  pose proof (increasing_lt x 0 1 H ltac:(lia) ltac:(lia)) as A. pose proof (increasing_lt x (N - 1) N H ltac:(lia) ltac:(lia)) as B.
  fold (sq x 0) (sq x 1) in A. fold (sq x (N - 1)) (sq x N) in B.
  exists s, f, f1, f2. split; [|split; [exact EV|split; [exact D|split; [|split; [|split]]]]].
  - unfold clamped_spline, c2_clamped, size_checks. replace (Zlen x <? 2)%Z with false by (unfold Zlen; lia). replace (Zlen y <? 2)%Z with false by (unfold Zlen; lia).
    replace (Zlen x =? Zlen y)%Z with true by (unfold Zlen; lia). cbn [orb negb]. rewrite Bool.andb_false_r. cbn [fbind].
    change (rget x 0) with (rget x (Z.of_nat 0)). change (rget y 0) with (rget y (Z.of_nat 0)). change (rget x 1) with (rget x (Z.of_nat 1)). change (rget y 1) with (rget y (Z.of_nat 1)).
    replace (Zlen x - 1)%Z with (Z.of_nat N) by (unfold Zlen; lia). replace (Zlen x - 2)%Z with (Z.of_nat (N - 1)) by (unfold Zlen; lia).
    rewrite !rget_nth by lia. cbn [fbind]. fold (sq x 0) (sq x 1) (sq x N) (sq x (N - 1)) (sq y 0) (sq y 1) (sq y N) (sq y (N - 1)). repeat (rewrite fdiv_ok by lra; cbn [fbind]).
    unfold u0, ul, secant in E. cbn [Nat.add] in E. replace (N - 1 + 1)%nat with N in E by lia. rewrite E. cbn [fbind]. exact ES.
  - intros i I. apply K. lia.
  - intros i I. apply CU. lia.
  - rewrite S0, M0. unfold u0. field. lra.
  - rewrite SN. replace (sq m (N - 1) + 2 * sq m N) with (2 * (sq m N + 1 / 2 * sq m (N - 1))) by field. rewrite MN. unfold ul. field. lra.
Qed.
Print Assumptions C52_clamped.

(** Too few points, or (in a debug build) sets of different sizes, are refused. *)
Theorem C52_sizes_checked : forall debug x y v0 vf,
  ((length x < 2)%nat \/ (length y < 2)%nat \/ (debug = true /\ length x <> length y)) ->
  natural_spline debug x y = FThrow OutOfRangeError /\ clamped_spline debug x y v0 vf = FThrow OutOfRangeError.
Proof.
  intros debug x y v0 vf C. assert (E : size_checks debug x y = FThrow OutOfRangeError).
  { unfold size_checks, Zlen. destruct C as [C|[C|[-> C]]].
    - replace (Z.of_nat (length x) <? 2)%Z with true by lia. reflexivity.
    - replace (Z.of_nat (length y) <? 2)%Z with true by lia. rewrite Bool.orb_true_r. reflexivity.
    - destruct (_ || _)%bool; [reflexivity|]. replace (Z.of_nat (length x) =? Z.of_nat (length y))%Z with false by lia. reflexivity. }
  unfold natural_spline, clamped_spline, c2_natural, c2_clamped. rewrite E. split; reflexivity.
Qed.
Print Assumptions C52_sizes_checked.

Theorem C53_heuristic : forall debug x y v0 vf, length x = length y -> (2 <= length x)%nat -> increasing x ->
  exists s f f1, heuristic_spline debug x y v0 vf = FOk s
    /\ (forall t, in_domain x t -> cs_eval debug s t = FOk (f t) /\ cs_deriv debug s t = FOk (f1 t))
    /\ (forall t, derivable_pt_lim f t (f1 t) /\ continuity_pt f1 t) /\ through x y f /\ piecewise_cubic x f
    /\ f1 (hd 0 x) = v0 /\ f1 (last x 0) = vf
    /\ (forall i, (1 <= i)%nat -> (S i < length x)%nat -> f1 (nth i x 0) =
          ((nth i y 0 - nth (i - 1) y 0) / (nth i x 0 - nth (i - 1) x 0) + (nth (S i) y 0 - nth i y 0) / (nth (S i) x 0 - nth i x 0)) / 2).
Proof.
  intros debug x y v0 vf LE L2 H. prep x y. destruct (heuristic_spec debug x y v0 vf N LX LY N1 H) as (s & f & f1 & E & EV & D & K & CU & S0 & SN & SI).
  exists s, f, f1. split; [exact E|]. split; [exact EV|]. split; [exact D|]. split; [intros i I; apply K; lia|]. split; [intros i I; apply CU; lia|].
  split; [exact S0|]. split; [exact SN|]. intros i I1 I2. rewrite SI by lia. unfold secant, sq. replace (i - 1 + 1)%nat with i by lia. replace (i + 1)%nat with (S i) by lia. reflexivity.
Qed.
Print Assumptions C53_heuristic.

(** Smooth linear splines: construction either refuses (the bound cannot be met at some corner) or gives a smooth curve
    with the acceleration bound; it passes through the middle of every inner segment. *)
Theorem C54_smooth_linear : forall debug x y a, length x = length y -> (2 <= length x)%nat -> increasing x ->
  smooth_linear x y a = FThrow ConstructorError
  \/ exists s f f1 f2, smooth_linear x y a = FOk s
    /\ (forall t, in_domain x t -> ls_eval debug s t = FOk (f t) /\ ls_deriv debug s t = FOk (f1 t) /\ ls_dderiv debug s t = FOk (f2 t))
    /\ twice_smooth f f1 f2
    /\ f (hd 0 x) = hd 0 y /\ f (last x 0) = last y 0
    /\ f1 (hd 0 x) = (nth 1 y 0 - nth 0 y 0) / (nth 1 x 0 - nth 0 x 0)
    /\ (let n := (length x - 1)%nat in f1 (last x 0) = (nth n y 0 - nth (n - 1) y 0) / (nth n x 0 - nth (n - 1) x 0))
    /\ f2 (hd 0 x) = 0 /\ f2 (last x 0) = 0
    /\ (forall i, (1 <= i)%nat -> (S (S i) < length x)%nat -> f ((nth i x 0 + nth (S i) x 0) / 2) = (nth i y 0 + nth (S i) y 0) / 2)
    /\ (forall t, f2 t = 0 \/ Rabs (f2 t) < Rabs a).
Proof.
  intros debug x y a LE L2 H. prep x y. destruct (domain_ends y N LY) as [HY LY']. rewrite HY, LY'.
  destruct (smooth_spec debug x y a N LX LY N1 H) as [E|(s & f & f1 & f2 & E & EV & D & F0 & FN & D0 & DN & A0 & AN & _ & _ & MID & B)]; [now left|right].
  exists s, f, f1, f2. split; [exact E|]. split; [exact EV|]. split; [exact D|]. split; [exact F0|]. split; [exact FN|]. split; [exact D0|]. split; [cbn zeta; unfold secant, sq in DN; replace (N - 1 + 1)%nat with N in DN by lia; exact DN|]. split; [exact A0|]. split; [exact AN|]. split; [intros i I J; apply MID; lia|exact B].
Qed.
Print Assumptions C54_smooth_linear.

(** Whatever the data, a large enough bound is accepted. *)
Theorem C54_large_bound : forall x y, length x = length y -> (2 <= length x)%nat -> increasing x ->
  exists m, forall a, m < Rabs a -> exists s, smooth_linear x y a = FOk s.
Proof.
  intros x y LE L2 H. prep x y. destruct (corners_large x y N LX H (N - 1) 1 ltac:(lia) ltac:(lia)) as (m & HM). exists m. intros a A. destruct (HM a A) as ([cs ds] & E).
  unfold smooth_linear. replace (Zlen x =? Zlen y)%Z with true by (unfold Zlen; lia). cbn [negb]. replace (Zlen x <? 2)%Z with false by (unfold Zlen; lia).
  rewrite LX. cbn zeta. replace (S N - 1)%nat with N by lia. pose proof (slsegs_spec x y N LX LY H N 0 ltac:(lia)) as E1. change (Z.of_nat 0) with 0%Z in E1. rewrite E1. cbn [fbind].
  pose proof (rget_nth x 0 ltac:(lia)) as E0. change (Z.of_nat 0) with 0%Z in E0. rewrite E0. rewrite rget_nth by lia. cbn [fbind]. change (map _ (seq 0 N)) with (segs_of x y N).
  change (Z.of_nat 1) with 1%Z in E. rewrite E. cbn [fbind]. eauto.
Qed.
Print Assumptions C54_large_bound.
(** Different numbers of points and values are refused in every build. *)
Theorem C54_sizes_checked : forall x y a, length x <> length y -> smooth_linear x y a = FThrow OutOfRangeError.
Proof. intros x y a N. unfold smooth_linear. replace (Zlen x =? Zlen y)%Z with false by (unfold Zlen; lia). reflexivity. Qed.
Print Assumptions C54_sizes_checked.


(** A tension spline through three points or more; on every segment f'' - tau^2 f is a straight line, which is what makes it
    a spline in tension. *)
Theorem C55_tension : forall debug x y tau, length x = length y -> (3 <= length x)%nat -> increasing x -> 0 < tau ->
  exists s f f1 f2, tension_spline debug x y tau = FOk s
    /\ (forall t, in_domain x t -> ts_eval debug s t = FOk (f t) /\ ts_deriv debug s t = FOk (f1 t) /\ ts_dderiv debug s t = FOk (f2 t))
    /\ twice_smooth f f1 f2 /\ through x y f
    /\ f2 (hd 0 x) = 0 /\ f2 (last x 0) = 0
    /\ (forall i t, (S i < length x)%nat -> nth i x 0 <= t <= nth (S i) x 0 ->
          let g := fun r => f2 r - tau * tau * f r in
          g t = g (nth i x 0) + (g (nth (S i) x 0) - g (nth i x 0)) * (t - nth i x 0) / (nth (S i) x 0 - nth i x 0)).
Proof.
  intros debug x y tau LE L3 H T. assert (L2 : (2 <= length x)%nat) by lia. prep x y.
  destruct (tspline_spec debug x y tau N LX LY ltac:(lia) H T) as (s & f & f1 & f2 & E & EV & D & K & S0 & SN & LIN).
  exists s, f, f1, f2. split; [exact E|]. split; [exact EV|]. split; [exact D|]. split; [intros i I; apply K; lia|]. split; [exact S0|]. split; [exact SN|].
  intros i t I R. apply LIN; [lia|exact R].
Qed.
Print Assumptions C55_tension.
(** Debug builds refuse different numbers of points and values. *)
Theorem C55_sizes_checked : forall x y tau, length x <> length y -> tension_spline true x y tau = FThrow OutOfRangeError.
Proof. intros x y tau N. unfold tension_spline, c2_tension. replace (Zlen x =? Zlen y)%Z with false by (unfold Zlen; lia). reflexivity. Qed.
Print Assumptions C55_sizes_checked.


(** A case that meets the hypotheses of all these theorems: three points, not on a line. *)
Example increasing_example : length [0; 1; 3] = length [0; 2; 1] /\ (3 <= length [0; 1; 3])%nat /\ increasing [0; 1; 3].
Proof. split; [reflexivity|]. split; [cbn; lia|]. intros [|[|i]] L; cbn in *; try lra. lia. Qed.

(** * Data that the documentation does not allow but the constructors accept *)

(** Two equal abscissae: the coefficients are infinite or NaN and no exception is raised. *)
Theorem C141_repeated_abscissae_refuted : exists x y, length x = length y /\ (2 <= length x)%nat
  /\ (forall debug, natural_spline debug x y = FNonFinite)
  /\ (forall debug v0 vf, clamped_spline debug x y v0 vf = FNonFinite)
  /\ (forall debug v0 vf, heuristic_spline debug x y v0 vf = FNonFinite)
  /\ (forall a, smooth_linear x y a = FNonFinite).
Proof.
  exists [0; 0], [0; 1]. split; [reflexivity|]. split; [cbn; lia|].
  assert (Z : forall a b, b = 0 -> fdiv a b = FNonFinite) by (intros a b ->; unfold fdiv; destruct (Req_EM_T 0 0); congruence).
  split; [|split; [|split]].
  - intros [|]; unfold natural_spline, c2_natural, size_checks; cbn -[fdiv]; unfold c2_solve; cbn -[fdiv]; rewrite fdiv_ok by lra; cbn -[fdiv];
      match goal with |- context [rget [?a; ?b] 1] => change (rget [a; b] 1) with (FOk b) end; cbn [fbind]; unfold c2_apply;
      match goal with |- context [c2_polys ?x ?y [?a; ?b] ?n 0] => change (c2_polys x y [a; b] n 0) with (p <-- cubic_second_derivative 0 0 a 0 1 b ;; ps <-- FOk [] ;; FOk (p :: ps)) end;
      unfold cubic_second_derivative; rewrite !Z by ring; reflexivity.
  - assert (R0 : forall a b, rget [a; b] 0 = FOk a) by reflexivity. assert (R1 : forall a b, rget [a; b] 1 = FOk b) by reflexivity.
    intros debug v0 vf. unfold clamped_spline, c2_clamped. replace (size_checks debug [0; 0] [0; 1]) with (FOk tt) by (destruct debug; reflexivity). cbn [fbind].
    rewrite !R0, !R1. cbn [fbind]. rewrite Z by ring. reflexivity.
  - intros debug v0 vf. unfold heuristic_spline. replace (dh_ydot debug [0; 0] [0; 1] v0 vf) with (FOk [v0; vf]) by (destruct debug; reflexivity). cbn [fbind].
    change (dh_polys [0; 0] [0; 1] [v0; vf] (length [0; 0] - 1) 0) with (p <-- cubic_derivative 0 0 v0 0 1 vf ;; ps <-- FOk [] ;; FOk (p :: ps)).
    unfold cubic_derivative. rewrite !Z by ring. reflexivity.
  - intros a. unfold smooth_linear. change (negb (Zlen [0; 0] =? Zlen [0; 1])%Z) with false. change (Zlen [0; 0] <? 2)%Z with false. cbn iota zeta.
    change (sl_segments [0; 0] [0; 1] (length [0; 0] - 1) 0) with (p <-- linear_interpolation 0 0 0 1 ;; ps <-- FOk [] ;; FOk (p :: ps)).
    unfold linear_interpolation. rewrite !Z by ring. reflexivity.
Qed.
Print Assumptions C141_repeated_abscissae_refuted.

(** Evaluation past the end of the domain: refused in a debug build... *)
Theorem C142_debug_range_check : forall x t ps fs tau segs corners, x <> [] -> ~ in_domain x t ->
  cs_eval true (mk_cspline x ps) t = FThrow OutOfRangeError /\ cs_deriv true (mk_cspline x ps) t = FThrow OutOfRangeError /\ cs_dderiv true (mk_cspline x ps) t = FThrow OutOfRangeError
  /\ ts_eval true (mk_tspline x tau fs) t = FThrow OutOfRangeError /\ ts_deriv true (mk_tspline x tau fs) t = FThrow OutOfRangeError /\ ts_dderiv true (mk_tspline x tau fs) t = FThrow OutOfRangeError
  /\ ls_eval true (mk_lspline x segs corners) t = FThrow OutOfRangeError /\ ls_deriv true (mk_lspline x segs corners) t = FThrow OutOfRangeError /\ ls_dderiv true (mk_lspline x segs corners) t = FThrow OutOfRangeError.
Proof.
  intros x t ps fs tau segs corners N OUT. assert (E : spline_index true x t = FThrow OutOfRangeError).
  { destruct x as [|a x]; [congruence|]. unfold spline_index. unfold in_domain in OUT. cbn [hd] in OUT. destruct (Rle_dec a t), (Rle_dec t (last (a :: x) 0)); try reflexivity. exfalso. apply OUT. split; auto. }
  unfold cs_eval, cs_deriv, cs_dderiv, ts_eval, ts_deriv, ts_dderiv, ls_eval, ls_deriv, ls_dderiv. cbn [cs_domain ts_domain ls_domain]. rewrite E. repeat split; reflexivity.
Qed.
Print Assumptions C142_debug_range_check.
(** ... and, in a release build, the search runs off the end of the array, for every spline and every such point. *)
Theorem C142_release_out_of_bounds : forall x ps t, increasing x -> (2 <= length x)%nat -> last x 0 < t -> cs_eval false (mk_cspline x ps) t = FUB.
Proof.
  intros x ps t H L T. unfold cs_eval. cbn [cs_domain]. destruct x as [|a x]; [cbn in L; lia|]. destruct x as [|b x]; [cbn in L; lia|]. unfold spline_index. cbn [andb].
  pose proof (find_index_past [a] (b :: x) t (S (length (a :: b :: x))) T ltac:(discriminate)) as F. cbn [app length Nat.sub Z.of_nat] in F. cbn [length]. rewrite F; [reflexivity| |discriminate].
  apply nth_sorted. intros i I. apply Rlt_le. apply (H (S i)). cbn in *. lia.
Qed.
Print Assumptions C142_release_out_of_bounds.
Theorem C142_release_out_of_bounds_refuted : exists x y s t, natural_spline false x y = FOk s /\ ~ in_domain x t /\ cs_eval false s t = FUB.
Proof.
  destruct increasing_example as (L1 & L2 & I). destruct (C52_natural false _ _ L1 ltac:(cbn; lia) I) as (s & _ & _ & _ & E & _). exists [0; 1; 3], [0; 2; 1], s, 4.
  split; [exact E|]. split; [unfold in_domain; cbn; lra|]. unfold natural_spline in E. destruct (c2_natural false [0; 1; 3] [0; 2; 1]) as [yd| | |]; cbn [fbind] in E; try discriminate.
  unfold c2_apply in E. destruct (c2_polys _ _ _ _ _) as [ps| | |]; cbn [fbind] in E; try discriminate. injection E as <-. apply C142_release_out_of_bounds; auto; cbn; [lia|lra].
Qed.
Print Assumptions C142_release_out_of_bounds_refuted.
(** The same for the other kinds of splines and for derivatives; to the left of the domain a release build goes on with the first piece. *)
Theorem C142_release_partial : forall x t ps fs tau segs corners, increasing x -> (2 <= length x)%nat ->
  (last x 0 < t ->
    cs_eval false (mk_cspline x ps) t = FUB /\ cs_deriv false (mk_cspline x ps) t = FUB /\ cs_dderiv false (mk_cspline x ps) t = FUB /\
    ts_eval false (mk_tspline x tau fs) t = FUB /\ ts_deriv false (mk_tspline x tau fs) t = FUB /\ ts_dderiv false (mk_tspline x tau fs) t = FUB /\
    ls_eval false (mk_lspline x segs corners) t = FUB /\ ls_deriv false (mk_lspline x segs corners) t = FUB /\ ls_dderiv false (mk_lspline x segs corners) t = FUB) /\
  (t < hd 0 x -> forall p f s,
    cs_eval false (mk_cspline x (p :: ps)) t = FOk (eval p t) /\ cs_deriv false (mk_cspline x (p :: ps)) t = FOk (eval (deriv p) t) /\
    cs_dderiv false (mk_cspline x (p :: ps)) t = FOk (eval (deriv (deriv p)) t) /\
    ts_eval false (mk_tspline x tau (f :: fs)) t = tf_eval f tau t /\ ts_deriv false (mk_tspline x tau (f :: fs)) t = tf_deriv f tau t /\ ts_dderiv false (mk_tspline x tau (f :: fs)) t = tf_dderiv f tau t /\
    ls_eval false (mk_lspline x (s :: segs) corners) t = FOk (eval s t) /\ ls_deriv false (mk_lspline x (s :: segs) corners) t = FOk (deriv_at s t) /\ ls_dderiv false (mk_lspline x (s :: segs) corners) t = FOk (dderiv_at s t)).
Proof.
  intros x t ps fs tau segs corners H L. split.
  - intros T. assert (E : spline_index false x t = FUB).
    { destruct x as [|a x]; [cbn in L; lia|]. destruct x as [|b x]; [cbn in L; lia|]. unfold spline_index. cbn [andb].
      pose proof (find_index_past [a] (b :: x) t (S (length (a :: b :: x))) T ltac:(discriminate)) as F. cbn [app length Nat.sub Z.of_nat] in F. cbn [length]. rewrite F; [reflexivity| |discriminate].
      apply nth_sorted. intros i I. apply Rlt_le. apply (H (S i)). cbn in *. lia. }
    unfold cs_eval, cs_deriv, cs_dderiv, ts_eval, ts_deriv, ts_dderiv, ls_eval, ls_deriv, ls_dderiv. cbn [cs_domain ts_domain ls_domain]. rewrite E. repeat split; reflexivity.
  - intros T p f s. assert (E : spline_index false x t = FOk 0%Z).
    { destruct x as [|a x]; [cbn in L; lia|]. destruct x as [|b x]; [cbn in L; lia|]. unfold spline_index. cbn [andb length find_index].
      change (rget (a :: b :: x) (0 + 1)%Z) with (FOk b). cbn [fbind]. destruct (Rlt_dec b t) as [B|B]; [|reflexivity].
      exfalso. pose proof (H 0%nat ltac:(cbn; lia)) as AB. cbn in AB, T. lra. }
    unfold cs_eval, cs_deriv, cs_dderiv, ts_eval, ts_deriv, ts_dderiv, ls_eval, ls_deriv, ls_dderiv. cbn [cs_domain ts_domain ls_domain]. rewrite E. repeat split; reflexivity.
Qed.
Print Assumptions C142_release_partial.

(** Too few points: undefined behaviour instead of an exception, in both kinds of build (heuristic: no points; tension: two points; smooth linear: one point). *)
Theorem C143_too_few_points_refuted :
  (forall debug v0 vf, heuristic_spline debug [] [] v0 vf = FUB)
  /\ (forall debug x0 x1 y0 y1 tau, x0 < x1 -> 0 < tau -> tension_spline debug [x0; x1] [y0; y1] tau = FUB)
  /\ (forall x0 y0 a, smooth_linear [x0] [y0] a = FUB).
Proof.
  split; [|split].
  - intros [|] v0 vf; reflexivity.
  - intros debug x0 x1 y0 y1 tau X T. unfold tension_spline, c2_tension. change (Zlen [x0; x1] =? Zlen [y0; y1])%Z with true. cbn [negb]. rewrite Bool.andb_false_r.
    change (Zlen [x0; x1] <? 2)%Z with false. cbn iota zeta.
    pose proof (params_spec [x0; x1] [y0; y1] tau 1 eq_refl eq_refl) as P. change (length [x0; x1] - 1)%nat with 1%nat.
    specialize (P ltac:(intros [|i] L; cbn in *; [exact X|lia]) T 1%nat 0%nat eq_refl). change (Z.of_nat 0) with 0%Z in P. rewrite P. reflexivity.
  - intros x0 y0 a. reflexivity.
Qed.
Print Assumptions C143_too_few_points_refuted.

(** C141 in general: whatever the data, two neighbouring equal abscissae are never reported; infinities and NaN are stored instead. *)
Definition fine {A} (P : A -> Prop) (r : fres A) : Prop := match r with FOk v => P v | FNonFinite => True | _ => False end.
Lemma fine_bind {A B} (P : A -> Prop) (Q : B -> Prop) r f : fine P r -> (forall v, P v -> fine Q (f v)) -> fine Q (fbind r f).
Proof. destruct r; cbn; auto; tauto. Qed.
Lemma fine_div a b : fine (fun _ => b <> 0) (fdiv a b).
Proof. unfold fdiv. destruct (Req_EM_T b 0); cbn; auto. Qed.
Lemma fine_get l i : (0 <= i < Z.of_nat (length l))%Z -> fine (fun v => v = nth (Z.to_nat i) l 0) (rget l i).
Proof. intros L. pose proof (rget_nth l (Z.to_nat i) ltac:(lia)) as E. rewrite Z2Nat.id in E by lia. rewrite E. reflexivity. Qed.
Lemma fine_weaken {A} (P Q : A -> Prop) r : fine P r -> (forall v, P v -> Q v) -> fine Q r.
Proof. destruct r; cbn; auto. Qed.
Lemma fine_false {A} (r : fres A) : fine (fun _ => False) r -> r = FNonFinite.
Proof. destruct r; cbn; tauto. Qed.
Ltac fget := eapply fine_bind; [apply fine_get; lia|]; intros ? ->.
Ltac fdv := eapply fine_bind; [apply fine_div|]; intros ? ?.
Lemma fine_shift a b c d x : fine (fun _ => True) (shift_nonzero [a; b; c; d] x).
Proof. destruct (shift_nonzero_ok [a; b; c; d] x ltac:(discriminate) ltac:(cbn; lia)) as (p & -> & _). exact I. Qed.
Lemma fine_second x0 y0 a0 x1 y1 a1 : fine (fun _ => x0 <> x1) (cubic_second_derivative x0 y0 a0 x1 y1 a1).
Proof.
  unfold cubic_second_derivative. fdv. fdv. match goal with |- context [shift_nonzero ?p x0] => pose proof (shift_nonzero_ok p x0 ltac:(discriminate) ltac:(cbn; lia)) as (q & -> & _) end. cbn. lra.
Qed.
Lemma fine_first x0 y0 a0 x1 y1 a1 : fine (fun _ => x0 <> x1) (cubic_derivative x0 y0 a0 x1 y1 a1).
Proof.
  unfold cubic_derivative. fdv. fdv. fdv. fdv. fdv. match goal with |- context [shift_nonzero ?p x0] => pose proof (shift_nonzero_ok p x0 ltac:(discriminate) ltac:(cbn; lia)) as (q & -> & _) end. cbn. lra.
Qed.
Lemma fine_forward x y : length x = length y -> forall todo i yd u, (i + todo < length x)%nat -> (1 <= i)%nat -> length yd = i -> length u = i ->
  fine (fun r => length (fst r) = (i + todo)%nat /\ length (snd r) = (i + todo)%nat) (c2_forward x y todo (Z.of_nat i) yd u).
Proof.
  intros LE. induction todo as [|todo IH]; intros i yd u L I1 LY LU; cbn [c2_forward]; [cbn; lia|]. do 8 fget. cbv zeta. do 6 fdv.
  replace (Z.of_nat i + 1)%Z with (Z.of_nat (S i)) by lia. replace (i + S todo)%nat with (S i + todo)%nat by lia. apply IH; try lia; rewrite app_length; cbn; lia.
Qed.
Lemma fine_back u : forall k yd, (k < length yd)%nat -> (k <= length u)%nat -> fine (fun r => length r = length yd) (c2_back u k yd).
Proof.
  induction k as [|k IH]; intros yd L U; cbn [c2_back]; [reflexivity|]. do 3 fget. assert (E : forall v, length (zset yd (Z.of_nat k) v) = length yd) by (intros; apply zset_len).
  rewrite <- (E (nth (Z.to_nat (Z.of_nat k)) yd 0 * nth (Z.to_nat (Z.of_nat k + 1)) yd 0 + nth (Z.to_nat (Z.of_nat k)) u 0)). apply IH; rewrite ?E; lia.
Qed.

(** Some two neighbours are equal. *)
Definition repeated (x : list R) : Prop := exists k, (S k < length x)%nat /\ nth k x 0 = nth (S k) x 0.
Lemma bad_polys x y yd : length x = length y -> length x = length yd -> forall todo i k, (i <= k < i + todo)%nat -> (i + todo < length x)%nat -> nth k x 0 = nth (S k) x 0 ->
  fine (fun _ => False) (c2_polys x y yd todo (Z.of_nat i)) /\ fine (fun _ => False) (dh_polys x y yd todo (Z.of_nat i)).
Proof.
  intros L1 L2. assert (G : forall f, (forall a b c d e g, fine (fun _ => a <> d) (f a b c d e g)) -> forall (F : list R -> list R -> list R -> nat -> Z -> fres (list (list R))),
    (forall todo i, F x y yd (S todo) i = (xi <-- rget x i ;; yi <-- rget y i ;; ai <-- rget yd i ;; xp <-- rget x (i + 1)%Z ;; yp <-- rget y (i + 1)%Z ;; ap <-- rget yd (i + 1)%Z ;;
      p <-- f xi yi ai xp yp ap ;; ps <-- F x y yd todo (i + 1)%Z ;; FOk (p :: ps))) ->
    forall todo i k, (i <= k < i + todo)%nat -> (i + todo < length x)%nat -> nth k x 0 = nth (S k) x 0 -> fine (fun _ => False) (F x y yd todo (Z.of_nat i))).
  { intros f Hf F HF. induction todo as [|todo IH]; intros i k R L E; [lia|]. rewrite HF. do 6 fget. eapply fine_bind; [apply Hf|]. cbv beta. intros p NE.
    replace (Z.to_nat (Z.of_nat i)) with i in NE by lia. replace (Z.to_nat (Z.of_nat i + 1)) with (S i) in NE by lia.
    assert (i <> k) by (intros ->; contradiction). replace (Z.of_nat i + 1)%Z with (Z.of_nat (S i)) by lia. eapply fine_bind; [apply (IH (S i) k); try lia; exact E|]. cbv beta. tauto. }
  intros todo i k R L E. split; [eapply (G _ fine_second c2_polys); eauto|eapply (G _ fine_first dh_polys); eauto].
Qed.
Lemma bad_solve x y a b c d : length x = length y -> (2 <= length x)%nat -> fine (fun yd => length yd = length x) (c2_solve x y a b c d).
Proof.
  intros LE L2. unfold c2_solve. cbv zeta. eapply fine_bind; [apply (fine_forward x y LE (length x - 2) 1); cbn; lia|]. intros [yd u] [A B]. cbn [fst snd] in A, B. do 2 fget. fdv.
  assert (Q : length (yd ++ [v]) = length x) by (rewrite app_length; cbn; lia). rewrite <- Q at 1. rewrite Q. eapply fine_weaken; [apply fine_back; lia|]. cbv beta. intros r ->. exact Q.
Qed.
Lemma bad_slopes x y : length x = length y -> forall todo i, (1 <= i)%nat -> (i + todo < length x)%nat -> fine (fun r => length r = todo) (dh_slopes x y todo (Z.of_nat i)).
Proof.
  intros LE. induction todo as [|todo IH]; intros i I1 L; cbn [dh_slopes]; [reflexivity|]. do 6 fget. do 2 fdv. replace (Z.of_nat i + 1)%Z with (Z.of_nat (S i)) by lia.
  eapply fine_bind; [apply IH; lia|]. cbv beta. intros r Q. cbn. lia.
Qed.
Lemma bad_segments x y : length x = length y -> forall todo i k, (i <= k < i + todo)%nat -> (i + todo < length x)%nat -> nth k x 0 = nth (S k) x 0 -> fine (fun _ => False) (sl_segments x y todo (Z.of_nat i)).
Proof.
  intros LE. induction todo as [|todo IH]; intros i k R L E; [lia|]. cbn [sl_segments]. do 4 fget. unfold linear_interpolation. eapply fine_bind; [eapply fine_bind; [apply fine_div|]; intros v NE; instantiate (1 := fun _ => nth i x 0 <> nth (S i) x 0); cbn|].
  - replace (Z.to_nat (Z.of_nat i)) with i in NE by lia. replace (Z.to_nat (Z.of_nat i + 1)) with (S i) in NE by lia. lra.
  - intros p NE. assert (i <> k) by (intros ->; contradiction). replace (Z.of_nat i + 1)%Z with (Z.of_nat (S i)) by lia. eapply fine_bind; [apply (IH (S i) k); try lia; exact E|]. cbv beta. tauto.
Qed.
Lemma bad_params x y tau : length x = length y -> forall todo i k, (i <= k < i + todo)%nat -> (i + todo < length x)%nat -> nth k x 0 = nth (S k) x 0 -> fine (fun _ => False) (tension_params x y tau todo (Z.of_nat i)).
Proof.
  intros LE. induction todo as [|todo IH]; intros i k R L E; [lia|]. cbn [tension_params]. do 4 fget. cbv zeta. eapply fine_bind; [apply fine_div|]. cbv beta. intros v NE. do 3 fdv.
  replace (Z.to_nat (Z.of_nat i)) with i in NE by lia. replace (Z.to_nat (Z.of_nat i + 1)) with (S i) in NE by lia.
  assert (i <> k) by (intros ->; lra). replace (Z.of_nat i + 1)%Z with (Z.of_nat (S i)) by lia. eapply fine_bind; [apply (IH (S i) k); try lia; exact E|]. cbv beta. tauto.
Qed.
Theorem C141_repeated_abscissae_refuted_for_all : forall debug x y v0 vf a tau, length x = length y -> repeated x ->
  natural_spline debug x y = FNonFinite /\ clamped_spline debug x y v0 vf = FNonFinite /\ heuristic_spline debug x y v0 vf = FNonFinite
  /\ smooth_linear x y a = FNonFinite /\ tension_spline debug x y tau = FNonFinite.
Proof.
  intros debug x y v0 vf a tau LE (k & K & E). assert (ZE : (Z.of_nat (length x) =? Z.of_nat (length y))%Z = true) by lia.
  assert (SZ : size_checks debug x y = FOk tt).
  { unfold size_checks, Zlen. replace (Z.of_nat (length x) <? 2)%Z with false by lia. replace (Z.of_nat (length y) <? 2)%Z with false by lia. rewrite ZE. cbn. now rewrite Bool.andb_false_r. }
  assert (AP : forall yd, length yd = length x -> fine (fun _ => False) (c2_apply x y yd)).
  { intros yd LY. unfold c2_apply. eapply fine_bind; [apply (bad_polys x y yd LE ltac:(lia) (length x - 1) 0 k); auto; lia|]. cbv beta. tauto. }
  split; [|split; [|split; [|split]]]; apply fine_false.
  - unfold natural_spline, c2_natural. rewrite SZ. cbn [fbind]. eapply fine_bind; [apply bad_solve; lia|]. cbv beta. exact AP.
  - unfold clamped_spline, c2_clamped. rewrite SZ. cbn [fbind]. cbv zeta. eapply fine_bind; [|exact AP]. unfold Zlen. do 4 fget. do 2 fdv. do 4 fget. do 2 fdv. apply bad_solve; lia.
  - unfold heuristic_spline, dh_ydot, Zlen. rewrite ZE. cbn [negb]. rewrite Bool.andb_false_r. destruct x as [|x0 [|x1 x]]; [cbn in K; lia|cbn in K; lia|].
    set (xs := x0 :: x1 :: x) in *. eapply fine_bind with (P := fun yd => length yd = length xs).
    + eapply fine_bind; [apply (bad_slopes xs y LE (length xs - 2) 1); cbn; lia|]. cbv beta. intros r Q. cbn [fine length]. rewrite app_length, Q. cbn. lia.
    + intros yd LY. eapply fine_bind; [apply (bad_polys xs y yd LE ltac:(lia) (length xs - 1) 0 k); auto; lia|]. cbv beta. tauto.
  - unfold smooth_linear, Zlen. rewrite ZE. cbn [negb]. replace (Z.of_nat (length x) <? 2)%Z with false by lia. cbv zeta. eapply fine_bind; [apply (bad_segments x y LE (length x - 1) 0 k); auto; lia|]. cbv beta. tauto.
  - unfold tension_spline, c2_tension, Zlen. rewrite ZE. cbn [negb]. rewrite Bool.andb_false_r. replace (Z.of_nat (length x) <? 2)%Z with false by lia. cbv zeta.
    eapply fine_bind with (P := fun _ => False); [|cbv beta; tauto]. eapply fine_bind; [apply (bad_params x y tau LE (length x - 1) 0 k); auto; lia|]. cbv beta. tauto.
Qed.
Print Assumptions C141_repeated_abscissae_refuted_for_all.
Example C141_case : repeated [0; 1; 1; 2].
Proof. exists 1%nat. cbn. split; [lia|reflexivity]. Qed.

(** What remains of C143, for increasing abscissae: how many points each constructor really needs. *)
Theorem C143_points_needed_partial : forall debug x y v0 vf a tau, length x = length y -> increasing x -> 0 < tau ->
  natural_spline debug x y <> FUB /\ clamped_spline debug x y v0 vf <> FUB
  /\ (heuristic_spline debug x y v0 vf = FUB <-> x = []) /\ (smooth_linear x y a = FUB <-> (length x < 2)%nat)
  /\ (tension_spline debug x y tau = FUB <-> (length x < 3)%nat).
Proof.
  intros debug x y v0 vf a tau LE INC T. assert (ZE : (Z.of_nat (length x) =? Z.of_nat (length y))%Z = true) by lia. destruct (Nat.lt_ge_cases (length x) 2) as [S|L2].
  - destruct (C52_sizes_checked debug x y v0 vf (or_introl S)) as [-> ->]. split; [discriminate|]. split; [discriminate|].
    assert (SL : smooth_linear x y a = FUB).
    { unfold smooth_linear, Zlen. rewrite ZE. cbn [negb]. replace (Z.of_nat (length x) <? 2)%Z with true by lia. reflexivity. }
    assert (TS : tension_spline debug x y tau = FUB).
    { unfold tension_spline, c2_tension, Zlen. rewrite ZE. cbn [negb]. rewrite Bool.andb_false_r. replace (Z.of_nat (length x) <? 2)%Z with true by lia. reflexivity. }
    split; [|split; [split; [intros; exact S|intros; exact SL]|split; [intros; lia|intros; exact TS]]].
    destruct x as [|x0 [|x1 x]]; [|destruct y as [|y0 [|]]; try discriminate|cbn in S; lia].
    + destruct y; [|discriminate]. destruct C143_too_few_points_refuted as (H & _). rewrite H. tauto.
    + split; [|discriminate]. destruct debug; discriminate.
  - destruct (C52_natural debug x y LE L2 INC) as (s & f & f1 & f2 & -> & _). destruct (C52_clamped debug x y v0 vf LE L2 INC) as (s' & g & g1 & g2 & -> & _).
    destruct (C53_heuristic debug x y v0 vf LE L2 INC) as (s'' & h & h1 & -> & _). split; [discriminate|]. split; [discriminate|]. split; [split; [discriminate|intros ->; cbn in L2; lia]|]. split.
    + destruct (C54_smooth_linear debug x y a LE L2 INC) as [->|(sl & q & q1 & q2 & -> & _)]; (split; [discriminate|lia]).
    + destruct (Nat.lt_ge_cases (length x) 3) as [S|L3].
      * destruct x as [|x0 [|x1 [|x2 x]]]; cbn in S, L2; try lia. destruct y as [|y0 [|y1 [|]]]; try discriminate. destruct C143_too_few_points_refuted as (_ & H & _). rewrite H; [split; [intros; cbn; lia|reflexivity]| |exact T]. apply (INC 0%nat). cbn. lia.
      * destruct (C55_tension debug x y tau LE L3 INC T) as (st & q & q1 & q2 & -> & _). split; [discriminate|lia].
Qed.
Print Assumptions C143_points_needed_partial.
