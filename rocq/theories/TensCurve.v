(** The curve of a tension spline, its accelerations at the knots, and bounds on them. *)
From Verif Require Import RBase PolyModel SplineModel PolyProofs RootsProofs SplineProofs CubicProofs TensionProofs.
Open Scope R_scope.

(** * The solution and the curve as functions of the data *)

Definition z_of (x y : list R) (tau : R) : list R := match c2_tension false x y tau with FOk m => m | _ => [] end.
Definition seg_of (x y z : list R) (k : nat) : tfun := mk_tfun (sq x k) (sq y k) (sq z k) (sq x (S k)) (sq y (S k)) (sq z (S k)).
Definition spline_of (x y : list R) (tau : R) : tspline := mk_tspline x tau (map (seg_of x y (z_of x y tau)) (seq 0 (length x - 1))).
Definition curve (e : tfun -> R -> R -> R) (x y : list R) (tau : R) : R -> R :=
  pw (breaks x) (map (fun k => e (seg_of x y (z_of x y tau) k) tau) (seq 0 (length x - 1))).

Lemma c2_debug x y tau debug : length x = length y -> c2_tension debug x y tau = c2_tension false x y tau.
Proof. intros L. unfold c2_tension. replace (Zlen x =? Zlen y)%Z with true by (unfold Zlen; lia). cbn [negb]. rewrite !Bool.andb_false_r. reflexivity. Qed.
Lemma z_spec debug x y tau N : length x = S N -> length y = S N -> (2 <= N)%nat -> increasing x -> 0 < tau ->
  let z := z_of x y tau in c2_tension debug x y tau = FOk z /\ length z = S N /\ sq z 0 = 0 /\ sq z N = 0
    /\ forall i, (1 <= i)%nat -> (i < N)%nat ->
         AA x tau (i - 1) * sq z (i - 1) + (BB x tau (i - 1) + BB x tau i) * sq z i + AA x tau i * sq z (i + 1) = GG x y tau i - GG x y tau (i - 1).
Proof.
  intros LX LY N2 H T. destruct (tsolve_spec false x y tau N LX LY N2 H T) as (m & E & R). unfold z_of. rewrite c2_debug by lia. rewrite E. cbn zeta. split; [reflexivity|exact R].
Qed.

Lemma curve_spec debug x y tau N : length x = S N -> length y = S N -> (2 <= N)%nat -> increasing x -> 0 < tau ->
  tension_spline debug x y tau = FOk (spline_of x y tau)
    /\ (forall t, nth 0 x 0 <= t <= nth N x 0 -> ts_eval debug (spline_of x y tau) t = FOk (curve te x y tau t) /\ ts_deriv debug (spline_of x y tau) t = FOk (curve te1 x y tau t) /\ ts_dderiv debug (spline_of x y tau) t = FOk (curve te2 x y tau t))
    /\ (forall t, derivable_pt_lim (curve te x y tau) t (curve te1 x y tau t) /\ derivable_pt_lim (curve te1 x y tau) t (curve te2 x y tau t) /\ continuity_pt (curve te2 x y tau) t)
    /\ (forall k t, (k < N)%nat -> nth k x 0 <= t <= nth (S k) x 0 -> let F := seg_of x y (z_of x y tau) k in
          curve te x y tau t = te F tau t /\ curve te1 x y tau t = te1 F tau t /\ curve te2 x y tau t = te2 F tau t)
    /\ (forall i, (i <= N)%nat -> curve te x y tau (nth i x 0) = nth i y 0 /\ curve te2 x y tau (nth i x 0) = nth i (z_of x y tau) 0).
Proof.
  intros LX LY N2 H T. assert (N1 : (1 <= N)%nat) by lia. destruct (z_spec debug x y tau N LX LY N2 H T) as (E & LM & Z0 & ZN & TRI). unfold curve, spline_of. set (m := z_of x y tau) in *.
  pose proof (functions_spec x y m N LX LY LM N 0 ltac:(lia)) as EF. change (Z.of_nat 0) with 0%Z in EF. change (fun k => mk_tfun _ _ _ _ _ _) with (seg_of x y m) in EF. rewrite LX. replace (S N - 1)%nat with N by lia.
  set (F := seg_of x y m) in *. set (fs := map F (seq 0 N)) in *.
  assert (LF : length fs = N) by (unfold fs; rewrite map_length, seq_length; auto).
  assert (NF : forall k, (k < N)%nat -> nth k fs (F 0%nat) = F k). { intros k K. unfold fs. rewrite map_nth, seq_nth by auto. reflexivity. }
  assert (HX : forall k, (k < N)%nat -> t_x0 (F k) < t_xf (F k)). { intros k K. cbn. apply increasing_lt; auto; lia. }
  assert (PC : forall k, (k < N)%nat -> te (F k) tau (sq x k) = sq y k /\ te (F k) tau (sq x (S k)) = sq y (S k)
     /\ te2 (F k) tau (sq x k) = sq m k /\ te2 (F k) tau (sq x (S k)) = sq m (S k)
     /\ tau * tau * te1 (F k) tau (sq x k) = GG x y tau k - BB x tau k * sq m k - AA x tau k * sq m (S k)
     /\ tau * tau * te1 (F k) tau (sq x (S k)) = GG x y tau k + AA x tau k * sq m k + BB x tau k * sq m (S k)).
  { intros k K. exact (te_ends (F k) tau T (HX k K)). }
  set (G := fun (e : tfun -> R -> R -> R) => map (fun k => e (F k) tau) (seq 0 N)).
  assert (LG : forall e, length (G e) = N) by (intros e; unfold G; rewrite map_length, seq_length; auto).
  assert (NG : forall e k, (k < N)%nat -> nth k (G e) (fun _ => 0) = e (F k) tau).
  { intros e k K. unfold G. rewrite (nth_map_fun (fun k => e (F k) tau) (seq 0 N) 0%nat) by (rewrite seq_length; lia). now rewrite seq_nth. }
  assert (C0 : forall i, (S i < N)%nat -> te (F i) tau (sq x (S i)) = te (F (S i)) tau (sq x (S i))).
  { intros i I. destruct (PC i ltac:(lia)) as (_ & Q & _). destruct (PC (S i) ltac:(lia)) as (Q' & _). now rewrite Q, Q'. }
  assert (C1 : forall i, (S i < N)%nat -> te1 (F i) tau (sq x (S i)) = te1 (F (S i)) tau (sq x (S i))).
  { intros i I. destruct (PC i ltac:(lia)) as (_ & _ & _ & _ & _ & Q). destruct (PC (S i) ltac:(lia)) as (_ & _ & _ & _ & Q' & _).
    apply (Rmult_eq_reg_l (tau * tau)); [|nra]. rewrite Q, Q'. specialize (TRI (S i) ltac:(lia) ltac:(lia)). rewrite Nat.sub_succ, Nat.sub_0_r in TRI.
    replace (S i + 1)%nat with (S (S i)) in TRI by lia. lra. }
  assert (C2 : forall i, (S i < N)%nat -> te2 (F i) tau (sq x (S i)) = te2 (F (S i)) tau (sq x (S i))).
  { intros i I. destruct (PC i ltac:(lia)) as (_ & _ & _ & Q & _). destruct (PC (S i) ltac:(lia)) as (_ & _ & Q' & _). now rewrite Q, Q'. }
  assert (MT : forall e : tfun -> R -> R -> R, (forall i, (S i < N)%nat -> e (F i) tau (sq x (S i)) = e (F (S i)) tau (sq x (S i))) -> matched (breaks x) (G e)).
  { intros e C. apply (pieces_matched x N LX N1 H); auto. intros i I. rewrite !NG by lia. apply C. exact I. }
  pose proof (breaks_sorted x N LX N1 H) as SB.
  assert (DER : forall e e', (forall f t, t_x0 f < t_xf f -> derivable_pt_lim (e f tau) t (e' f tau t)) -> Forall2 (fun f g => forall t, derivable_pt_lim f t (g t)) (G e) (G e')).
  { intros e e' D. unfold G. assert (AL : forall k, In k (seq 0 N) -> t_x0 (F k) < t_xf (F k)) by (intros k K; apply in_seq in K; apply HX; lia). revert AL. generalize (seq 0 N) as ks. induction ks as [|k ks IH]; intros AL; cbn; constructor.
    - intros t. apply D. apply AL. now left.
    - apply IH. intros g I. apply AL. now right. }
  assert (V : forall e t, nth 0 x 0 <= t <= nth N x 0 -> pw (breaks x) (G e) t = e (F (fidx (tl x) t)) tau t).
  { intros e t R. destruct (pieces_index x N LX N1 H debug t R) as [_ L]. rewrite (pieces_value x N LX N1 H) by auto. now rewrite NG. }
  change (fun k => te (F k) tau) with (fun k => te (F k) tau). fold (G te) (G te1) (G te2).
  split. { unfold tension_spline. rewrite E. cbn [fbind]. rewrite LX. replace (S N - 1)%nat with N by lia. rewrite EF. reflexivity. }
  split.
  { intros t R. destruct (pieces_index x N LX N1 H debug t R) as [EI L]. unfold ts_eval, ts_deriv, ts_dderiv. cbn [ts_domain ts_tension ts_functions]. rewrite EI. cbn [fbind].
    rewrite (aget_nth fs _ (F 0%nat)) by lia. cbn [fbind]. rewrite NF by auto. rewrite !V by auto. apply te_ok; auto. }
  split.
  { intros t. split; [apply pw_derive; auto; apply DER; intros; now apply te_derive|]. split; [apply pw_derive; auto; apply DER; intros; now apply te1_derive|].
    apply cont_at_pt. apply pw_cont; auto. apply Forall_forall. intros g I. unfold G in I. apply in_map_iff in I. destruct I as (k & <- & I). apply in_seq in I. intros r. apply cont_at_pt. apply te2_continuous; auto. apply HX. lia. }
  assert (SEG : forall e : tfun -> R -> R -> R, (forall i, (S i < N)%nat -> e (F i) tau (sq x (S i)) = e (F (S i)) tau (sq x (S i))) ->
     forall k t, (k < N)%nat -> nth k x 0 <= t <= nth (S k) x 0 -> pw (breaks x) (G e) t = e (F k) tau t).
  { intros e C k t K R.
    assert (RR : nth 0 x 0 <= t <= nth N x 0). { pose proof (xs_range x N LX N1 H k ltac:(lia)). pose proof (xs_range x N LX N1 H (S k) ltac:(lia)). lra. }
    rewrite V by auto. pose proof (HX k K) as Hk. cbn in Hk. unfold sq in Hk.
    destruct (Rle_lt_or_eq_dec _ _ (proj1 R)) as [LT|<-].
    - assert (FI : fidx (tl x) t = k); [|now rewrite FI].
      apply (fidx_interval (tl x) t k).
      + rewrite (tl_len x N LX N1 H). lia.
      + rewrite (tl_nth x N LX N1 H). apply R.
      + intros j J. rewrite (tl_nth x N LX N1 H). destruct (Nat.eq_dec (S j) k) as [->|NE]; [exact LT|]. apply Rlt_trans with (nth k x 0); [|exact LT]. apply increasing_lt; auto; lia.
    - destruct k as [|k].
      + assert (FI : fidx (tl x) (nth 0 x 0) = 0%nat); [|now rewrite FI]. apply (fidx_interval (tl x) _ 0); [rewrite (tl_len x N LX N1 H); lia|rewrite (tl_nth x N LX N1 H); apply R|intros j J; lia].
      + assert (FI : fidx (tl x) (nth (S k) x 0) = k); [|rewrite FI; now apply C].
        apply (fidx_interval (tl x) _ k); [rewrite (tl_len x N LX N1 H); lia|rewrite (tl_nth x N LX N1 H); lra|]. intros j J. rewrite (tl_nth x N LX N1 H). apply increasing_lt; auto; lia. }
  split. { intros k t K R. cbn zeta. rewrite (SEG te C0 k t K R), (SEG te1 C1 k t K R), (SEG te2 C2 k t K R). repeat split; reflexivity. }
  intros i I. split.
  - apply (pieces_knot x N LX N1 H (G te) (fun i => nth i y 0)); auto. intros k K. rewrite NG by auto. destruct (PC k K) as (Q1 & Q2 & _). split; [exact Q1|exact Q2].
  - apply (pieces_knot x N LX N1 H (G te2) (fun i => nth i m 0)); auto. intros k K. rewrite NG by auto. destruct (PC k K) as (_ & _ & Q1 & Q2 & _). split; [exact Q1|exact Q2].
Qed.

(** The accelerations at the knots depend on the abscissae through their differences only. *)
Lemma params_shift x x' y tau : length x = length x' -> (forall i, (S i < length x)%nat -> sq x' (S i) - sq x' i = sq x (S i) - sq x i) ->
  forall todo i, (i + todo < length x)%nat -> tension_params x' y tau todo (Z.of_nat i) = tension_params x y tau todo (Z.of_nat i).
Proof.
  intros L H. induction todo as [|todo IH]; intros i I; cbn [tension_params]; [reflexivity|]. replace (Z.of_nat i + 1)%Z with (Z.of_nat (S i)) by lia.
  rewrite !(rget_nth x), !(rget_nth x') by lia. cbn [fbind]. specialize (H i ltac:(lia)). unfold sq in H. rewrite H. rewrite IH by lia. reflexivity.
Qed.
Lemma z_shift x x' y tau : length x = length x' -> (forall i, (S i < length x)%nat -> sq x' (S i) - sq x' i = sq x (S i) - sq x i) -> z_of x' y tau = z_of x y tau.
Proof.
  intros L H. unfold z_of, c2_tension. cbn [andb]. replace (Zlen x') with (Zlen x) by (unfold Zlen; lia). rewrite <- L. destruct (Z.ltb_spec (Zlen x) 2) as [Q|Q]; [reflexivity|]. unfold Zlen in Q.
  cbn zeta. pose proof (params_shift x x' y tau L H (length x - 1) 0 ltac:(lia)) as E. change (Z.of_nat 0) with 0%Z in E. now rewrite E.
Qed.

(** * Hyperbolic facts *)

Lemma sinh_add a b : sinh (a + b) = sinh a * cosh b + cosh a * sinh b.
Proof. unfold sinh, cosh. replace (- (a + b)) with (- a + - b) by ring. rewrite !exp_plus. field. Qed.
Lemma sinh_nonneg t : 0 <= t -> 0 <= sinh t.
Proof. intros [H| <-]; [apply Rlt_le; now apply sinh_pos|rewrite sinh_0; lra]. Qed.
Lemma cosh_ge_1 t : 1 <= cosh t.
Proof. destruct (Req_dec t 0) as [->|N]; [rewrite cosh_0; lra|]. apply Rlt_le. now apply cosh_gt_1. Qed.
Lemma sinh_super a b : 0 <= a -> 0 <= b -> sinh a + sinh b <= sinh (a + b).
Proof. intros A B. rewrite sinh_add. pose proof (sinh_nonneg a A). pose proof (sinh_nonneg b B). pose proof (cosh_ge_1 a). pose proof (cosh_ge_1 b). nra. Qed.
Lemma sinh_mono a b : a <= b -> sinh a <= sinh b.
Proof. intros [H| ->]; [apply Rlt_le; now apply sinh_lt|lra]. Qed.
Lemma cosh_mono a b : 0 <= a -> a <= b -> cosh a <= cosh b.
Proof.
  intros A [H| ->]; [|lra]. destruct (MVT_cor2 cosh sinh a b H) as (c & E & C); [intros; apply derivable_pt_lim_cosh|]. pose proof (sinh_nonneg c ltac:(lra)). nra.
Qed.

(** The Langevin function coth u - 1 / u. *)
Definition lang (u : R) : R := cosh u / sinh u - 1 / u.
Lemma lang_derive u : 0 < u -> derivable_pt_lim lang u (1 / (u * u) - 1 / (sinh u * sinh u)).
Proof.
  intros U. pose proof (sinh_pos u U) as P. unfold lang.
  assert (D1 : derivable_pt_lim (cosh / sinh)%F u ((sinh u * sinh u - cosh u * cosh u) / Rsqr (sinh u))) by (apply derivable_pt_lim_div; [apply derivable_pt_lim_cosh|apply derivable_pt_lim_sinh|lra]).
  assert (D2 : derivable_pt_lim (fct_cte 1 / id)%F u ((0 * id u - 1 * fct_cte 1 u) / Rsqr (id u))) by (apply derivable_pt_lim_div; [apply derivable_pt_lim_const|apply derivable_pt_lim_id|unfold id; lra]).
  pose proof (derivable_pt_lim_minus _ _ _ _ _ D1 D2) as D. apply (d_ext _ _ _ _ _ D).
  - intros t. reflexivity.
  - unfold Rsqr, id, fct_cte. assert (I : cosh u * cosh u - sinh u * sinh u = 1). { unfold cosh, sinh. pose proof (exp_Ropp u) as X. pose proof (exp_pos u). rewrite X. field. lra. }
    replace (sinh u * sinh u - cosh u * cosh u) with (-1) by lra. field. lra.
Qed.
Lemma lang_lt u v : 0 < u -> u < v -> lang u < lang v.
Proof.
  intros U V. destruct (MVT_cor2 lang (fun u => 1 / (u * u) - 1 / (sinh u * sinh u)) u v V) as (c & E & C); [intros c C; apply lang_derive; lra|].
  assert (0 < 1 / (c * c) - 1 / (sinh c * sinh c)); [|nra]. pose proof (sinh_gt c ltac:(lra)) as S1. assert (c * c < sinh c * sinh c) by nra.
  apply Rlt_Rminus. unfold Rdiv. rewrite !Rmult_1_l. apply Rinv_lt_contravar; [|lra]. apply Rmult_lt_0_compat; nra.
Qed.
Lemma lang_bounds u : 0 < u -> 0 < lang u < 1.
Proof.
  intros U. pose proof (alpha_beta 1 u ltac:(lra) U) as AB. unfold alpha, beta in AB. rewrite !Rmult_1_l in AB. split; [unfold lang; lra|].
  pose proof (sinh_pos u U) as P. unfold lang. assert (Q : u * cosh u < sinh u + u * sinh u).
  { (* u e^-u < sinh u *) assert (cosh u - sinh u = exp (- u)) by (unfold cosh, sinh; field). pose proof (sinh_gt u U). assert (exp (- u) < 1) by (rewrite <- exp_0; apply exp_increasing; lra). nra. }
  apply Rminus_lt. replace (cosh u / sinh u - 1 / u - 1) with ((u * cosh u - sinh u - u * sinh u) / (u * sinh u)) by (field; lra).
  assert (0 < u * sinh u) by nra. apply Rmult_lt_reg_r with (u * sinh u); [assumption|]. rewrite Rmult_0_l. unfold Rdiv. rewrite Rmult_assoc, Rinv_l by lra. lra.
Qed.
Lemma beta_lang tau h : 0 < tau -> 0 < h -> beta tau h = tau * lang (tau * h).
Proof. intros T H. assert (P : 0 < tau * h) by nra. pose proof (sinh_pos _ P). unfold beta, lang. field. lra. Qed.
Lemma gap_lang tau h : 0 < tau -> 0 < h -> beta tau h - alpha tau h = tau * lang (tau * h / 2).
Proof.
  intros T H. assert (P : 0 < tau * h) by nra. set (u := tau * h / 2). assert (U : 0 < u) by (unfold u; lra). pose proof (sinh_pos u U) as SU.
  unfold beta, alpha, lang. replace (tau * h) with (u + u) by (unfold u; field). rewrite sinh_add. replace h with ((u + u) / tau) by (unfold u; field; lra).
  assert (I : cosh u * cosh u - sinh u * sinh u = 1). { unfold cosh, sinh. pose proof (exp_Ropp u) as X. pose proof (exp_pos u). rewrite X. field. lra. }
  assert (C : cosh (u + u) = cosh u * cosh u + sinh u * sinh u). { unfold sinh, cosh. replace (- (u + u)) with (- u + - u) by ring. rewrite !exp_plus. field. }
  rewrite C. pose proof (cosh_ge_1 u). replace (cosh u * cosh u + sinh u * sinh u) with (2 * (cosh u * cosh u) - 1) by lra. field. repeat split; nra.
Qed.
Lemma gap_mono tau h h' : 0 < tau -> 0 < h -> h <= h' -> beta tau h - alpha tau h <= beta tau h' - alpha tau h'.
Proof. intros T H [L| <-]; [|lra]. rewrite !gap_lang by lra. pose proof (lang_lt (tau * h / 2) (tau * h' / 2) ltac:(nra) ltac:(nra)). nra. Qed.
Lemma beta_lt tau h h' : 0 < tau -> 0 < h -> h < h' -> beta tau h < beta tau h'.
Proof. intros T H L. rewrite !beta_lang by lra. pose proof (lang_lt (tau * h) (tau * h') ltac:(nra) ltac:(nra)). nra. Qed.
Lemma beta_le_tau tau h : 0 < tau -> 0 < h -> beta tau h < tau.
Proof. intros T H. rewrite beta_lang by lra. pose proof (lang_bounds (tau * h) ltac:(nra)). nra. Qed.

(** * Bounds *)

Lemma Rabs_le_inv a b : Rabs a <= b -> - b <= a <= b.
Proof. intros H. unfold Rabs in H. destruct (Rcase_abs a); lra. Qed.

(** Between the knots the acceleration does not exceed what it is at the knots. *)
Lemma te2_bound f tau x B : 0 < tau -> t_x0 f < t_xf f -> t_x0 f <= x <= t_xf f -> Rabs (t_z0 f) <= B -> Rabs (t_zf f) <= B -> Rabs (te2 f tau x) <= B.
Proof.
  intros T H X Z0 ZF. unfold te2. cbn zeta. set (h := t_xf f - t_x0 f). assert (P : 0 < tau * h) by (unfold h; nra). pose proof (sinh_pos _ P) as SP.
  set (a := sinh (tau * (t_xf f - x))). set (b := sinh (tau * (x - t_x0 f))). assert (A0 : 0 <= a) by (apply sinh_nonneg; nra). assert (B0 : 0 <= b) by (apply sinh_nonneg; nra).
  assert (AB : a + b <= sinh (tau * h)). { unfold a, b. replace (tau * h) with (tau * (t_xf f - x) + tau * (x - t_x0 f)) by (unfold h; ring). apply sinh_super; nra. }
  replace ((tau * tau * t_z0 f * a + tau * tau * t_zf f * b) / (tau * tau * sinh (tau * h))) with ((t_z0 f * a + t_zf f * b) / sinh (tau * h)) by (field; split; lra).
  unfold Rdiv. rewrite Rabs_mult, (Rabs_right (/ _)) by (apply Rle_ge, Rlt_le, Rinv_0_lt_compat; lra). apply Rmult_le_reg_r with (sinh (tau * h)); [lra|]. rewrite Rmult_assoc, Rinv_l, Rmult_1_r by lra.
  eapply Rle_trans; [apply Rabs_triang|]. rewrite !Rabs_mult, (Rabs_right a), (Rabs_right b) by lra. pose proof (Rabs_pos (t_z0 f)). nra.
Qed.
(** The curve stays near its ends. *)
Lemma te_bound f tau x B Y : 0 < tau -> t_x0 f < t_xf f -> t_x0 f <= x <= t_xf f -> Rabs (t_z0 f) <= B -> Rabs (t_zf f) <= B -> Rabs (t_y0 f) <= Y -> Rabs (t_yf f) <= Y -> Rabs (te f tau x) <= Y + 2 * B / (tau * tau).
Proof.
  intros T H X Z0 ZF Y0 YF. pose proof (te2_bound f tau x B T H X Z0 ZF) as B2. assert (T2 : 0 < tau * tau) by nra. assert (P : 0 < tau * (t_xf f - t_x0 f)) by nra. pose proof (sinh_pos _ P) as SP.
  set (l := (x - t_x0 f) / (t_xf f - t_x0 f)). assert (L : 0 <= l <= 1). { unfold l. split; [apply Rmult_le_pos; [lra|apply Rlt_le, Rinv_0_lt_compat; lra]|]. apply Rmult_le_reg_r with (t_xf f - t_x0 f); [lra|]. unfold Rdiv. rewrite Rmult_assoc, Rinv_l by lra. lra. }
  assert (E : te f tau x = te2 f tau x / (tau * tau) + ((t_y0 f - t_z0 f / (tau * tau)) * (1 - l) + (t_yf f - t_zf f / (tau * tau)) * l)).
  { unfold te, te2, l. cbn zeta. field. repeat split; nra. }
  rewrite E. assert (IB : forall z, Rabs z <= B -> Rabs (z / (tau * tau)) <= B / (tau * tau)).
  { intros z Z. unfold Rdiv. rewrite Rabs_mult, (Rabs_right (/ _)) by (apply Rle_ge, Rlt_le, Rinv_0_lt_compat; lra). apply Rmult_le_compat_r; [apply Rlt_le, Rinv_0_lt_compat; lra|exact Z]. }
  pose proof (IB _ B2) as Q2. pose proof (IB _ Z0) as Q0. pose proof (IB _ ZF) as QF. replace (2 * B / (tau * tau)) with (B / (tau * tau) + B / (tau * tau)) by (field; lra).
  set (b := B / (tau * tau)) in *. set (z0 := t_z0 f / (tau * tau)) in *. set (zf := t_zf f / (tau * tau)) in *. set (q := te2 f tau x / (tau * tau)) in *.
  apply Rabs_le. apply Rabs_le_inv in Q2, Q0, QF, Y0, YF.
  assert (U : - (Y + b) <= t_y0 f - z0 <= Y + b) by lra. assert (U' : - (Y + b) <= t_yf f - zf <= Y + b) by lra. nra.
Qed.
(** Its slope. *)
Lemma te1_bound f tau x B Y d : 0 < tau -> 0 < d <= t_xf f - t_x0 f -> t_x0 f <= x <= t_xf f -> Rabs (t_z0 f) <= B -> Rabs (t_zf f) <= B -> Rabs (t_y0 f) <= Y -> Rabs (t_yf f) <= Y ->
  Rabs (te1 f tau x) <= 2 * B / tau * (cosh (tau * d) / sinh (tau * d)) + (2 * Y + 2 * B / (tau * tau)) / d.
Proof.
  intros T D X Z0 ZF Y0 YF. set (h := t_xf f - t_x0 f) in *. assert (T2 : 0 < tau * tau) by nra. assert (P : 0 < tau * h) by nra. pose proof (sinh_pos _ P) as SP. assert (Pd : 0 < tau * d) by nra. pose proof (sinh_pos _ Pd) as SD.
  set (K := cosh (tau * d) / sinh (tau * d)). assert (K0 : 0 < K) by (apply Rdiv_lt_0_compat; [pose proof (cosh_ge_1 (tau * d)); lra|lra]).
  assert (CK : forall u, 0 <= u <= tau * h -> 0 <= cosh u / sinh (tau * h) <= K).
  { intros u U. pose proof (cosh_ge_1 u). split; [apply Rmult_le_pos; [lra|apply Rlt_le, Rinv_0_lt_compat; lra]|]. apply Rle_trans with (cosh (tau * h) / sinh (tau * h)).
    - apply Rmult_le_compat_r; [apply Rlt_le, Rinv_0_lt_compat; lra|]. apply cosh_mono; lra.
    - unfold K. destruct (Req_dec d h) as [->|N]; [lra|].
      apply Rmult_le_reg_r with (sinh (tau * h) * sinh (tau * d)); [nra|]. replace (cosh (tau * h) / sinh (tau * h) * (sinh (tau * h) * sinh (tau * d))) with (cosh (tau * h) * sinh (tau * d)) by (field; lra).
      replace (cosh (tau * d) / sinh (tau * d) * (sinh (tau * h) * sinh (tau * d))) with (cosh (tau * d) * sinh (tau * h)) by (field; lra).
      pose proof (sinh_nonneg (tau * h - tau * d) ltac:(nra)) as SN. assert (SE : sinh (tau * h - tau * d) = sinh (tau * h) * cosh (tau * d) - cosh (tau * h) * sinh (tau * d)).
      { unfold Rminus at 1. rewrite sinh_add. unfold sinh, cosh. rewrite !Ropp_involutive. field. } lra. }
  assert (U0 : 0 <= tau * (t_xf f - x) <= tau * h) by (split; [apply Rmult_le_pos; lra|apply Rmult_le_compat_l; unfold h; lra]).
  assert (UF : 0 <= tau * (x - t_x0 f) <= tau * h) by (split; [apply Rmult_le_pos; lra|apply Rmult_le_compat_l; unfold h; lra]).
  pose proof (CK _ U0) as C0. pose proof (CK _ UF) as CF.
  assert (E : te1 f tau x = (t_zf f / tau) * (cosh (tau * (x - t_x0 f)) / sinh (tau * h)) - (t_z0 f / tau) * (cosh (tau * (t_xf f - x)) / sinh (tau * h)) + (t_yf f - t_y0 f + (t_z0 f / (tau * tau) - t_zf f / (tau * tau))) / h).
  { unfold te1. cbn zeta. fold h. field. repeat split; lra. }
  rewrite E. set (c0 := cosh (tau * (t_xf f - x)) / sinh (tau * h)) in *. set (cf := cosh (tau * (x - t_x0 f)) / sinh (tau * h)) in *.
  assert (IB : forall z k, 0 < k -> Rabs z <= B -> Rabs (z / k) <= B / k).
  { intros z k KP Z. unfold Rdiv. rewrite Rabs_mult, (Rabs_right (/ _)) by (apply Rle_ge, Rlt_le, Rinv_0_lt_compat; lra). apply Rmult_le_compat_r; [apply Rlt_le, Rinv_0_lt_compat; lra|exact Z]. }
  pose proof (IB _ tau T Z0) as Q0. pose proof (IB _ tau T ZF) as QF. pose proof (IB _ _ T2 Z0) as R0. pose proof (IB _ _ T2 ZF) as RF.
  assert (W : Rabs ((t_yf f - t_y0 f + (t_z0 f / (tau * tau) - t_zf f / (tau * tau))) / h) <= (2 * Y + 2 * B / (tau * tau)) / d).
  { unfold Rdiv at 1. rewrite Rabs_mult, (Rabs_right (/ h)) by (apply Rle_ge, Rlt_le, Rinv_0_lt_compat; lra). apply Rmult_le_compat; [apply Rabs_pos|apply Rlt_le, Rinv_0_lt_compat; lra| |apply Rinv_le_contravar; lra].
    replace (2 * B / (tau * tau)) with (B / (tau * tau) + B / (tau * tau)) by (field; lra). apply Rabs_le. apply Rabs_le_inv in R0, RF, Y0, YF. lra. }
  eapply Rle_trans; [apply Rabs_triang|]. apply Rplus_le_compat; [|exact W]. replace (2 * B / tau * K) with (B / tau * K + B / tau * K) by (field; lra).
  apply Rabs_le. apply Rabs_le_inv in Q0, QF. set (b := B / tau) in *. assert (0 <= b) by lra. nra.
Qed.

(** * The size of the accelerations at the knots *)

Lemma max_index (f : nat -> R) n : exists m, (m <= n)%nat /\ forall i, (i <= n)%nat -> f i <= f m.
Proof.
  induction n as [|n (m & M & H)]; [exists 0%nat; split; [lia|]; intros i I; replace i with 0%nat by lia; lra|].
  destruct (Rle_dec (f m) (f (S n))) as [Q|Q].
  - exists (S n). split; [lia|]. intros i I. destruct (Nat.eq_dec i (S n)) as [->|]; [lra|]. specialize (H i ltac:(lia)). lra.
  - exists m. split; [lia|]. intros i I. destruct (Nat.eq_dec i (S n)) as [->|]; [lra|]. apply H. lia.
Qed.
Definition slope (x y : list R) (k : nat) : R := (sq y (S k) - sq y k) / (sq x (S k) - sq x k).
(** At the knot where it is largest the acceleration is at most what the two slopes there allow. *)
Lemma z_largest x y tau N : length x = S N -> length y = S N -> (2 <= N)%nat -> increasing x -> 0 < tau ->
  exists m, (1 <= m < N)%nat /\ (forall i, Rabs (sq (z_of x y tau) i) <= Rabs (sq (z_of x y tau) m))
    /\ forall d, 0 < d -> (forall i, (i < N)%nat -> d <= hh x i) -> 2 * lang (tau * d / 2) * Rabs (sq (z_of x y tau) m) <= tau * (Rabs (slope x y (m - 1)) + Rabs (slope x y m)).
Proof.
  intros LX LY N2 H T. destruct (z_spec false x y tau N LX LY N2 H T) as (_ & LZ & Z0 & ZN & TRI). set (z := z_of x y tau) in *.
  destruct (max_index (fun i => Rabs (sq z (S i))) (N - 2)) as (m & M & MX). exists (S m). split; [lia|].
  assert (ALL : forall i, Rabs (sq z i) <= Rabs (sq z (S m))).
  { intros i. destruct (Nat.eq_dec i 0) as [->|I0]; [rewrite Z0, Rabs_R0; apply Rabs_pos|]. destruct (le_lt_dec N i) as [I|I].
    - destruct (Nat.eq_dec i N) as [->|NE]; [rewrite ZN, Rabs_R0; apply Rabs_pos|]. unfold sq at 1. rewrite nth_overflow by lia. rewrite Rabs_R0. apply Rabs_pos.
    - specialize (MX (i - 1)%nat ltac:(lia)). replace (S (i - 1)) with i in MX by lia. exact MX. }
  split; [exact ALL|]. intros d D HD. specialize (TRI (S m) ltac:(lia) ltac:(lia)). replace (S m + 1)%nat with (S (S m)) in TRI by lia. replace (S m - 1)%nat with m in * by lia.
  assert (HP : forall i, (i < N)%nat -> 0 < hh x i) by (intros i I; specialize (HD i I); lra).
  pose proof (gap_mono tau d (hh x m) T D (HD m ltac:(lia))) as G1. pose proof (gap_mono tau d (hh x (S m)) T D (HD (S m) ltac:(lia))) as G2. rewrite (gap_lang tau d) in G1, G2 by lra.
  assert (A1 : 0 < AA x tau m) by (apply AB; auto; lia). assert (A2 : 0 < AA x tau (S m)) by (apply AB; auto; lia). fold (BB x tau m) (AA x tau m) in G1. fold (BB x tau (S m)) (AA x tau (S m)) in G2.
  pose proof (ALL m) as P1. pose proof (ALL (S (S m))) as P2.
  assert (GB : Rabs (GG x y tau (S m) - GG x y tau m) <= tau * tau * (Rabs (slope x y m) + Rabs (slope x y (S m)))).
  { unfold GG, slope. fold (hh x m) (hh x (S m)). replace (tau * tau * (sq y (S (S m)) - sq y (S m)) / hh x (S m) - tau * tau * (sq y (S m) - sq y m) / hh x m) with (tau * tau * ((sq y (S (S m)) - sq y (S m)) / hh x (S m) - (sq y (S m) - sq y m) / hh x m)).
    2:{ field. pose proof (HP m ltac:(lia)). pose proof (HP (S m) ltac:(lia)). lra. }
    rewrite Rabs_mult, (Rabs_right (tau * tau)) by nra. apply Rmult_le_compat_l; [nra|]. set (u := _ / hh x (S m)). set (v := _ / hh x m). eapply Rle_trans; [apply Rabs_triang|]. rewrite Rabs_Ropp. lra. }
  set (Z := Rabs (sq z (S m))) in *. set (a1 := AA x tau m) in *. set (a2 := AA x tau (S m)) in *. set (b1 := BB x tau m) in *. set (b2 := BB x tau (S m)) in *. set (L := lang (tau * d / 2)) in *.
  assert (B : (b1 + b2) * Z <= Rabs (GG x y tau (S m) - GG x y tau m) + a1 * Z + a2 * Z).
  { assert (0 < b1 + b2). { pose proof (lang_bounds (tau * d / 2) ltac:(nra)). fold L in H0. nra. }
    replace ((b1 + b2) * Z) with (Rabs ((b1 + b2) * sq z (S m))) by (rewrite Rabs_mult, (Rabs_right (b1 + b2)) by lra; reflexivity).
    replace ((b1 + b2) * sq z (S m)) with (GG x y tau (S m) - GG x y tau m + (- (a1 * sq z m) + - (a2 * sq z (S (S m))))) by lra.
    eapply Rle_trans; [apply Rabs_triang|]. rewrite Rplus_assoc. apply Rplus_le_compat_l. eapply Rle_trans; [apply Rabs_triang|]. rewrite !Rabs_Ropp, !Rabs_mult, (Rabs_right a1), (Rabs_right a2) by lra. nra. }
  apply Rmult_le_reg_l with tau; [exact T|]. assert (Z0' : 0 <= Z) by apply Rabs_pos. nra.
Qed.
