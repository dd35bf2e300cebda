(** Tension splines. *)
From Verif Require Import RBase PolyModel SplineModel PolyProofs RootsProofs SplineProofs CubicProofs.
Open Scope R_scope.

(** * Hyperbolic functions *)

Lemma cosh_gt_1 t : t <> 0 -> 1 < cosh t.
Proof.
  intros T. unfold cosh. pose proof (exp_pos t) as P. pose proof (exp_Ropp t) as E. pose proof (exp_ineq1 t T) as H1.
  assert (D : exp t <> 1). { intros Q. apply T. apply exp_inv. now rewrite exp_0. }
  apply Rmult_lt_reg_r with (2 * exp t); [lra|]. rewrite E. replace ((exp t + / exp t) / 2 * (2 * exp t)) with (exp t * exp t + 1) by (field; lra).
  assert (0 < (exp t - 1) * (exp t - 1)) by (apply Rsqr_pos_lt; lra). lra.
Qed.
Lemma sinh_mvt t : 0 < t -> exists c, 0 < c < t /\ sinh t = cosh c * t.
Proof.
  intros T. destruct (MVT_cor2 sinh cosh 0 t T) as (c & E & C); [intros; apply derivable_pt_lim_sinh|]. exists c. split; auto. rewrite sinh_0 in E. lra.
Qed.
Lemma cosh_mvt t : 0 < t -> exists c, 0 < c < t /\ cosh t - 1 = sinh c * t.
Proof.
  intros T. destruct (MVT_cor2 cosh sinh 0 t T) as (c & E & C); [intros; apply derivable_pt_lim_cosh|]. exists c. split; auto. rewrite cosh_0 in E. lra.
Qed.
Lemma sinh_gt t : 0 < t -> t < sinh t.
Proof. intros T. destruct (sinh_mvt t T) as (c & C & E). pose proof (cosh_gt_1 c ltac:(lra)). rewrite E. nra. Qed.
Lemma sinh_pos t : 0 < t -> 0 < sinh t. Proof. intros T. pose proof (sinh_gt t T). lra. Qed.
Lemma beta_gap t : 0 < t -> 2 * sinh t < t * (cosh t + 1).
Proof.
  intros T. set (g := fun s => s * cosh s + s - 2 * sinh s). set (g' := fun s => s * sinh s + 1 - cosh s).
  assert (D : forall s, derivable_pt_lim g s (g' s)).
  { intros s. unfold g, g'. replace (s * sinh s + 1 - cosh s) with (1 * cosh s + s * sinh s + 1 - 2 * cosh s) by ring.
    apply derivable_pt_lim_minus; [apply derivable_pt_lim_plus|].
    - apply (derivable_pt_lim_mult id cosh); [apply derivable_pt_lim_id|apply derivable_pt_lim_cosh].
    - apply derivable_pt_lim_id.
    - apply (derivable_pt_lim_scal sinh); apply derivable_pt_lim_sinh. }
  destruct (MVT_cor2 g g' 0 t T (fun c _ => D c)) as (c & E & C).
  assert (Q : 0 < g' c). { unfold g'. destruct (cosh_mvt c ltac:(lra)) as (d & DD & ED). pose proof (sinh_lt d c ltac:(lra)). nra. }
  unfold g in E. rewrite sinh_0 in E. nra.
Qed.

(** * One function *)

Definition te (f : tfun) (tau x : R) : R :=
  let h := t_xf f - t_x0 f in
  (t_z0 f * sinh (tau * (t_xf f - x)) + t_zf f * sinh (tau * (x - t_x0 f))) / (tau * tau * sinh (tau * h))
  + (t_y0 f - t_z0 f / (tau * tau)) * (t_xf f - x) / h + (t_yf f - t_zf f / (tau * tau)) * (x - t_x0 f) / h.
Definition te1 (f : tfun) (tau x : R) : R :=
  let h := t_xf f - t_x0 f in
  (-1 * tau * t_z0 f * cosh (tau * (t_xf f - x)) + tau * t_zf f * cosh (tau * (x - t_x0 f))) / (tau * tau * sinh (tau * h))
  + -1 * (t_y0 f - t_z0 f / (tau * tau)) / h + (t_yf f - t_zf f / (tau * tau)) / h.
Definition te2 (f : tfun) (tau x : R) : R :=
  let h := t_xf f - t_x0 f in
  (tau * tau * t_z0 f * sinh (tau * (t_xf f - x)) + tau * tau * t_zf f * sinh (tau * (x - t_x0 f))) / (tau * tau * sinh (tau * h)).

Lemma tau_ok (f : tfun) tau : 0 < tau -> t_x0 f < t_xf f -> tau * tau <> 0 /\ sinh (tau * (t_xf f - t_x0 f)) <> 0 /\ t_xf f - t_x0 f <> 0.
Proof.
  intros T H. split; [nra|]. split; [|lra]. assert (0 < tau * (t_xf f - t_x0 f)) by (apply Rmult_lt_0_compat; lra). pose proof (sinh_pos _ H0). lra.
Qed.
Lemma te_ok f tau x : 0 < tau -> t_x0 f < t_xf f -> tf_eval f tau x = FOk (te f tau x) /\ tf_deriv f tau x = FOk (te1 f tau x) /\ tf_dderiv f tau x = FOk (te2 f tau x).
Proof.
  intros T H. destruct (tau_ok f tau T H) as (A & B & C). assert (D : tau * tau * sinh (tau * (t_xf f - t_x0 f)) <> 0) by (apply Rmult_integral_contrapositive_currified; auto).
  unfold tf_eval, tf_deriv, tf_dderiv. cbn zeta. repeat (rewrite fdiv_ok by assumption; cbn [fbind]). repeat split; reflexivity.
Qed.

Lemma d_left tau a x : derivable_pt_lim (fun x => tau * (a - x)) x (- tau).
Proof.
  replace (- tau) with (tau * (0 - 1)) by ring. apply (derivable_pt_lim_scal (fun x => a - x)).
  apply (derivable_pt_lim_minus (fct_cte a) id); [apply derivable_pt_lim_const|apply derivable_pt_lim_id].
Qed.
Lemma d_right tau a x : derivable_pt_lim (fun x => tau * (x - a)) x tau.
Proof.
  apply (fun H => eq_ind (tau * (1 - 0)) (derivable_pt_lim (fun x => tau * (x - a)) x) H tau ltac:(ring)). apply (derivable_pt_lim_scal (fun x => x - a)).
  apply (derivable_pt_lim_minus id (fct_cte a)); [apply derivable_pt_lim_id|apply derivable_pt_lim_const].
Qed.
Lemma d_comp F F' g g' x : derivable_pt_lim g x g' -> derivable_pt_lim F (g x) F' -> derivable_pt_lim (fun x => F (g x)) x (F' * g').
Proof. intros A B. apply (derivable_pt_lim_comp g F); auto. Qed.
Lemma d_ext (f g : R -> R) x l l' : derivable_pt_lim f x l -> (forall t, f t = g t) -> l = l' -> derivable_pt_lim g x l'.
Proof. intros H E <- eps P. destruct (H eps P) as (d & D). exists d. intros h H0 H1. rewrite <- !E. auto. Qed.

Ltac fz := repeat split; auto; try lra; try nra.
Lemma te_derive f tau x : 0 < tau -> t_x0 f < t_xf f -> derivable_pt_lim (te f tau) x (te1 f tau x).
Proof.
  intros T H. destruct (tau_ok f tau T H) as (A & B & C). unfold te, te1. cbn zeta.
  set (h := t_xf f - t_x0 f) in *. set (k := tau * tau * sinh (tau * h)). assert (K : k <> 0) by (unfold k; apply Rmult_integral_contrapositive_currified; auto).
  pose proof (d_comp sinh _ _ _ x (d_left tau (t_xf f) x) (derivable_pt_lim_sinh _)) as D1.
  pose proof (d_comp sinh _ _ _ x (d_right tau (t_x0 f) x) (derivable_pt_lim_sinh _)) as D2.
  pose proof (d_left ((t_y0 f - t_z0 f / (tau * tau)) / h) (t_xf f) x) as D3.
  pose proof (d_right ((t_yf f - t_zf f / (tau * tau)) / h) (t_x0 f) x) as D4.
  pose proof (derivable_pt_lim_plus _ _ _ _ _ (derivable_pt_lim_plus _ _ _ _ _ (derivable_pt_lim_plus _ _ _ _ _ (derivable_pt_lim_scal _ (t_z0 f / k) _ _ D1) (derivable_pt_lim_scal _ (t_zf f / k) _ _ D2)) D3) D4) as D.
  cbv [plus_fct mult_real_fct] in D. cbn beta in D.
  apply (d_ext _ _ _ _ _ D).
  - intros t. cbn beta. field; fz.
  - cbn beta. field; fz.
Qed.
Lemma te1_derive f tau x : 0 < tau -> t_x0 f < t_xf f -> derivable_pt_lim (te1 f tau) x (te2 f tau x).
Proof.
  intros T H. destruct (tau_ok f tau T H) as (A & B & C). unfold te1, te2. cbn zeta.
  set (h := t_xf f - t_x0 f) in *. set (k := tau * tau * sinh (tau * h)). assert (K : k <> 0) by (unfold k; apply Rmult_integral_contrapositive_currified; auto).
  pose proof (d_comp cosh _ _ _ x (d_left tau (t_xf f) x) (derivable_pt_lim_cosh _)) as D1.
  pose proof (d_comp cosh _ _ _ x (d_right tau (t_x0 f) x) (derivable_pt_lim_cosh _)) as D2.
  set (cst := -1 * (t_y0 f - t_z0 f / (tau * tau)) / h + (t_yf f - t_zf f / (tau * tau)) / h).
  pose proof (derivable_pt_lim_const cst x) as D3.
  pose proof (derivable_pt_lim_plus _ _ _ _ _ (derivable_pt_lim_plus _ _ _ _ _ (derivable_pt_lim_scal _ (-1 * tau * t_z0 f / k) _ _ D1) (derivable_pt_lim_scal _ (tau * t_zf f / k) _ _ D2)) D3) as D.
  cbv [plus_fct mult_real_fct fct_cte] in D. cbn beta in D.
  apply (d_ext _ _ _ _ _ D).
  - intros t. cbn beta. unfold cst. field; fz.
  - cbn beta. field; fz.
Qed.

Lemma te2_continuous f tau x : 0 < tau -> t_x0 f < t_xf f -> continuity_pt (te2 f tau) x.
Proof.
  intros T H. apply derivable_continuous_pt. destruct (tau_ok f tau T H) as (A & B & C).
  set (h := t_xf f - t_x0 f) in *. set (k := tau * tau * sinh (tau * h)). assert (K : k <> 0) by (unfold k; apply Rmult_integral_contrapositive_currified; auto).
  pose proof (d_comp sinh _ _ _ x (d_left tau (t_xf f) x) (derivable_pt_lim_sinh _)) as D1.
  pose proof (d_comp sinh _ _ _ x (d_right tau (t_x0 f) x) (derivable_pt_lim_sinh _)) as D2.
  pose proof (derivable_pt_lim_plus _ _ _ _ _ (derivable_pt_lim_scal _ (tau * tau * t_z0 f / k) _ _ D1) (derivable_pt_lim_scal _ (tau * tau * t_zf f / k) _ _ D2)) as D.
  cbv [plus_fct mult_real_fct] in D. cbn beta in D. eexists. apply (d_ext _ _ _ _ _ D); [|reflexivity].
  intros t. unfold te2. cbn zeta. fold h. fold k. field; fz.
Qed.

(** The values and slopes at the two ends. *)
Definition t_h f := t_xf f - t_x0 f.
Definition alpha tau h := 1 / h - tau / sinh (tau * h).
Definition beta tau h := tau * (cosh (tau * h) / sinh (tau * h)) - 1 / h.
Lemma te_ends f tau : 0 < tau -> t_x0 f < t_xf f ->
  te f tau (t_x0 f) = t_y0 f /\ te f tau (t_xf f) = t_yf f
  /\ te2 f tau (t_x0 f) = t_z0 f /\ te2 f tau (t_xf f) = t_zf f
  /\ tau * tau * te1 f tau (t_x0 f) = tau * tau * (t_yf f - t_y0 f) / t_h f - beta tau (t_h f) * t_z0 f - alpha tau (t_h f) * t_zf f
  /\ tau * tau * te1 f tau (t_xf f) = tau * tau * (t_yf f - t_y0 f) / t_h f + alpha tau (t_h f) * t_z0 f + beta tau (t_h f) * t_zf f.
Proof.
  intros T H. destruct (tau_ok f tau T H) as (A & B & C). unfold te, te1, te2, alpha, beta, t_h in *. cbn zeta.
  replace (t_x0 f - t_x0 f) with 0 by ring. replace (t_xf f - t_xf f) with 0 by ring. rewrite !Rmult_0_r, !sinh_0, !cosh_0. repeat split; field; fz.
Qed.
Lemma alpha_beta tau h : 0 < tau -> 0 < h -> 0 < alpha tau h < beta tau h.
Proof.
  intros T H. assert (P : 0 < tau * h) by (apply Rmult_lt_0_compat; auto). pose proof (sinh_gt _ P) as S1. pose proof (beta_gap _ P) as S2.
  unfold alpha, beta. set (s := sinh (tau * h)) in *. set (c := cosh (tau * h)) in *. assert (HS : 0 < h * s) by (apply Rmult_lt_0_compat; lra). split.
  - replace (1 / h - tau / s) with ((s - tau * h) / (h * s)) by (field; lra). apply Rdiv_lt_0_compat; lra.
  - apply Rminus_gt_0_lt. replace (tau * (c / s) - 1 / h - (1 / h - tau / s)) with ((tau * h * (c + 1) - 2 * s) / (h * s)) by (field; lra). apply Rdiv_lt_0_compat; lra.
Qed.

(** * The tridiagonal system *)

Definition hh (x : list R) i := sq x (S i) - sq x i.
Definition AA x tau i := alpha tau (hh x i).
Definition BB x tau i := beta tau (hh x i).
Definition GG x y tau i := tau * tau * (sq y (S i) - sq y i) / hh x i.

Lemma params_spec x y tau N : length x = S N -> length y = S N -> increasing x -> 0 < tau -> forall todo i, (i + todo = N)%nat ->
  tension_params x y tau todo (Z.of_nat i) = FOk (map (fun k => mk_tpar (AA x tau k) (BB x tau k) (GG x y tau k)) (seq i todo)).
Proof.
  intros LX LY H T. induction todo as [|todo IH]; intros i E; cbn [tension_params seq map]; [reflexivity|].
  replace (Z.of_nat i + 1)%Z with (Z.of_nat (S i)) by lia. rewrite !rget_nth by lia. cbn [fbind].
  pose proof (increasing_lt x i (S i) H ltac:(lia) ltac:(lia)) as A.
  assert (P : 0 < tau * (nth (S i) x 0 - nth i x 0)) by (apply Rmult_lt_0_compat; lra). pose proof (sinh_pos _ P).
  cbn zeta. repeat (rewrite fdiv_ok by lra; cbn [fbind]). rewrite IH by lia. reflexivity.
Qed.

(** Elements 1, 2, .. of the arrays u and v. *)
Fixpoint UV x y tau (k : nat) : R * R :=
  match k with
  | O => (BB x tau 1 + BB x tau 0, GG x y tau 1 - GG x y tau 0)
  | S j => let '(u, v) := UV x y tau j in
           (BB x tau (S (S j)) + BB x tau (S j) - AA x tau (S j) * AA x tau (S j) / u,
            GG x y tau (S (S j)) - GG x y tau (S j) - AA x tau (S j) * v / u)
  end.
Lemma AB x tau i : increasing x -> 0 < tau -> (S i < length x)%nat -> 0 < AA x tau i < BB x tau i.
Proof. intros H T L. apply alpha_beta; auto. unfold hh, sq. pose proof (increasing_lt x i (S i) H ltac:(lia) ltac:(lia)). lra. Qed.
Lemma UV_pos x y tau k : increasing x -> 0 < tau -> (S (S k) < length x)%nat -> AA x tau (S k) < fst (UV x y tau k).
Proof.
  intros H T. induction k as [|k IH]; intros L; cbn [UV].
  - cbn [fst]. pose proof (AB x tau 0 H T ltac:(lia)). pose proof (AB x tau 1 H T ltac:(lia)). lra.
  - specialize (IH ltac:(lia)). destruct (UV x y tau k) as [u v]. cbn [fst] in *. pose proof (AB x tau (S k) H T ltac:(lia)) as P. pose proof (AB x tau (S (S k)) H T ltac:(lia)) as Q.
    set (a := AA x tau (S k)) in *. assert (a * a / u < a). { apply Rmult_lt_reg_r with u; [lra|]. rewrite div_mul by lra. nra. } lra.
Qed.

Definition par x y tau N := map (fun k => mk_tpar (AA x tau k) (BB x tau k) (GG x y tau k)) (seq 0 N).
Lemma par_get x y tau N i : (i < N)%nat -> aget (par x y tau N) (Z.of_nat i) = FOk (mk_tpar (AA x tau i) (BB x tau i) (GG x y tau i)).
Proof.
  intros L. rewrite (aget_nth _ _ (mk_tpar (AA x tau 0) (BB x tau 0) (GG x y tau 0))) by (unfold par; rewrite map_length, seq_length; lia).
  unfold par. rewrite (map_nth (fun k => mk_tpar (AA x tau k) (BB x tau k) (GG x y tau k))), seq_nth by auto. reflexivity.
Qed.
Definition uu x y tau n := map (fun k => fst (UV x y tau k)) (seq 0 n).
Definition vv x y tau n := map (fun k => snd (UV x y tau k)) (seq 0 n).
Lemma uu_get x y tau n i : (i < n)%nat -> rget (uu x y tau n) (Z.of_nat i) = FOk (fst (UV x y tau i)).
Proof. intros L. rewrite rget_nth by (unfold uu; rewrite map_length, seq_length; lia). unfold uu. now rewrite map_seq_nth. Qed.
Lemma vv_get x y tau n i : (i < n)%nat -> rget (vv x y tau n) (Z.of_nat i) = FOk (snd (UV x y tau i)).
Proof. intros L. rewrite rget_nth by (unfold vv; rewrite map_length, seq_length; lia). unfold vv. now rewrite map_seq_nth. Qed.

Lemma tforward_spec x y tau N : length x = S N -> increasing x -> 0 < tau -> forall todo i, (2 <= i)%nat -> (i + todo = N)%nat ->
  tension_forward (par x y tau N) todo (Z.of_nat i) (uu x y tau (i - 1)) (vv x y tau (i - 1)) = FOk (uu x y tau (N - 1), vv x y tau (N - 1)).
Proof.
  intros LX H T. induction todo as [|todo IH]; intros i I E; cbn [tension_forward]; [now replace i with N by lia|].
  replace (Z.of_nat i - 1)%Z with (Z.of_nat (i - 1)) by lia. replace (Z.of_nat i - 2)%Z with (Z.of_nat (i - 2)) by lia.
  rewrite !par_get, uu_get, vv_get by lia. cbn [fbind p_a p_beta p_gamma].
  pose proof (UV_pos x y tau (i - 2) H T ltac:(lia)) as P. pose proof (AB x tau (S (i - 2)) H T ltac:(lia)).
  repeat (rewrite fdiv_ok by lra; cbn [fbind]). replace (Z.of_nat i + 1)%Z with (Z.of_nat (S i)) by lia. rewrite <- (IH (S i)) by lia. clear P.
  destruct i as [|[|j]]; [lia|lia|]. rewrite !Nat.sub_succ, !Nat.sub_0_r. unfold uu, vv. rewrite !(seq_S (S j)), !map_app. cbn [map Nat.add UV].
  destruct (UV x y tau j) as [u v]. reflexivity.
Qed.

Definition ZC x y tau i := - (AA x tau i) / fst (UV x y tau (i - 1)).
Definition ZU x y tau i := snd (UV x y tau (i - 1)) / fst (UV x y tau (i - 1)).
Definition ZZ x y tau N i := MM (ZC x y tau) (ZU x y tau) 0 N i.

Lemma tback_spec x y tau N : length x = S N -> increasing x -> 0 < tau -> forall k i, (S i + k = S N)%nat -> (1 <= k)%nat ->
  tension_back (par x y tau N) (uu x y tau (N - 1)) (vv x y tau (N - 1)) i (map (ZZ x y tau N) (seq (S i) k)) = FOk (map (ZZ x y tau N) (seq 1 N)).
Proof.
  intros LX H T k i. revert k. induction i as [|i IH]; intros k E K; cbn [tension_back]; [now replace N with k by lia|].
  replace (Z.of_nat (S i) - 1)%Z with (Z.of_nat i) by lia. rewrite par_get, uu_get, vv_get by lia. cbn [fbind p_a].
  destruct k as [|k]; [lia|]. change (seq (S (S i)) (S k)) with (S (S i) :: seq (S (S (S i))) k). cbn [map].
  change (rget (ZZ x y tau N (S (S i)) :: map (ZZ x y tau N) (seq (S (S (S i))) k)) 0) with (FOk (ZZ x y tau N (S (S i)))). cbn [fbind].
  pose proof (UV_pos x y tau i H T ltac:(lia)) as P. pose proof (AB x tau (S i) H T ltac:(lia)).
  rewrite fdiv_ok by lra. cbn [fbind]. rewrite <- (IH (S (S k))) by lia. cbn [seq map]. do 2 f_equal.
  unfold ZZ at 2. rewrite MM_step by lia. fold (ZZ x y tau N (S (S i))). unfold ZC, ZU. rewrite Nat.sub_succ, Nat.sub_0_r. field. lra.
Qed.

Lemma tsolve_spec debug x y tau N : length x = S N -> length y = S N -> (2 <= N)%nat -> increasing x -> 0 < tau ->
  exists m, c2_tension debug x y tau = FOk m /\ length m = S N /\ sq m 0 = 0 /\ sq m N = 0
    /\ forall i, (1 <= i)%nat -> (i < N)%nat ->
         AA x tau (i - 1) * sq m (i - 1) + (BB x tau (i - 1) + BB x tau i) * sq m i + AA x tau i * sq m (i + 1) = GG x y tau i - GG x y tau (i - 1).
Proof.
  intros LX LY N2 H T. unfold c2_tension. replace (Zlen x =? Zlen y)%Z with true by (unfold Zlen; lia). cbn [negb]. rewrite Bool.andb_false_r.
  replace (Zlen x <? 2)%Z with false by (unfold Zlen; lia). rewrite LX. cbn zeta. replace (S N - 1)%nat with N by lia.
  pose proof (params_spec x y tau N LX LY H T N 0 ltac:(lia)) as E. change (Z.of_nat 0) with 0%Z in E. rewrite E. cbn [fbind]. clear E. fold (par x y tau N).
  pose proof (par_get x y tau N 1 ltac:(lia)) as E1. pose proof (par_get x y tau N 0 ltac:(lia)) as E0. change (Z.of_nat 1) with 1%Z in E1. change (Z.of_nat 0) with 0%Z in E0.
  rewrite E1, E0. cbn [fbind p_beta p_gamma].
  pose proof (tforward_spec x y tau N LX H T (N - 2) 2 ltac:(lia) ltac:(lia)) as F. cbn [Nat.sub] in F.
  change (uu x y tau 1) with [BB x tau 1 + BB x tau 0] in F. change (vv x y tau 1) with [GG x y tau 1 - GG x y tau 0] in F. change (Z.of_nat 2) with 2%Z in F. rewrite F. cbn [fbind].
  pose proof (tback_spec x y tau N LX H T 1 (N - 1) ltac:(lia) ltac:(lia)) as B. replace (S (N - 1)) with N in B by lia. cbn [seq map] in B. unfold ZZ at 1 in B. rewrite MM_top in B. rewrite B. cbn [fbind].
  set (m := 0 :: map (ZZ x y tau N) (seq 1 N)). exists m. split; auto. assert (LM : length m = S N) by (unfold m; cbn [length]; rewrite map_length, seq_length; auto).
  assert (HM : forall i, (1 <= i)%nat -> (i <= N)%nat -> sq m i = ZZ x y tau N i).
  { intros i I L. unfold sq, m. destruct i as [|i]; [lia|]. cbn [nth]. rewrite <- seq_shift, map_map. rewrite map_seq_nth by lia. reflexivity. }
  split; auto. split; [reflexivity|]. split; [rewrite HM by lia; apply MM_top|]. intros i I L.
  destruct i as [|j]; [lia|]. rewrite !Nat.sub_succ, !Nat.sub_0_r. replace (S j + 1)%nat with (S (S j)) by lia. rewrite !(HM (S _)) by lia.
  assert (ST : forall k, (1 <= k)%nat -> (k < N)%nat -> fst (UV x y tau (k - 1)) * ZZ x y tau N k = snd (UV x y tau (k - 1)) - AA x tau k * ZZ x y tau N (S k)).
  { intros k K1 K2. unfold ZZ at 1. rewrite MM_step by lia. fold (ZZ x y tau N (S k)). unfold ZC, ZU. pose proof (UV_pos x y tau (k - 1) H T ltac:(lia)). replace (S (k - 1)) with k in * by lia.
    pose proof (AB x tau k H T ltac:(lia)). field. lra. }
  pose proof (ST (S j) ltac:(lia) ltac:(lia)) as SJ. rewrite Nat.sub_succ, Nat.sub_0_r in SJ. destruct j as [|j].
  - change (sq m 0) with 0. cbn [UV fst snd] in SJ. set (a := BB x tau 0) in *. set (b := BB x tau 1) in *. set (z1 := ZZ x y tau N 1) in *. set (z2 := ZZ x y tau N 2) in *. lra.
  - rewrite (HM (S j)) by lia. pose proof (ST (S j) ltac:(lia) ltac:(lia)) as SI. rewrite Nat.sub_succ, Nat.sub_0_r in SI.
    cbn [UV] in SJ. pose proof (UV_pos x y tau j H T ltac:(lia)) as P. destruct (UV x y tau j) as [u v]. cbn [fst snd] in *.
    pose proof (AB x tau (S j) H T ltac:(lia)) as Q. set (a := AA x tau (S j)) in *. set (z1 := ZZ x y tau N (S j)) in *. set (z2 := ZZ x y tau N (S (S j))) in *. set (z3 := ZZ x y tau N (S (S (S j)))) in *.
    set (b1 := BB x tau (S j)) in *. set (b2 := BB x tau (S (S j))) in *. set (a2 := AA x tau (S (S j))) in *. set (g2 := GG x y tau (S (S j))) in *. set (g1 := GG x y tau (S j)) in *.
    assert (Z1 : z1 = (v - a * z2) / u) by (apply (Rmult_eq_reg_l u); [rewrite SI; field; lra|lra]). rewrite Z1.
    replace ((b2 + b1 - a * a / u) * z2) with ((b1 + b2) * z2 - a * a / u * z2) in SJ by ring. replace (a * v / u) with (a * (v / u)) in SJ by (field; lra).
    replace (a * ((v - a * z2) / u)) with (a * (v / u) - a * a / u * z2) by (field; lra). lra.
Qed.

(** * Assembly *)

Lemma functions_spec x y m N : length x = S N -> length y = S N -> length m = S N -> forall todo i, (i + todo = N)%nat ->
  tension_functions x y m todo (Z.of_nat i) = FOk (map (fun k => mk_tfun (sq x k) (sq y k) (sq m k) (sq x (S k)) (sq y (S k)) (sq m (S k))) (seq i todo)).
Proof.
  intros LX LY LM. induction todo as [|todo IH]; intros i E; cbn [tension_functions seq map]; [reflexivity|].
  replace (Z.of_nat i + 1)%Z with (Z.of_nat (S i)) by lia. rewrite !rget_nth by lia. cbn [fbind]. rewrite IH by lia. reflexivity.
Qed.

Lemma tspline_spec debug x y tau N : length x = S N -> length y = S N -> (2 <= N)%nat -> increasing x -> 0 < tau ->
  exists s f f1 f2, tension_spline debug x y tau = FOk s
    /\ (forall t, nth 0 x 0 <= t <= nth N x 0 -> ts_eval debug s t = FOk (f t) /\ ts_deriv debug s t = FOk (f1 t) /\ ts_dderiv debug s t = FOk (f2 t))
    /\ (forall t, derivable_pt_lim f t (f1 t) /\ derivable_pt_lim f1 t (f2 t) /\ continuity_pt f2 t)
    /\ (forall i, (i <= N)%nat -> f (nth i x 0) = nth i y 0)
    /\ f2 (nth 0 x 0) = 0 /\ f2 (nth N x 0) = 0
    /\ (forall i t, (i < N)%nat -> nth i x 0 <= t <= nth (S i) x 0 ->
          let g := fun r => f2 r - tau * tau * f r in
          g t = g (nth i x 0) + (g (nth (S i) x 0) - g (nth i x 0)) * (t - nth i x 0) / (nth (S i) x 0 - nth i x 0)).
Proof.
  intros LX LY N2 H T. assert (N1 : (1 <= N)%nat) by lia. destruct (tsolve_spec debug x y tau N LX LY N2 H T) as (m & E & LM & Z0 & ZN & TRI).
  pose proof (functions_spec x y m N LX LY LM N 0 ltac:(lia)) as EF. change (Z.of_nat 0) with 0%Z in EF.
  set (F := fun k => mk_tfun (sq x k) (sq y k) (sq m k) (sq x (S k)) (sq y (S k)) (sq m (S k))) in *. set (fs := map F (seq 0 N)) in *.
  assert (LF : length fs = N) by (unfold fs; rewrite map_length, seq_length; auto).
  assert (NF : forall k, (k < N)%nat -> nth k fs (F 0%nat) = F k). { intros k K. unfold fs. rewrite map_nth, seq_nth by auto. reflexivity. }
  assert (HX : forall k, (k < N)%nat -> t_x0 (F k) < t_xf (F k)). { intros k K. cbn. apply increasing_lt; auto; lia. }
  assert (PC : forall k, (k < N)%nat -> te (F k) tau (sq x k) = sq y k /\ te (F k) tau (sq x (S k)) = sq y (S k)
     /\ te2 (F k) tau (sq x k) = sq m k /\ te2 (F k) tau (sq x (S k)) = sq m (S k)
     /\ tau * tau * te1 (F k) tau (sq x k) = GG x y tau k - BB x tau k * sq m k - AA x tau k * sq m (S k)
     /\ tau * tau * te1 (F k) tau (sq x (S k)) = GG x y tau k + AA x tau k * sq m k + BB x tau k * sq m (S k)).
  { intros k K. exact (te_ends (F k) tau T (HX k K)). }
  set (G := fun (e : tfun -> R -> R -> R) => map (fun f => e f tau) fs).
  assert (LG : forall e, length (G e) = N) by (intros e; unfold G; rewrite map_length; auto).
  assert (NG : forall e k, (k < N)%nat -> nth k (G e) (fun _ => 0) = e (F k) tau).
  { intros e k K. unfold G. rewrite (nth_map_fun (fun f => e f tau) fs (F 0%nat)) by lia. now rewrite NF. }
  assert (M0 : matched (breaks x) (G te)).
  { apply (pieces_matched x N LX N1 H); auto. intros i I. rewrite !NG by lia. destruct (PC i ltac:(lia)) as (_ & Q & _). destruct (PC (S i) ltac:(lia)) as (Q' & _).
    fold (sq x (S i)). rewrite Q, Q'. reflexivity. }
  assert (M1 : matched (breaks x) (G te1)).
  { apply (pieces_matched x N LX N1 H); auto. intros i I. rewrite !NG by lia. destruct (PC i ltac:(lia)) as (_ & _ & _ & _ & _ & Q). destruct (PC (S i) ltac:(lia)) as (_ & _ & _ & _ & Q' & _).
    fold (sq x (S i)). apply (Rmult_eq_reg_l (tau * tau)); [|nra]. rewrite Q, Q'. specialize (TRI (S i) ltac:(lia) ltac:(lia)). rewrite Nat.sub_succ, Nat.sub_0_r in TRI.
    replace (S i + 1)%nat with (S (S i)) in TRI by lia. lra. }
  assert (M2 : matched (breaks x) (G te2)).
  { apply (pieces_matched x N LX N1 H); auto. intros i I. rewrite !NG by lia. destruct (PC i ltac:(lia)) as (_ & _ & _ & Q & _). destruct (PC (S i) ltac:(lia)) as (_ & _ & Q' & _).
    fold (sq x (S i)). rewrite Q, Q'. reflexivity. }
  pose proof (breaks_sorted x N LX N1 H) as SB.
  assert (AL : forall f, In f fs -> t_x0 f < t_xf f). { intros f I. unfold fs in I. apply in_map_iff in I. destruct I as (k & <- & K). apply in_seq in K. apply HX. lia. }
  assert (DER : forall e e', (forall f t, t_x0 f < t_xf f -> derivable_pt_lim (e f tau) t (e' f tau t)) -> Forall2 (fun f g => forall t, derivable_pt_lim f t (g t)) (G e) (G e')).
  { intros e e' D. unfold G. clear - AL D. induction fs as [|f fs IH]; cbn; constructor.
    - intros t. apply D. apply AL. now left.
    - apply IH. intros g I. apply AL. now right. }
  exists (mk_tspline x tau fs), (pw (breaks x) (G te)), (pw (breaks x) (G te1)), (pw (breaks x) (G te2)).
  split. { unfold tension_spline. rewrite E. cbn [fbind]. rewrite LX. replace (S N - 1)%nat with N by lia. rewrite EF. reflexivity. }
  assert (V : forall e t, nth 0 x 0 <= t <= nth N x 0 -> pw (breaks x) (G e) t = e (F (fidx (tl x) t)) tau t).
  { intros e t R. destruct (pieces_index x N LX N1 H debug t R) as [_ L]. rewrite (pieces_value x N LX N1 H) by auto. now rewrite NG. }
  split.
  { intros t R. destruct (pieces_index x N LX N1 H debug t R) as [EI L]. unfold ts_eval, ts_deriv, ts_dderiv. cbn [ts_domain ts_tension ts_functions]. rewrite EI. cbn [fbind].
    rewrite (aget_nth fs _ (F 0%nat)) by lia. cbn [fbind]. rewrite NF by auto. rewrite !V by auto. apply te_ok; auto. }
  split.
  { intros t. split; [apply pw_derive; auto; apply DER; intros; now apply te_derive|]. split; [apply pw_derive; auto; apply DER; intros; now apply te1_derive|].
    apply cont_at_pt. apply pw_cont; auto. apply Forall_forall. intros g I. unfold G in I. apply in_map_iff in I. destruct I as (f & <- & I). intros r. apply cont_at_pt. apply te2_continuous; auto. }
  assert (K0 : forall i, (i <= N)%nat -> pw (breaks x) (G te) (nth i x 0) = nth i y 0).
  { intros i I. apply (pieces_knot x N LX N1 H (G te) (fun i => nth i y 0)); auto. intros k K. rewrite NG by auto. destruct (PC k K) as (Q1 & Q2 & _). split; [exact Q1|exact Q2]. }
  assert (K2 : forall i, (i <= N)%nat -> pw (breaks x) (G te2) (nth i x 0) = nth i m 0).
  { intros i I. apply (pieces_knot x N LX N1 H (G te2) (fun i => nth i m 0)); auto. intros k K. rewrite NG by auto. destruct (PC k K) as (_ & _ & Q1 & Q2 & _). split; [exact Q1|exact Q2]. }
  split; auto. split; [rewrite K2 by lia; exact Z0|]. split; [rewrite K2 by lia; exact ZN|].
  intros i t I R. cbn beta zeta. rewrite !K0, !K2 by lia.
  assert (RR : nth 0 x 0 <= t <= nth N x 0). { pose proof (xs_range x N LX N1 H i ltac:(lia)). pose proof (xs_range x N LX N1 H (S i) ltac:(lia)). lra. }
  pose proof (HX i I) as Hi. cbn in Hi. unfold sq in Hi.
  destruct (Rle_lt_or_eq_dec _ _ (proj1 R)) as [LT|<-].
  - assert (FI : fidx (tl x) t = i).
    { apply (fidx_interval (tl x) t i).
      - rewrite (tl_len x N LX N1 H). lia.
      - rewrite (tl_nth x N LX N1 H). apply R.
      - intros j J. rewrite (tl_nth x N LX N1 H). destruct (Nat.eq_dec (S j) i) as [->|NE]; [exact LT|]. apply Rlt_trans with (nth i x 0); [|exact LT]. apply increasing_lt; auto; lia. }
    rewrite !V by auto. rewrite FI. unfold te, te2, F. cbn [t_x0 t_xf t_y0 t_yf t_z0 t_zf]. unfold sq.
    destruct (tau_ok (F i) tau T (HX i I)) as (A & B & C). cbn in B, C. unfold sq in B, C. field; fz.
  - rewrite K0, K2 by lia. field. lra.
Qed.
