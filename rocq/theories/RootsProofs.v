(** Roots and extrema of polynomials. *)
From Coq Require Import FinFun.
From Verif Require Import RBase PolyModel PascalProofs PolyProofs.
Open Scope R_scope.

(** * Root sets *)

(** The list has every zero of the function, each once, and nothing else. *)
Definition root_set (f : R -> R) (l : list R) : Prop := NoDup l /\ forall x, In x l <-> f x = 0.

Lemma root_set_shift f g s a l : a <> 0 -> (forall x, f x = a * g (x - s)) -> root_set g l -> root_set f (map (fun t => t + s) l).
Proof.
  intros A E [N H]. split.
  - apply Injective_map_NoDup; auto. intros x y Q. lra.
  - intros x. rewrite in_map_iff, E. split.
    + intros (t & <- & I). apply H in I. replace (t + s - s) with t by lra. rewrite I. lra.
    + intros Z. exists (x - s). split; [lra|]. apply H. apply Rmult_integral in Z. tauto.
Qed.

Lemma roots_linear_ok c0 c1 : c1 <> 0 -> exists l, roots_linear c0 c1 = FOk l /\ root_set (eval [c0; c1]) l.
Proof.
  intros N. unfold roots_linear. destruct (Req_EM_T c1 0) as [Q|_]; [congruence|]. rewrite fdiv_ok by auto. cbn [fbind]. eexists; split; [reflexivity|]. split.
  - constructor; [auto|constructor].
  - intros x. rewrite eval_horner. cbn [horner In]. split.
    + intros [<-|[]]. field. auto.
    + intros E. left. apply Rmult_eq_reg_r with c1; auto. field_simplify; auto. lra.
Qed.

Lemma div_mul a b : b <> 0 -> a / b * b = a.
Proof. intros. field. auto. Qed.
Lemma sq_zero x : x * x = 0 -> x = 0.
Proof. intros E. apply Rmult_integral in E. tauto. Qed.

Lemma roots_quadratic_ok c0 c1 c2 : c2 <> 0 -> exists l, roots_quadratic c0 c1 c2 = FOk l /\ root_set (eval [c0; c1; c2]) l.
Proof.
  intros N. unfold roots_quadratic. destruct (Req_EM_T c2 0) as [Q|_]; [congruence|]. set (disc := c1 * c1 - 4 * c2 * c0).
  assert (N2 : 2 * c2 <> 0) by lra.
  assert (K : forall x, 4 * c2 * eval [c0; c1; c2] x = (2 * c2 * x + c1) * (2 * c2 * x + c1) - disc).
  { intros x. rewrite eval_horner. cbn [horner]. unfold disc. ring. }
  assert (Z : forall x, eval [c0; c1; c2] x = 0 <-> (2 * c2 * x + c1) * (2 * c2 * x + c1) = disc).
  { intros x. specialize (K x). split; intros E; [rewrite E in K; lra|].
    apply Rmult_eq_reg_l with (4 * c2); [|lra]. lra. }
  destruct (Rlt_dec 0 disc) as [P|P].
  - rewrite fsqrt_ok by lra. cbn [fbind]. rewrite !fdiv_ok by auto. cbn [fbind]. eexists; split; [reflexivity|].
    pose proof (sqrt_lt_R0 disc P) as SP. pose proof (sqrt_sqrt disc ltac:(lra)) as SS. set (s := sqrt disc) in *.
    assert (M1 : 2 * c2 * ((- c1 + s) / (2 * c2)) + c1 = s) by (field; auto).
    assert (M2 : 2 * c2 * ((- c1 - s) / (2 * c2)) + c1 = - s) by (field; auto).
    split.
    + constructor; [|constructor; [auto|constructor]]. intros [E|[]]. rewrite E in M2. lra.
    + intros x. rewrite Z. cbn [In]. split.
      * intros [<-|[<-|[]]]; [rewrite M1|rewrite M2]; lra.
      * intros E. assert (Q : (2 * c2 * x + c1 - s) * (2 * c2 * x + c1 + s) = 0) by lra.
        apply Rmult_integral in Q. destruct Q as [Q|Q]; [left|right; left]; apply Rmult_eq_reg_l with (2 * c2); auto; lra.
  - destruct (Req_EM_T disc 0) as [D|D].
    + rewrite fdiv_ok by auto. cbn [fbind]. eexists; split; [reflexivity|]. split; [constructor; [auto|constructor]|].
      intros x. rewrite Z, D. cbn [In]. assert (M : 2 * c2 * (- c1 / (2 * c2)) + c1 = 0) by (field; auto). split.
      * intros [<-|[]]. rewrite M. lra.
      * intros E. apply sq_zero in E. left. apply Rmult_eq_reg_l with (2 * c2); auto. lra.
    + exists []. split; [reflexivity|]. split; [constructor|]. intros x. rewrite Z. split; [intros []|].
      intros E. exfalso. pose proof (Rle_0_sqr (2 * c2 * x + c1)) as Q. unfold Rsqr in Q. lra.
Qed.

(** * Cube roots *)

Lemma cube_inj a b : a * a * a = b * b * b -> a = b.
Proof.
  intros E. assert (F : (a - b) * (a * a + a * b + b * b) = 0) by lra. apply Rmult_integral in F. destruct F as [F|F]; [lra|].
  assert (G : (a + b / 2) * (a + b / 2) + 3 / 4 * (b * b) = 0) by lra.
  pose proof (Rle_0_sqr (a + b / 2)) as P. pose proof (Rle_0_sqr b) as Q. unfold Rsqr in *.
  assert (B : b * b = 0) by lra. apply sq_zero in B. subst b. assert (A : (a + 0 / 2) * (a + 0 / 2) = 0) by lra. apply sq_zero in A. lra.
Qed.

Lemma pow_r_third x : 0 <= x -> pow_r x (1 / 3) * pow_r x (1 / 3) * pow_r x (1 / 3) = x.
Proof.
  intros P. unfold pow_r. destruct (Req_EM_T x 0) as [->|N]; [lra|].
  rewrite <- !Rpower_plus. replace (1 / 3 + 1 / 3 + 1 / 3) with 1 by lra. apply Rpower_1. lra.
Qed.

Lemma cube_root_cube x : cube_root x * cube_root x * cube_root x = x.
Proof.
  unfold cube_root, psign. pose proof (pow_r_third (Rabs x) (Rabs_pos x)) as H. set (r := pow_r (Rabs x) (1 / 3)) in *.
  destruct (Rle_dec 0 x) as [P|P].
  - rewrite Rabs_pos_eq in H by lra. lra.
  - rewrite Rabs_left in H by lra. lra.
Qed.

(** * Depressed cubics *)

Definition dep (p q t : R) : R := t * t * t + p * t + q.

Lemma dep_three p q a b c : a <> b -> a <> c -> b <> c -> dep p q a = 0 -> dep p q b = 0 -> dep p q c = 0 -> root_set (dep p q) [a; b; c].
Proof.
  intros AB AC BC A B C. split.
  { repeat constructor; cbn; intuition congruence. }
  intros x. cbn [In]. split; [intros [<-|[<-|[<-|[]]]]; auto|]. intros X.
  destruct (Req_dec x a) as [E|NA]; [auto|]. destruct (Req_dec x b) as [E|NB]; [auto|]. right. right. left.
  unfold dep in *.
  assert (F1 : (x - a) * (x * x + x * a + a * a + p) = 0) by lra.
  assert (F2 : (b - a) * (b * b + b * a + a * a + p) = 0) by lra.
  assert (F3 : (c - a) * (c * c + c * a + a * a + p) = 0) by lra.
  apply Rmult_integral in F1, F2, F3. destruct F1 as [F1|F1]; [lra|]. destruct F2 as [F2|F2]; [lra|]. destruct F3 as [F3|F3]; [lra|].
  assert (G1 : (x - b) * (x + b + a) = 0) by lra. assert (G2 : (c - b) * (c + b + a) = 0) by lra.
  apply Rmult_integral in G1, G2. destruct G1 as [G1|G1]; [lra|]. destruct G2 as [G2|G2]; lra.
Qed.

Lemma dep_cube q : root_set (dep 0 q) [cube_root (- q)].
Proof.
  split; [repeat constructor; auto|]. intros x. cbn [In]. unfold dep. pose proof (cube_root_cube (- q)) as H. split.
  - intros [<-|[]]. lra.
  - intros E. left. apply cube_inj. lra.
Qed.

Lemma dep_double p q : p <> 0 -> q <> 0 -> p * p * p / 27 + q * q / 4 = 0 -> root_set (dep p q) [3 * q / p; -3 * q / (2 * p)].
Proof.
  intros P Q D.
  assert (K : forall t, dep p q t = (t - 3 * q / p) * (t - -3 * q / (2 * p)) * (t - -3 * q / (2 * p))).
  { intros t. unfold dep. assert (E : p * p * p = - (27 / 4) * (q * q)) by lra.
    assert (E1 : p = - (27 / 4) * (q * q) / (p * p)) by (rewrite <- E; field; auto).
    assert (E2 : q = - (27 / 4) * (q * q * q) / (p * p * p)).
    { rewrite E. field. auto. }
    transitivity (t * t * t + - (27 / 4) * (q * q) / (p * p) * t + - (27 / 4) * (q * q * q) / (p * p * p)).
    - rewrite <- E1, <- E2. reflexivity.
    - field. auto. }
  assert (N : 3 * q / p <> -3 * q / (2 * p)).
  { intros E. apply Q. assert (M : 3 * q / p * (2 * p) = -3 * q / (2 * p) * (2 * p)) by (now rewrite E).
    replace (3 * q / p * (2 * p)) with (6 * q) in M by (field; auto). replace (-3 * q / (2 * p) * (2 * p)) with (-3 * q) in M by (field; auto). lra. }
  split; [repeat constructor; cbn; intuition congruence|]. intros x. cbn [In]. rewrite K. split.
  - intros [<-|[<-|[]]]; ring.
  - intros E. apply Rmult_integral in E. destruct E as [E|E]; [apply Rmult_integral in E; destruct E as [E|E]|].
    + left. lra.
    + right. left. lra.
    + right. left. lra.
Qed.

Lemma dep_cardano p q : 0 < p * p * p / 27 + q * q / 4 ->
  let s := sqrt (p * p * p / 27 + q * q / 4) in
  root_set (dep p q) [cube_root (- q / 2 + s) + cube_root (- q / 2 - s)].
Proof.
  intros D s. pose proof (sqrt_lt_R0 _ D) as SP. pose proof (sqrt_sqrt _ (Rlt_le _ _ D)) as SS. fold s in SP, SS.
  pose proof (cube_root_cube (- q / 2 + s)) as U. pose proof (cube_root_cube (- q / 2 - s)) as V.
  set (u := cube_root (- q / 2 + s)) in *. set (v := cube_root (- q / 2 - s)) in *.
  assert (UV : u * v = - p / 3).
  { apply cube_inj. replace (u * v * (u * v) * (u * v)) with ((u * u * u) * (v * v * v)) by ring. rewrite U, V.
    replace ((- q / 2 + s) * (- q / 2 - s)) with (q * q / 4 - s * s) by field. rewrite SS. field. }
  assert (NE : u - v <> 0).
  { intros E. assert (u = v) by lra. subst u v. rewrite H in U. lra. }
  split; [repeat constructor; auto|]. intros x. cbn [In].
  assert (Z : dep p q (u + v) = 0).
  { unfold dep. replace p with (-3 * (u * v)) by lra. assert (q = - (u * u * u) - v * v * v) by lra. rewrite H. ring. }
  split; [intros [<-|[]]; auto|]. intros X. left. unfold dep in *.
  assert (F : (x - (u + v)) * (x * x + x * (u + v) + (u + v) * (u + v) + p) = 0) by lra.
  apply Rmult_integral in F. destruct F as [F|F]; [lra|]. exfalso.
  replace p with (-3 * (u * v)) in F by lra.
  assert (G : (x + (u + v) / 2) * (x + (u + v) / 2) + 3 / 4 * ((u - v) * (u - v)) = 0) by lra.
  pose proof (Rle_0_sqr (x + (u + v) / 2)) as A. pose proof (Rsqr_pos_lt (u - v) NE) as B. unfold Rsqr in *. lra.
Qed.

Lemma cos_triple a : cos (3 * a) = 4 * (cos a * cos a * cos a) - 3 * cos a.
Proof.
  replace (3 * a) with (2 * a + a) by ring. rewrite cos_plus, cos_2a_cos, sin_2a. pose proof (sin2_cos2 a) as P. unfold Rsqr in P.
  replace (2 * sin a * cos a * sin a) with (2 * cos a * (sin a * sin a)) by ring. replace (sin a * sin a) with (1 - cos a * cos a) by lra. ring.
Qed.

Lemma cos_period_sub x : cos (x - 2 * PI) = cos x.
Proof. rewrite <- (cos_period (x - 2 * PI) 1). f_equal. simpl INR. ring. Qed.

Lemma cos_2PI3' : cos (2 * (PI / 3)) = - (1 / 2).
Proof. rewrite cos_2PI3. lra. Qed.

Lemma cos_third_order th : 0 < th < PI ->
  cos (1 / 3 * th) > cos (1 / 3 * th - 2 * PI / 3) /\ cos (1 / 3 * th - 2 * PI / 3) > cos (1 / 3 * th - 4 * PI / 3).
Proof.
  intros T. pose proof PI_RGT_0 as P. split.
  - replace (1 / 3 * th - 2 * PI / 3) with (- (2 * PI / 3 - 1 / 3 * th)) by lra. rewrite cos_neg. apply cos_decreasing_1; lra.
  - replace (1 / 3 * th - 2 * PI / 3) with (- (2 * PI / 3 - 1 / 3 * th)) by lra. rewrite cos_neg.
    assert (E : cos (1 / 3 * th - 4 * PI / 3) = cos (2 * PI / 3 + 1 / 3 * th)).
    { rewrite <- (cos_period (1 / 3 * th - 4 * PI / 3) 1). f_equal. simpl INR. field. }
    rewrite E. apply cos_decreasing_1; lra.
Qed.

Lemma dep_trig p q : p * p * p / 27 + q * q / 4 < 0 ->
  p < 0 /\ -1 <= 3 * q / (2 * p) * sqrt (-3 / p) <= 1 /\
  let s := sqrt (- p / 3) in
  let th := acos (3 * q / (2 * p) * sqrt (-3 / p)) in
  root_set (dep p q) [2 * s * cos (1 / 3 * th); 2 * s * cos (1 / 3 * th - 2 * PI / 3); 2 * s * cos (1 / 3 * th - 4 * PI / 3)].
Proof.
  intros D. assert (P : p < 0).
  { pose proof (Rle_0_sqr q) as Q. unfold Rsqr in Q. destruct (Rle_lt_dec 0 p) as [G|G]; auto. exfalso.
    assert (0 <= p * p * p) by (repeat apply Rmult_le_pos; auto). lra. }
  set (s := sqrt (- p / 3)). assert (SP : 0 < s) by (apply sqrt_lt_R0; lra). pose proof (sqrt_sqrt (- p / 3) ltac:(lra)) as SS. fold s in SS.
  assert (W : sqrt (-3 / p) = / s).
  { unfold s. replace (-3 / p) with (/ (- p / 3)) by (field; lra). symmetry. apply inv_sqrt. lra. }
  assert (PE : p = -3 * (s * s)) by lra.
  set (k := 3 * q / (2 * p) * sqrt (-3 / p)).
  assert (KE : k = - q / (2 * (s * s * s))).
  { unfold k. rewrite W, PE. field. lra. }
  assert (S3 : 0 < s * s * s) by (repeat apply Rmult_lt_0_compat; auto).
  assert (KB : -1 < k < 1).
  { assert (E : q * q < 4 * ((s * s * s) * (s * s * s))).
    { assert (p * p * p / 27 = - ((s * s * s) * (s * s * s))) by (rewrite PE; field). lra. }
    assert (QB : - (2 * (s * s * s)) < q < 2 * (s * s * s)) by nra.
    rewrite KE. split.
    - apply Rmult_lt_reg_r with (2 * (s * s * s)); [lra|]. rewrite div_mul by lra. lra.
    - apply Rmult_lt_reg_r with (2 * (s * s * s)); [lra|]. rewrite div_mul by lra. lra. }
  split; auto. split; [lra|]. cbn zeta. set (th := acos k). pose proof (acos_bound_lt k KB) as TB. fold th in TB.
  assert (CT : cos th = k) by (apply cos_acos; lra).
  assert (Z : forall a, cos (3 * a) = k -> dep p q (2 * s * cos a) = 0).
  { intros a E. rewrite cos_triple in E. unfold dep. rewrite PE.
    replace (2 * s * cos a * (2 * s * cos a) * (2 * s * cos a) + -3 * (s * s) * (2 * s * cos a) + q)
      with (2 * (s * s * s) * (4 * (cos a * cos a * cos a) - 3 * cos a) + q) by ring.
    rewrite E, KE. field. lra. }
  destruct (cos_third_order th TB) as [O1 O2].
  assert (L : forall a b, a > b -> 2 * s * a <> 2 * s * b).
  { intros a b G E. assert (a = b) by (apply Rmult_eq_reg_l with (2 * s); lra). lra. }
  apply dep_three; try (apply L; lra); apply Z.
  - replace (3 * (1 / 3 * th)) with th by field. auto.
  - replace (3 * (1 / 3 * th - 2 * PI / 3)) with (th - 2 * PI) by field. now rewrite cos_period_sub.
  - replace (3 * (1 / 3 * th - 4 * PI / 3)) with (th - 2 * PI - 2 * PI) by field. now rewrite !cos_period_sub.
Qed.

(** The monic trinomial of a cubic. *)
Definition dep_p (a b c : R) : R := (3 * a * c - b * b) / (3 * a * a).
Definition dep_q (a b c d : R) : R := (2 * b * b * b - 9 * a * b * c + 27 * a * a * d) / (27 * a * a * a).

Lemma cubic_dep c0 c1 c2 c3 x : c3 <> 0 ->
  eval [c0; c1; c2; c3] x = c3 * dep (dep_p c3 c2 c1) (dep_q c3 c2 c1 c0) (x - - c2 / (3 * c3)).
Proof. intros N. rewrite eval_horner. cbn [horner]. unfold dep, dep_p, dep_q. field. auto. Qed.

Lemma roots_cubic_ok c0 c1 c2 c3 : c3 <> 0 -> ~ (dep_q c3 c2 c1 c0 = 0 /\ 0 < dep_p c3 c2 c1) ->
  exists l, roots_cubic c0 c1 c2 c3 = FOk l /\ root_set (eval [c0; c1; c2; c3]) l.
Proof.
  intros N NQ. unfold roots_cubic. assert (N2 : 3 * c3 * c3 <> 0) by (repeat apply Rmult_integral_contrapositive_currified; lra).
  assert (N3 : 27 * c3 * c3 * c3 <> 0) by (repeat apply Rmult_integral_contrapositive_currified; lra).
  rewrite !fdiv_ok by lra. cbn [fbind]. fold (dep_p c3 c2 c1). fold (dep_q c3 c2 c1 c0).
  pose proof (fun x => cubic_dep c0 c1 c2 c3 x N) as K.
  set (p := dep_p c3 c2 c1) in *. set (q := dep_q c3 c2 c1 c0) in *. set (sh := - c2 / (3 * c3)) in *.
  assert (G : forall l, root_set (dep p q) l -> root_set (eval [c0; c1; c2; c3]) (map (fun t => t + sh) l)).
  { intros l. apply root_set_shift with (a := c3); auto. }
  destruct (Req_EM_T p 0) as [P|P].
  - destruct (Req_EM_T q 0) as [Q|Q].
    + eexists; split; [reflexivity|]. replace [sh] with (map (fun t => t + sh) [0]) by (cbn; f_equal; lra). apply G.
      rewrite P, Q. split; [repeat constructor; auto|]. intros x. unfold dep. cbn [In]. split; [intros [<-|[]]; lra|].
      intros E. left. apply cube_inj. lra.
    + eexists; split; [reflexivity|]. apply (G [cube_root (- q)]). rewrite P. apply dep_cube.
  - destruct (Req_EM_T q 0) as [Q|Q].
    + assert (PN : p < 0) by (destruct (Rlt_le_dec p 0); auto; exfalso; apply NQ; split; auto; lra).
      rewrite fsqrt_ok by lra. cbn [fbind]. eexists; split; [reflexivity|].
      replace [sh; sqrt (-1 * p) + sh; - sqrt (-1 * p) + sh] with (map (fun t => t + sh) [0; sqrt (-1 * p); - sqrt (-1 * p)]) by (cbn; f_equal; lra).
      apply G. assert (SP : 0 < sqrt (-1 * p)) by (apply sqrt_lt_R0; lra). pose proof (sqrt_sqrt (-1 * p) ltac:(lra)) as SS.
      set (s := sqrt (-1 * p)) in *. apply dep_three; try lra; unfold dep; rewrite Q; replace p with (- (s * s)) by lra; ring.
    + destruct (Req_EM_T (p * p * p / 27 + q * q / 4) 0) as [D|D].
      * rewrite !fdiv_ok by lra. cbn [fbind]. eexists; split; [reflexivity|]. apply (G [3 * q / p; -3 * q / (2 * p)]). now apply dep_double.
      * destruct (Rle_dec 0 (p * p * p / 27 + q * q / 4)) as [DP|DP].
        -- rewrite fsqrt_ok by auto. cbn [fbind]. eexists; split; [reflexivity|].
           apply (G [cube_root (- q / 2 + sqrt (p * p * p / 27 + q * q / 4)) + cube_root (- q / 2 - sqrt (p * p * p / 27 + q * q / 4))]).
           apply dep_cardano. lra.
        -- destruct (dep_trig p q ltac:(lra)) as (PN & KB & H). cbn zeta in H.
           rewrite fsqrt_ok by lra. cbn [fbind]. rewrite !fdiv_ok by lra. cbn [fbind].
           rewrite fsqrt_ok. 2:{ unfold Rdiv. assert (/ p < 0) by (now apply Rinv_lt_0_compat). lra. }
           cbn [fbind]. rewrite facos_ok by auto. cbn [fbind]. eexists; split; [reflexivity|]. apply (G _ H).
Qed.

Lemma roots_cubic_nan c0 c1 c2 c3 : c3 <> 0 -> dep_q c3 c2 c1 c0 = 0 -> 0 < dep_p c3 c2 c1 -> roots_cubic c0 c1 c2 c3 = FNonFinite.
Proof.
  intros N Q P. unfold roots_cubic. assert (N2 : 3 * c3 * c3 <> 0) by (repeat apply Rmult_integral_contrapositive_currified; lra).
  assert (N3 : 27 * c3 * c3 * c3 <> 0) by (repeat apply Rmult_integral_contrapositive_currified; lra).
  rewrite !fdiv_ok by lra. cbn [fbind]. fold (dep_p c3 c2 c1). fold (dep_q c3 c2 c1 c0).
  destruct (Req_EM_T (dep_p c3 c2 c1) 0) as [E|E]; [lra|]. destruct (Req_EM_T (dep_q c3 c2 c1 c0) 0) as [E'|E']; [|congruence].
  unfold fsqrt. destruct (Rlt_dec (-1 * dep_p c3 c2 c1) 0); [reflexivity|lra].
Qed.

(** * Extrema *)

(** sg = 1: maximum; sg = -1: minimum. *)
Definition picks (sg : R) (pick : R -> R -> R) : Prop :=
  forall a b, sg * a <= sg * pick a b /\ sg * b <= sg * pick a b /\ (pick a b = a \/ pick a b = b).
Lemma picks_bigger : picks 1 bigger.
Proof. intros a b. unfold bigger. destruct (Rlt_dec a b); repeat split; auto; lra. Qed.
Lemma picks_smaller : picks (-1) smaller.
Proof. intros a b. unfold smaller. destruct (Rlt_dec b a); repeat split; auto; lra. Qed.

Definition attained (p : list R) (x0 x1 v : R) : Prop := exists x, x0 <= x <= x1 /\ eval p x = v.

Lemma inside_spec sg pick r x0 x1 p best : picks sg pick ->
  sg * best <= sg * inside r x0 x1 p pick best
  /\ (forall z, r = FOk z -> x0 < z < x1 -> sg * eval p z <= sg * inside r x0 x1 p pick best)
  /\ (attained p x0 x1 best -> attained p x0 x1 (inside r x0 x1 p pick best)).
Proof.
  intros PK. unfold inside. destruct r as [z| | |]; try (repeat split; auto; try lra; intros z E; discriminate E).
  destruct (Rlt_dec x0 z) as [A|A]; [destruct (Rlt_dec z x1) as [B|B]|]; try (repeat split; auto; try lra; intros y E [? ?]; injection E as <-; lra).
  destruct (PK best (eval p z)) as (P1 & P2 & P3). repeat split; auto.
  - intros y E _. injection E as <-. auto.
  - intros AT. destruct P3 as [->| ->]; auto. exists z. split; auto. lra.
Qed.

Lemma extremum_linear_spec sg pick x0 x1 c0 c1 : (sg = 1 \/ sg = -1) -> picks sg pick -> x0 <= x1 ->
  attained [c0; c1] x0 x1 (extremum_linear pick x0 x1 [c0; c1])
  /\ forall x, x0 <= x <= x1 -> sg * eval [c0; c1] x <= sg * extremum_linear pick x0 x1 [c0; c1].
Proof.
  intros SG PK L. unfold extremum_linear. destruct (PK (eval [c0; c1] x0) (eval [c0; c1] x1)) as (P1 & P2 & P3). split.
  - destruct P3 as [->| ->]; [exists x0|exists x1]; split; auto; lra.
  - intros x X. rewrite !eval_horner in *. cbn [horner] in *. set (m := pick _ _) in *.
    destruct SG as [->| ->]; destruct (Rle_lt_dec 0 c1); nra.
Qed.

Lemma cubic_crit c0 c1 c2 c3 z : eval (deriv [c0; c1; c2; c3]) z = 3 * c3 * (z * z) + 2 * c2 * z + c1.
Proof. rewrite eval_horner. cbn [deriv deriv_loop horner]. simpl IZR. ring. Qed.

Lemma extremum_cubic_spec sg pick x0 x1 c0 c1 c2 c3 : (sg = 1 \/ sg = -1) -> picks sg pick -> x0 <= x1 ->
  let m := extremum_cubic pick x0 x1 c0 c1 c2 c3 in
  attained [c0; c1; c2; c3] x0 x1 m
  /\ sg * eval [c0; c1; c2; c3] x0 <= sg * m /\ sg * eval [c0; c1; c2; c3] x1 <= sg * m
  /\ forall z, x0 < z < x1 -> eval (deriv [c0; c1; c2; c3]) z = 0 -> sg * eval [c0; c1; c2; c3] z <= sg * m.
Proof.
  intros SG PK L. cbn zeta. unfold extremum_cubic. set (p := [c0; c1; c2; c3]). set (best := pick (eval p x0) (eval p x1)).
  destruct (PK (eval p x0) (eval p x1)) as (P1 & P2 & P3). fold best in P1, P2, P3.
  assert (AT : attained p x0 x1 best) by (destruct P3 as [->| ->]; [exists x0|exists x1]; split; auto; lra).
  destruct (Req_EM_T (3 * c3) 0) as [A|A].
  - destruct (inside_spec sg pick (fdiv (- c1) (2 * c2)) x0 x1 p best PK) as (I1 & I2 & I3).
    split; [auto|]. split; [lra|]. split; [lra|]. intros z Z D. unfold p in D. rewrite cubic_crit in D.
    destruct (Req_dec c2 0) as [B|B].
    + assert (EZ : eval p z = eval p x0); [|rewrite EZ; lra]. rewrite !eval_horner. unfold p. cbn [horner]. assert (c3 = 0) by lra. assert (c1 = 0) by nra. subst. ring.
    + apply I2; auto. rewrite fdiv_ok by lra. f_equal. apply Rmult_eq_reg_r with (2 * c2); [|lra]. rewrite div_mul by lra. nra.
  - set (t := 2 * c2 * (2 * c2) - 4 * (3 * c3) * c1). destruct (Rlt_dec 0 t) as [T|T].
    + set (r1 := fdiv (- (2 * c2) + sqrt t) (2 * (3 * c3))). set (r2 := fdiv (- (2 * c2) - sqrt t) (2 * (3 * c3))).
      set (b1 := inside r1 x0 x1 p pick best).
      destruct (inside_spec sg pick r1 x0 x1 p best PK) as (I1 & I2 & I3). fold b1 in I1, I2, I3.
      destruct (inside_spec sg pick r2 x0 x1 p b1 PK) as (J1 & J2 & J3).
      split; [auto|]. split; [lra|]. split; [lra|]. intros z Z D. unfold p in D. rewrite cubic_crit in D.
      pose proof (sqrt_sqrt t ltac:(lra)) as SS. set (s := sqrt t) in *.
      assert (F : (2 * (3 * c3) * z + 2 * c2 - s) * (2 * (3 * c3) * z + 2 * c2 + s) = 0).
      { replace ((2 * (3 * c3) * z + 2 * c2 - s) * (2 * (3 * c3) * z + 2 * c2 + s))
          with (4 * (3 * c3) * (3 * c3 * (z * z) + 2 * c2 * z + c1) + (2 * c2 * (2 * c2) - 4 * (3 * c3) * c1) - s * s) by ring.
        rewrite D, SS. unfold t. ring. }
      apply Rmult_integral in F. destruct F as [F|F].
      * apply Rle_trans with (sg * b1); auto. apply I2; auto. unfold r1. rewrite fdiv_ok by lra. f_equal.
        apply Rmult_eq_reg_r with (2 * (3 * c3)); [|lra]. rewrite div_mul by lra. lra.
      * apply J2; auto. unfold r2. rewrite fdiv_ok by lra. f_equal.
        apply Rmult_eq_reg_r with (2 * (3 * c3)); [|lra]. rewrite div_mul by lra. lra.
    + split; [auto|]. split; [lra|]. split; [lra|]. intros z Z D. unfold p in D. rewrite cubic_crit in D.
      assert (F : (2 * (3 * c3) * z + 2 * c2) * (2 * (3 * c3) * z + 2 * c2) = t).
      { transitivity (4 * (3 * c3) * (3 * c3 * (z * z) + 2 * c2 * z + c1) + t); [unfold t; ring|rewrite D; ring]. }
      pose proof (Rle_0_sqr (2 * (3 * c3) * z + 2 * c2)) as Q. unfold Rsqr in Q. assert (T0 : t = 0) by lra. rewrite T0 in F. apply sq_zero in F.
      assert (C2 : c2 = -3 * c3 * z) by lra. assert (C1 : c1 = 3 * c3 * (z * z)) by (rewrite C2 in D; lra).
      assert (K : forall x, eval p x - eval p z = c3 * ((x - z) * (x - z) * (x - z))).
      { intros x. rewrite !eval_horner. unfold p. cbn [horner]. rewrite C1, C2. ring. }
      pose proof (K x0) as K0. pose proof (K x1) as K1.
      assert (N0 : (x0 - z) * (x0 - z) * (x0 - z) <= 0).
      { replace ((x0 - z) * (x0 - z) * (x0 - z)) with (- ((z - x0) * (z - x0) * (z - x0))) by ring.
        assert (0 <= (z - x0) * (z - x0) * (z - x0)) by (repeat apply Rmult_le_pos; lra). lra. }
      assert (N1 : 0 <= (x1 - z) * (x1 - z) * (x1 - z)) by (repeat apply Rmult_le_pos; lra).
      destruct SG as [->| ->]; destruct (Rle_lt_dec 0 c3); nra.
Qed.

Lemma eval_derivable p x : derivable_pt (eval p) x.
Proof.
  exists (horner (deriv p) x). pose proof (horner_deriv p x) as H. intros eps E. destruct (H eps E) as [d Hd]. exists d. intros h H1 H2.
  rewrite !eval_horner. auto.
Qed.
Lemma eval_derive p x : derivable_pt_lim (eval p) x (eval (deriv p) x).
Proof.
  rewrite (eval_horner (deriv p)). pose proof (horner_deriv p x) as H. intros eps E. destruct (H eps E) as [d Hd]. exists d. intros h H1 H2.
  rewrite !eval_horner. auto.
Qed.
Lemma eval_continuous p x : continuity_pt (eval p) x.
Proof. apply derivable_continuous_pt, eval_derivable. Qed.

Lemma maximum_cubic_spec x0 x1 c0 c1 c2 c3 : x0 <= x1 ->
  attained [c0; c1; c2; c3] x0 x1 (maximum_cubic x0 x1 c0 c1 c2 c3)
  /\ forall x, x0 <= x <= x1 -> eval [c0; c1; c2; c3] x <= maximum_cubic x0 x1 c0 c1 c2 c3.
Proof.
  intros L. destruct (extremum_cubic_spec 1 bigger x0 x1 c0 c1 c2 c3 (or_introl eq_refl) picks_bigger L) as (A & E0 & E1 & C).
  unfold maximum_cubic. set (m := extremum_cubic bigger x0 x1 c0 c1 c2 c3) in *. set (p := [c0; c1; c2; c3]) in *. split; auto.
  destruct (continuity_ab_maj (eval p) x0 x1 L (fun c _ => eval_continuous p c)) as (z & Z & I).
  intros x X. apply Rle_trans with (eval p z); [auto|].
  destruct (Req_dec z x0) as [->|N0]; [lra|]. destruct (Req_dec z x1) as [->|N1]; [lra|].
  pose proof (C z ltac:(lra)) as CZ. assert (eval (deriv p) z = 0); [|intuition lra].
  rewrite <- (deriv_maximum (eval p) x0 x1 z (eval_derivable p z)); try lra; [|intros; apply Z; lra].
  symmetry. apply derive_pt_eq_0. apply eval_derive.
Qed.
Lemma minimum_cubic_spec x0 x1 c0 c1 c2 c3 : x0 <= x1 ->
  attained [c0; c1; c2; c3] x0 x1 (minimum_cubic x0 x1 c0 c1 c2 c3)
  /\ forall x, x0 <= x <= x1 -> minimum_cubic x0 x1 c0 c1 c2 c3 <= eval [c0; c1; c2; c3] x.
Proof.
  intros L. destruct (extremum_cubic_spec (-1) smaller x0 x1 c0 c1 c2 c3 (or_intror eq_refl) picks_smaller L) as (A & E0 & E1 & C).
  unfold minimum_cubic. set (m := extremum_cubic smaller x0 x1 c0 c1 c2 c3) in *. set (p := [c0; c1; c2; c3]) in *. split; auto.
  destruct (continuity_ab_min (eval p) x0 x1 L (fun c _ => eval_continuous p c)) as (z & Z & I).
  intros x X. apply Rle_trans with (eval p z); [|auto].
  destruct (Req_dec z x0) as [->|N0]; [lra|]. destruct (Req_dec z x1) as [->|N1]; [lra|].
  pose proof (C z ltac:(lra)) as CZ. assert (eval (deriv p) z = 0); [|intuition lra].
  rewrite <- (deriv_minimum (eval p) x0 x1 z (eval_derivable p z)); try lra; [|intros; apply Z; lra].
  symmetry. apply derive_pt_eq_0. apply eval_derive.
Qed.
