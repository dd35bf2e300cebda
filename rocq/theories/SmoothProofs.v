(** Smooth linear splines. *)
From Verif Require Import RBase PolyModel SplineModel PolyProofs RootsProofs SplineProofs CubicProofs PolyProperties.
Open Scope R_scope.

(** * Interleaving *)

Fixpoint pairs (ls rs : list R) : list R := match ls, rs with l :: ls', r :: rs' => l :: r :: pairs ls' rs' | _, _ => [] end.
Fixpoint weave {A} (ss cs : list A) : list A :=
  match ss with [] => [] | s :: ss' => match cs with [] => [s] | c :: cs' => s :: c :: weave ss' cs' end end.

Lemma pairs_len ls : forall rs, length rs = length ls -> length (pairs ls rs) = (2 * length ls)%nat.
Proof. induction ls as [|l ls IH]; intros [|r rs] L; cbn in *; try lia. rewrite IH; lia. Qed.
Lemma pairs_nth ls : forall rs k, length rs = length ls -> (k < length ls)%nat ->
  nth (2 * k) (pairs ls rs) 0 = nth k ls 0 /\ nth (S (2 * k)) (pairs ls rs) 0 = nth k rs 0.
Proof.
  induction ls as [|l ls IH]; intros [|r rs] k L K; cbn [length] in *; try lia. destruct k as [|k]; [split; reflexivity|].
  replace (2 * S k)%nat with (S (S (2 * k))) by lia. cbn [pairs nth]. apply IH; lia.
Qed.
Lemma weave_len {A} (ss : list A) : forall cs, length ss = S (length cs) -> length (weave ss cs) = S (2 * length cs).
Proof. induction ss as [|s ss IH]; intros [|c cs] L; cbn in *; try lia. rewrite IH; lia. Qed.
Lemma weave_even {A} (d : A) (ss : list A) : forall cs k, length ss = S (length cs) -> (k < length ss)%nat -> nth (2 * k) (weave ss cs) d = nth k ss d.
Proof.
  induction ss as [|s ss IH]; intros [|c cs] k L K; cbn [length] in *; try lia.
  - replace k with 0%nat by lia. reflexivity.
  - destruct k as [|k]; [reflexivity|]. replace (2 * S k)%nat with (S (S (2 * k))) by lia. cbn [weave nth]. apply IH; lia.
Qed.
Lemma weave_odd {A} (d : A) (ss : list A) : forall cs k, length ss = S (length cs) -> (k < length cs)%nat -> nth (S (2 * k)) (weave ss cs) d = nth k cs d.
Proof.
  induction ss as [|s ss IH]; intros [|c cs] k L K; cbn [length] in *; try lia.
  destruct k as [|k]; [reflexivity|]. replace (2 * S k)%nat with (S (S (2 * k))) by lia. cbn [weave nth]. apply IH; lia.
Qed.

Lemma ls_piece_weave dom segs cs k : length segs = S (length cs) -> (k < S (2 * length cs))%nat ->
  ls_piece (mk_lspline dom segs cs) (Z.of_nat k) = FOk (nth k (weave segs cs) []).
Proof.
  intros L K. unfold ls_piece. cbn [ls_segments ls_corners]. destruct (Nat.Even_or_Odd k) as [[m ->]|[m ->]].
  - replace (Z.of_nat (2 * m)) with (Z.of_nat m * 2)%Z by lia. rewrite Z.rem_mul by lia. cbn [Z.eqb]. rewrite Z.quot_mul by lia.
    rewrite (aget_nth segs m []) by lia. now rewrite weave_even by lia.
  - replace (Z.of_nat (2 * m + 1)) with (1 + Z.of_nat m * 2)%Z by lia. rewrite Z.rem_add by lia. change (Z.rem 1 2 =? 0)%Z with false. cbn iota.
    replace (1 + Z.of_nat m * 2 - 1)%Z with (Z.of_nat m * 2)%Z by lia. rewrite Z.quot_mul by lia. rewrite (aget_nth cs m []) by lia.
    replace (2 * m + 1)%nat with (S (2 * m)) by lia. now rewrite weave_odd by lia.
Qed.

(** * Segments *)

Lemma slsegs_spec x y N : length x = S N -> length y = S N -> increasing x -> forall todo i, (i + todo = N)%nat ->
  sl_segments x y todo (Z.of_nat i) = FOk (map (fun k => [sq y k - secant x y k * sq x k; secant x y k]) (seq i todo)).
Proof.
  intros LX LY H. induction todo as [|todo IH]; intros i E; cbn [sl_segments seq map]; [reflexivity|].
  replace (Z.of_nat i + 1)%Z with (Z.of_nat (S i)) by lia. rewrite !rget_nth by lia. cbn [fbind]. pose proof (increasing_lt x i (S i) H ltac:(lia) ltac:(lia)) as A.
  unfold linear_interpolation. rewrite fdiv_ok by lra. cbn [fbind]. rewrite IH by lia. cbn [fbind]. unfold secant, sq. replace (i + 1)%nat with (S i) by lia. reflexivity.
Qed.
Definition seg x y k : list R := [sq y k - secant x y k * sq x k; secant x y k].
Lemma seg_eval x y k t : eval (seg x y k) t = sq y k + secant x y k * (t - sq x k).
Proof. rewrite eval_horner. unfold seg. cbn [horner]. ring. Qed.
Lemma seg_deriv x y k t : eval (deriv (seg x y k)) t = secant x y k.
Proof. rewrite eval_horner. unfold seg. cbn. ring. Qed.
Lemma seg_dderiv x y k t : eval (deriv (deriv (seg x y k))) t = 0.
Proof. rewrite eval_horner. unfold seg. cbn. ring. Qed.
Lemma seg_end x y k : increasing x -> (S k < length x)%nat -> eval (seg x y k) (sq x (S k)) = sq y (S k).
Proof.
  intros H L. rewrite seg_eval. unfold secant. replace (k + 1)%nat with (S k) by lia. pose proof (increasing_lt x k (S k) H ltac:(lia) ltac:(lia)) as A. fold (sq x k) (sq x (S k)) in A.
  field. lra.
Qed.

(** * Corners *)

Definition lo (x : list R) i := if Nat.eq_dec i 1 then sq x 0 else (sq x (i - 1) + sq x i) / 2.
Definition hi (x : list R) N i := if Nat.eq_dec i (N - 1) then sq x N else (sq x i + sq x (i + 1)) / 2.
Record corner_ok (x y : list R) (N : nat) (a : R) (i : nat) (q : list R) (xl xr : R) : Prop := {
  c_left : lo x i <= xl <= sq x i; c_right : sq x i <= xr <= hi x N i; c_len : length q = 6%nat;
  c_l0 : eval q xl = eval (seg x y (i - 1)) xl; c_l1 : eval (deriv q) xl = secant x y (i - 1); c_l2 : eval (deriv (deriv q)) xl = 0;
  c_r0 : eval q xr = eval (seg x y i) xr; c_r1 : eval (deriv q) xr = secant x y i; c_r2 : eval (deriv (deriv q)) xr = 0;
  c_bound : forall t, xl <= t <= xr -> eval (deriv (deriv q)) t = 0 \/ Rabs (eval (deriv (deriv q)) t) < Rabs a }.

Lemma rabs_between m M t b : m <= t <= M -> Rabs m < b -> Rabs M < b -> Rabs t < b.
Proof. intros T A B. apply Rabs_def2 in A. apply Rabs_def2 in B. apply Rabs_def1; lra. Qed.

(** One attempt: the arguments of the model's [sl_try] at data point [i]. *)
Lemma try_spec x y N i j : length x = S N -> (1 <= i)%nat -> (i < N)%nat -> increasing x -> (1 <= j <= 5)%Z ->
  exists q xl xr m, (forall a, sl_try (sq x (i - 1)) (sq x i) (sq x (i + 1)) (Z.of_nat i =? 1)%Z (Z.of_nat i =? Z.of_nat N - 1)%Z (seg x y (i - 1)) (seg x y i) a j
      = FOk (if Rlt_dec m (Rabs a) then true else false, q, xl, xr)) /\ forall a, m < Rabs a -> corner_ok x y N a i q xl xr.
Proof.
  intros LX I1 I2 H J. pose proof (increasing_lt x (i - 1) i H ltac:(lia) ltac:(lia)) as A. pose proof (increasing_lt x i (i + 1) H ltac:(lia) ltac:(lia)) as B.
  fold (sq x (i - 1)) (sq x i) (sq x (i + 1)) in A, B. set (xm := sq x (i - 1)) in *. set (xi := sq x i) in *. set (xp := sq x (i + 1)) in *.
  unfold sl_try. set (xl := xi - IZR j * (xi - xm) / (if (Z.of_nat i =? 1)%Z then 5 else 10)). set (xr := xi + IZR j * (xp - xi) / (if (Z.of_nat i =? Z.of_nat N - 1)%Z then 5 else 10)).
  assert (J1 : 1 <= IZR j <= 5) by (split; apply IZR_le; lia).
  assert (XL : lo x i <= xl < xi).
  { unfold xl, lo. fold xi xm. destruct (Z.eqb_spec (Z.of_nat i) 1) as [E|E]; destruct (Nat.eq_dec i 1) as [E'|E']; try lia.
    - replace (sq x 0) with xm by (unfold xm; subst i; reflexivity). split; [nra|]. assert (0 < IZR j * (xi - xm)) by (apply Rmult_lt_0_compat; lra). lra.
    - split; [nra|]. assert (0 < IZR j * (xi - xm)) by (apply Rmult_lt_0_compat; lra). lra. }
  assert (XR : xi < xr <= hi x N i).
  { unfold xr, hi. fold xi xp. destruct (Z.eqb_spec (Z.of_nat i) (Z.of_nat N - 1)) as [E|E]; destruct (Nat.eq_dec i (N - 1)) as [E'|E']; try lia.
    - replace (sq x N) with xp by (unfold xp; subst i; f_equal; lia). split; [|nra]. assert (0 < IZR j * (xp - xi)) by (apply Rmult_lt_0_compat; lra). lra.
    - split; [|nra]. assert (0 < IZR j * (xp - xi)) by (apply Rmult_lt_0_compat; lra). lra. }
  cbn zeta. destruct (C47_quintic xl (eval (seg x y (i - 1)) xl) (deriv_at (seg x y (i - 1)) xl) 0 xr (eval (seg x y i) xr) (deriv_at (seg x y i) xr) 0 ltac:(lra))
    as (q & E & LQ & Q0 & Q1 & V0 & V1 & A0 & A1).
  rewrite (deriv_at_eval q) in V0, V1 by lia. rewrite (dderiv_at_eval q) in A0, A1 by lia. rewrite (deriv_at_eval (seg x y (i - 1))) in V0 by (cbn; lia). rewrite (deriv_at_eval (seg x y i)) in V1 by (cbn; lia). rewrite seg_deriv in V0, V1.
  assert (D2 : exists c0 c1 c2 c3, deriv (deriv q) = [c0; c1; c2; c3]).
  { destruct q as [|p0 [|p1 [|p2 [|p3 [|p4 [|p5 [|p6 q]]]]]]]; cbn in LQ; try lia. cbn. eauto. }
  destruct D2 as (c0 & c1 & c2 & c3 & D2).
  destruct (maximum_cubic_spec xl xr c0 c1 c2 c3 ltac:(lra)) as [_ MX]. destruct (minimum_cubic_spec xl xr c0 c1 c2 c3 ltac:(lra)) as [_ MN].
  set (M := maximum_cubic xl xr c0 c1 c2 c3) in *. set (m := minimum_cubic xl xr c0 c1 c2 c3) in *.
  exists q, xl, xr, (Rmax (Rabs M) (Rabs m)). split.
  - intros a. rewrite E. cbn [fbind]. rewrite D2. fold M m. do 4 f_equal. unfold Rmax.
    destruct (Rlt_dec (Rabs M) (Rabs a)), (Rlt_dec (Rabs m) (Rabs a)), (Rle_dec (Rabs M) (Rabs m)), (Rlt_dec _ (Rabs a)); try reflexivity; lra.
  - intros a HA. pose proof (Rmax_l (Rabs M) (Rabs m)). pose proof (Rmax_r (Rabs M) (Rabs m)). constructor; fold xi; auto; try lra. intros t T. right. rewrite D2.
    apply (rabs_between m M); [split; [apply MN; exact T|apply MX; exact T]|lra|lra].
Qed.

Lemma attempts_spec x y N i a : length x = S N -> (1 <= i)%nat -> (i < N)%nat -> increasing x ->
  forall todo j, (1 <= j)%Z -> (j + Z.of_nat todo <= 6)%Z ->
  let r := sl_attempts (sq x (i - 1)) (sq x i) (sq x (i + 1)) (Z.of_nat i =? 1)%Z (Z.of_nat i =? Z.of_nat N - 1)%Z (seg x y (i - 1)) (seg x y i) a todo j in
  r = FThrow ConstructorError \/ exists q xl xr, r = FOk (q, xl, xr) /\ corner_ok x y N a i q xl xr.
Proof.
  intros LX I1 I2 H. induction todo as [|todo IH]; intros j J1 J2; cbn zeta; cbn [sl_attempts]; [now left|].
  destruct (try_spec x y N i j LX I1 I2 H ltac:(lia)) as (q & xl & xr & m & E & OK). rewrite E. cbn [fbind].
  destruct (Rlt_dec m (Rabs a)) as [L|L]; [right; exists q, xl, xr; split; auto|]. apply IH; lia.
Qed.
Lemma attempts_large x y N i : length x = S N -> (1 <= i)%nat -> (i < N)%nat -> increasing x ->
  exists m, forall a, m < Rabs a -> exists r, sl_attempts (sq x (i - 1)) (sq x i) (sq x (i + 1)) (Z.of_nat i =? 1)%Z (Z.of_nat i =? Z.of_nat N - 1)%Z (seg x y (i - 1)) (seg x y i) a 5 1 = FOk r.
Proof.
  intros LX I1 I2 H. destruct (try_spec x y N i 1 LX I1 I2 H ltac:(lia)) as (q & xl & xr & m & E & _). exists m. intros a A. change 5%nat with (S 4). cbn [sl_attempts]. rewrite E. cbn [fbind].
  destruct (Rlt_dec m (Rabs a)); [|lra]. eauto.
Qed.

Lemma flat_corner x y N a i : length x = S N -> (1 <= i)%nat -> (i < N)%nat -> increasing x -> secant x y (i - 1) = secant x y i ->
  corner_ok x y N a i [sq y (i - 1) - secant x y (i - 1) * sq x (i - 1); secant x y (i - 1); 0; 0; 0; 0] (sq x i) (sq x i).
Proof.
  intros LX I1 I2 H E. pose proof (increasing_lt x (i - 1) i H ltac:(lia) ltac:(lia)) as A. pose proof (increasing_lt x i (i + 1) H ltac:(lia) ltac:(lia)) as B. fold (sq x (i - 1)) (sq x i) (sq x (i + 1)) in A, B.
  assert (Z : forall t, eval (deriv (deriv [sq y (i - 1) - secant x y (i - 1) * sq x (i - 1); secant x y (i - 1); 0; 0; 0; 0])) t = 0) by (intros t; rewrite eval_horner; cbn; ring).
  assert (V : eval [sq y (i - 1) - secant x y (i - 1) * sq x (i - 1); secant x y (i - 1); 0; 0; 0; 0] (sq x i) = eval (seg x y (i - 1)) (sq x i)) by (rewrite !eval_horner; unfold seg; cbn [horner]; ring).
  assert (D : eval (deriv [sq y (i - 1) - secant x y (i - 1) * sq x (i - 1); secant x y (i - 1); 0; 0; 0; 0]) (sq x i) = secant x y (i - 1)) by (rewrite !eval_horner; cbn; ring).
  constructor; auto.
  - unfold lo. destruct (Nat.eq_dec i 1) as [->|NE]; [cbn in *; lra|lra].
  - unfold hi. destruct (Nat.eq_dec i (N - 1)) as [EN|NE]; [|lra]. replace N with (i + 1)%nat by lia. lra.
  - rewrite V. rewrite seg_eval. replace (sq x i) with (sq x (S (i - 1))) at 1 by (f_equal; lia). rewrite <- seg_eval. rewrite seg_end by (auto; lia). rewrite seg_eval. replace (S (i - 1)) with i by lia. ring.
  - rewrite D. exact E.
Qed.

Definition segs_of x y N := map (seg x y) (seq 0 N).
Lemma segs_get x y N i : (i < N)%nat -> aget (segs_of x y N) (Z.of_nat i) = FOk (seg x y i).
Proof.
  intros L. unfold segs_of. rewrite (aget_nth _ _ (seg x y 0)) by (rewrite map_length, seq_length; lia). rewrite map_nth, seq_nth by auto. reflexivity.
Qed.

Lemma corners_spec x y N a : length x = S N -> increasing x -> forall todo i, (1 <= i)%nat -> (i + todo = N)%nat ->
  sl_corners x (segs_of x y N) a (Z.of_nat N) todo (Z.of_nat i) = FThrow ConstructorError
  \/ exists cs ls rs, sl_corners x (segs_of x y N) a (Z.of_nat N) todo (Z.of_nat i) = FOk (cs, pairs ls rs)
       /\ length cs = todo /\ length ls = todo /\ length rs = todo
       /\ forall k, (k < todo)%nat -> corner_ok x y N a (i + k) (nth k cs []) (nth k ls 0) (nth k rs 0).
Proof.
  intros LX H. induction todo as [|todo IH]; intros i I E; cbn [sl_corners].
  { right. exists [], [], []. split; auto. split; auto. split; auto. split; auto. intros; lia. }
  replace (Z.of_nat i - 1)%Z with (Z.of_nat (i - 1)) by lia. replace (Z.of_nat i + 1)%Z with (Z.of_nat (i + 1)) by lia. rewrite !segs_get by lia. cbn [fbind].
  change (rget (seg x y (i - 1)) 0) with (FOk (sq y (i - 1) - secant x y (i - 1) * sq x (i - 1))). change (rget (seg x y (i - 1)) 1) with (FOk (secant x y (i - 1))).
  change (rget (seg x y i) 1) with (FOk (secant x y i)). rewrite rget_nth by lia. cbn [fbind]. fold (sq x i).
  assert (C : exists r, (if Req_EM_T (secant x y (i - 1)) (secant x y i) then FOk ([sq y (i - 1) - secant x y (i - 1) * sq x (i - 1); secant x y (i - 1); 0; 0; 0; 0], sq x i, sq x i)
      else xm <-- rget x (Z.of_nat (i - 1)) ;; xp <-- rget x (Z.of_nat (i + 1)) ;;
           sl_attempts xm (sq x i) xp (Z.of_nat i =? 1)%Z (Z.of_nat i =? Z.of_nat N - 1)%Z (seg x y (i - 1)) (seg x y i) a 5 1) = r
      /\ (r = FThrow ConstructorError \/ exists q xl xr, r = FOk (q, xl, xr) /\ corner_ok x y N a i q xl xr)).
  { eexists. split; [reflexivity|]. destruct (Req_EM_T (secant x y (i - 1)) (secant x y i)) as [Q|Q].
    - right. do 3 eexists. split; [reflexivity|]. apply flat_corner; auto; lia.
    - rewrite !rget_nth by lia. cbn [fbind]. apply attempts_spec; auto; lia. }
  destruct C as (r & -> & [->|(q & xl & xr & -> & OK)]); cbn [fbind]; [now left|].
  destruct (IH (i + 1)%nat ltac:(lia) ltac:(lia)) as [->|(cs & ls & rs & -> & L1 & L2 & L3 & HC)]; cbn [fbind]; [now left|].
  right. exists (q :: cs), (xl :: ls), (xr :: rs). split; [reflexivity|]. cbn [length]. split; [lia|]. split; [lia|]. split; [lia|].
  intros [|k] K; [rewrite Nat.add_0_r; exact OK|]. cbn [nth]. replace (i + S k)%nat with (i + 1 + k)%nat by lia. apply HC. lia.
Qed.
Lemma corners_large x y N : length x = S N -> increasing x -> forall todo i, (1 <= i)%nat -> (i + todo = N)%nat ->
  exists m, forall a, m < Rabs a -> exists r, sl_corners x (segs_of x y N) a (Z.of_nat N) todo (Z.of_nat i) = FOk r.
Proof.
  intros LX H. induction todo as [|todo IH]; intros i I E; [exists 0; cbn; eauto|].
  destruct (IH (i + 1)%nat ltac:(lia) ltac:(lia)) as (m1 & H1). destruct (attempts_large x y N i LX I ltac:(lia) H) as (m2 & H2). exists (Rmax m1 m2). intros a A.
  pose proof (Rmax_l m1 m2). pose proof (Rmax_r m1 m2). destruct (H1 a ltac:(lra)) as ([cs ds] & E1). destruct (H2 a ltac:(lra)) as ([[q xl] xr] & E2). cbn [sl_corners].
  replace (Z.of_nat i - 1)%Z with (Z.of_nat (i - 1)) by lia. replace (Z.of_nat i + 1)%Z with (Z.of_nat (i + 1)) by lia. rewrite !segs_get by lia. cbn [fbind].
  change (rget (seg x y (i - 1)) 0) with (FOk (sq y (i - 1) - secant x y (i - 1) * sq x (i - 1))). change (rget (seg x y (i - 1)) 1) with (FOk (secant x y (i - 1))).
  change (rget (seg x y i) 1) with (FOk (secant x y i)). rewrite !rget_nth by lia. cbn [fbind]. fold (sq x i) (sq x (i - 1)) (sq x (i + 1)).
  rewrite E2. destruct (Req_EM_T (secant x y (i - 1)) (secant x y i)); cbn [fbind]; rewrite E1; cbn [fbind]; eauto.
Qed.

(** * The whole spline *)

Lemma deriv_at_seg x y k t : deriv_at (seg x y k) t = eval (deriv (seg x y k)) t.
Proof. now rewrite deriv_at_eval by (cbn; lia). Qed.

Lemma smooth_spec debug x y a N : length x = S N -> length y = S N -> (1 <= N)%nat -> increasing x ->
  smooth_linear x y a = FThrow ConstructorError
  \/ exists s f f1 f2, smooth_linear x y a = FOk s
    /\ (forall t, nth 0 x 0 <= t <= nth N x 0 -> ls_eval debug s t = FOk (f t) /\ ls_deriv debug s t = FOk (f1 t) /\ ls_dderiv debug s t = FOk (f2 t))
    /\ (forall t, derivable_pt_lim f t (f1 t) /\ derivable_pt_lim f1 t (f2 t) /\ continuity_pt f2 t)
    /\ f (nth 0 x 0) = nth 0 y 0 /\ f (nth N x 0) = nth N y 0
    /\ f1 (nth 0 x 0) = secant x y 0 /\ f1 (nth N x 0) = secant x y (N - 1) /\ f2 (nth 0 x 0) = 0 /\ f2 (nth N x 0) = 0 /\ hd 0 (ls_domain s) = nth 0 x 0 /\ last (ls_domain s) 0 = nth N x 0
    /\ (forall i, (1 <= i)%nat -> (S i < N)%nat -> f ((nth i x 0 + nth (S i) x 0) / 2) = (nth i y 0 + nth (S i) y 0) / 2)
    /\ (forall t, f2 t = 0 \/ Rabs (f2 t) < Rabs a).
Proof.
  intros LX LY N1 H. unfold smooth_linear. replace (Zlen x =? Zlen y)%Z with true by (unfold Zlen; lia). cbn [negb]. replace (Zlen x <? 2)%Z with false by (unfold Zlen; lia).
  rewrite LX. cbn zeta. replace (S N - 1)%nat with N by lia. pose proof (slsegs_spec x y N LX LY H N 0 ltac:(lia)) as E. change (Z.of_nat 0) with 0%Z in E. rewrite E. clear E. cbn [fbind].
  change (map _ (seq 0 N)) with (segs_of x y N). pose proof (rget_nth x 0 ltac:(lia)) as E0. change (Z.of_nat 0) with 0%Z in E0. rewrite E0. rewrite rget_nth by lia. cbn [fbind].
  destruct (corners_spec x y N a LX H (N - 1) 1 ltac:(lia) ltac:(lia)) as [E|(cs & ls & rs & E & LC & LL & LR & HC)]; change (Z.of_nat 1) with 1%Z in E; rewrite E; cbn [fbind]; [now left|right].
  set (segs := segs_of x y N). set (ps := weave segs cs). set (bs := pairs ls rs).
  assert (LS : length segs = S (length cs)) by (unfold segs, segs_of; rewrite map_length, seq_length; lia).
  assert (LP : length ps = S (2 * (N - 1))) by (unfold ps; rewrite weave_len by auto; lia).
  assert (LB : length bs = (2 * (N - 1))%nat) by (unfold bs; rewrite pairs_len by lia; lia).
  assert (SEG : forall k, (k < N)%nat -> nth k segs [] = seg x y k).
  { intros k K. unfold segs, segs_of. rewrite nth_indep with (d' := seg x y 0) by (rewrite map_length, seq_length; auto). rewrite map_nth, seq_nth by auto. reflexivity. }
  assert (PE : forall k, (k < N)%nat -> nth (2 * k) ps [] = seg x y k). { intros k K. unfold ps. rewrite weave_even by (auto; lia). now apply SEG. }
  assert (PO : forall k, (k < N - 1)%nat -> nth (S (2 * k)) ps [] = nth k cs []). { intros k K. unfold ps. rewrite weave_odd by (auto; lia). reflexivity. }
  assert (BE : forall k, (k < N - 1)%nat -> nth (2 * k) bs 0 = nth k ls 0 /\ nth (S (2 * k)) bs 0 = nth k rs 0). { intros k K. apply pairs_nth; lia. }
  assert (XI : forall i j, (i < j)%nat -> (j <= N)%nat -> sq x i < sq x j). { intros i j I J. apply increasing_lt; auto; lia. }
  (* the ends of consecutive corners *)
  assert (GAP : forall k, (S k < N - 1)%nat -> nth k rs 0 <= (sq x (S k) + sq x (S (S k))) / 2 <= nth (S k) ls 0).
  { intros k K. pose proof (c_right _ _ _ _ _ _ _ _ (HC k ltac:(lia))) as Q1. pose proof (c_left _ _ _ _ _ _ _ _ (HC (S k) ltac:(lia))) as Q2.
    unfold hi in Q1. unfold lo in Q2. replace (1 + S k - 1)%nat with (S k) in Q2 by lia. cbn [Nat.add] in Q1, Q2. destruct (Nat.eq_dec (S k) (N - 1)); [lia|]. destruct (Nat.eq_dec (S (S k)) 1); [lia|].
    replace (k + 1)%nat with (S k) in Q1 by lia. lra. }
  assert (SB : sorted bs).
  { apply nth_sorted. rewrite LB. intros i I. destruct (Nat.Even_or_Odd i) as [[k ->]|[k ->]].
    - destruct (BE k ltac:(lia)) as [-> ->]. pose proof (c_left _ _ _ _ _ _ _ _ (HC k ltac:(lia))). pose proof (c_right _ _ _ _ _ _ _ _ (HC k ltac:(lia))). lra.
    - replace (2 * k + 1)%nat with (S (2 * k)) by lia. destruct (BE k ltac:(lia)) as [_ ->]. replace (S (S (2 * k))) with (2 * S k)%nat by lia. destruct (BE (S k) ltac:(lia)) as [-> _].
      pose proof (GAP k ltac:(lia)). lra. }
  assert (MT : forall F : list R -> R -> R, (forall k, (k < N - 1)%nat -> F (seg x y k) (nth k ls 0) = F (nth k cs []) (nth k ls 0) /\ F (nth k cs []) (nth k rs 0) = F (seg x y (S k)) (nth k rs 0)) -> matched bs (map F ps)).
  { intros F HF. apply matched_nth; [rewrite map_length; lia|]. rewrite LB. intros i I. rewrite !(nth_map_fun F ps []) by lia. destruct (Nat.Even_or_Odd i) as [[k ->]|[k ->]].
    - destruct (BE k ltac:(lia)) as [-> _]. rewrite PE, PO by lia. apply HF. lia.
    - replace (2 * k + 1)%nat with (S (2 * k)) by lia. destruct (BE k ltac:(lia)) as [_ ->]. rewrite PO by lia. replace (S (S (2 * k))) with (2 * S k)%nat by lia. rewrite PE by lia. apply HF. lia. }
  assert (CK : forall k, (k < N - 1)%nat -> corner_ok x y N a (S k) (nth k cs []) (nth k ls 0) (nth k rs 0)) by (intros k K; exact (HC k K)).
  assert (M0 : matched bs (map pe ps)). { apply MT. intros k K. unfold pe. pose proof (c_l0 _ _ _ _ _ _ _ _ (CK k K)) as Q. rewrite Nat.sub_succ, Nat.sub_0_r in Q. split; [now rewrite Q|exact (c_r0 _ _ _ _ _ _ _ _ (CK k K))]. }
  assert (M1 : matched bs (map pe1 ps)).
  { apply MT. intros k K. unfold pe1. pose proof (c_l1 _ _ _ _ _ _ _ _ (CK k K)) as Q. rewrite Nat.sub_succ, Nat.sub_0_r in Q. rewrite !seg_deriv. split; [now rewrite Q|exact (c_r1 _ _ _ _ _ _ _ _ (CK k K))]. }
  assert (M2 : matched bs (map pe2 ps)).
  { apply MT. intros k K. unfold pe2. rewrite !seg_dderiv. split; [now rewrite (c_l2 _ _ _ _ _ _ _ _ (CK k K))|exact (c_r2 _ _ _ _ _ _ _ _ (CK k K))]. }
  assert (LAST : last (bs ++ [nth N x 0]) 0 = nth N x 0) by (rewrite last_last; reflexivity).
  assert (TN : bs ++ [nth N x 0] <> []) by (destruct bs; discriminate).
  assert (RB : removelast (bs ++ [nth N x 0]) = bs) by (apply removelast_last).
  assert (LD : length (bs ++ [nth N x 0]) = length ps) by (rewrite app_length, LB, LP; cbn; lia).
  assert (LEN : forall k, (k < length ps)%nat -> (2 <= length (nth k ps []))%nat /\ forall t, dderiv_at (nth k ps []) t = pe2 (nth k ps []) t).
  { intros k K. destruct (Nat.Even_or_Odd k) as [[j ->]|[j ->]].
    - rewrite PE by lia. split; [cbn; lia|]. intros t. unfold pe2. rewrite seg_dderiv. reflexivity.
    - replace (2 * j + 1)%nat with (S (2 * j)) by lia. rewrite PO by lia. pose proof (c_len _ _ _ _ _ _ _ _ (CK j ltac:(lia))). split; [lia|]. intros t. apply dderiv_at_eval. lia. }
  assert (EV : forall t, nth 0 x 0 <= t <= nth N x 0 -> exists k, (k < length ps)%nat
      /\ (i <-- spline_index debug (nth 0 x 0 :: bs ++ [nth N x 0]) t ;; ls_piece (mk_lspline (nth 0 x 0 :: bs ++ [nth N x 0]) segs cs) i) = FOk (nth k ps [])
      /\ forall F : list R -> R -> R, pw bs (map F ps) t = F (nth k ps []) t).
  { intros t T. exists (fidx (bs ++ [nth N x 0]) t). assert (K : (fidx (bs ++ [nth N x 0%R]) t < length ps)%nat) by (rewrite <- LD; apply fidx_le; auto; rewrite LAST; lra).
    split; auto. split.
    - rewrite spline_index_ok; auto; [|lra|rewrite LAST; lra]. cbn [fbind]. rewrite ls_piece_weave by lia. reflexivity.
    - intros F. rewrite <- (nth_map_fun F ps []) by lia. rewrite <- pw_fidx; [now rewrite RB|rewrite map_length; lia|auto|rewrite LAST; lra]. }
  exists (mk_lspline (nth 0 x 0 :: bs ++ [nth N x 0]) segs cs), (pw bs (map pe ps)), (pw bs (map pe1 ps)), (pw bs (map pe2 ps)). split; [reflexivity|].
  split.
  { intros t T. destruct (EV t T) as (k & K & E1 & E2). rewrite !E2. destruct (LEN k K) as [L2 DD]. unfold ls_eval, ls_deriv, ls_dderiv. cbn [ls_domain].
    destruct (spline_index debug (nth 0 x 0 :: bs ++ [nth N x 0]) t) as [i| | |]; cbn [fbind] in *; try discriminate E1. rewrite E1. cbn [fbind]. rewrite deriv_at_eval by lia. rewrite DD. repeat split; reflexivity. }
  split.
  { intros t. split; [|split].
    - apply pw_derive; auto. apply forall2_map. intros p r. apply eval_derive.
    - apply pw_derive; auto. apply forall2_map. intros p r. apply eval_derive.
    - apply cont_at_pt. apply pw_cont; auto. apply Forall_forall. intros g I. apply in_map_iff in I. destruct I as (p & <- & _). intros r. apply cont_at_pt. apply eval_continuous. }
  (* every break lies between the ends *)
  assert (LO : forall k, (k < N - 1)%nat -> sq x 0 <= nth k ls 0).
  { intros k K. pose proof (c_left _ _ _ _ _ _ _ _ (CK k K)) as Q. unfold lo in Q. destruct (Nat.eq_dec (S k) 1); [lra|]. replace (S k - 1)%nat with k in Q by lia.
    pose proof (XI 0%nat k ltac:(lia) ltac:(lia)). pose proof (XI k (S k) ltac:(lia) ltac:(lia)). lra. }
  assert (HI : forall k, (k < N - 1)%nat -> nth k rs 0 <= sq x N).
  { intros k K. pose proof (c_right _ _ _ _ _ _ _ _ (CK k K)) as Q. unfold hi in Q. destruct (Nat.eq_dec (S k) (N - 1)); [lra|]. replace (S k + 1)%nat with (S (S k)) in Q by lia.
    pose proof (XI (S (S k)) N ltac:(lia) ltac:(lia)). pose proof (XI (S k) (S (S k)) ltac:(lia) ltac:(lia)). lra. }
  assert (LR' : forall k, (k < N - 1)%nat -> nth k ls 0 <= sq x (S k) <= nth k rs 0).
  { intros k K. pose proof (c_left _ _ _ _ _ _ _ _ (CK k K)). pose proof (c_right _ _ _ _ _ _ _ _ (CK k K)). lra. }
  assert (BALL : forall j, (j < length bs)%nat -> exists k, (k < N - 1)%nat /\ ((j = (2 * k)%nat /\ nth j bs 0 = nth k ls 0) \/ (j = S (2 * k) /\ nth j bs 0 = nth k rs 0))).
  { intros j J. destruct (Nat.Even_or_Odd j) as [[k ->]|[k ->]]; exists k; (split; [lia|]); destruct (BE k ltac:(lia)) as [B1 B2]; [left; auto|right]. replace (2 * k + 1)%nat with (S (2 * k)) by lia. auto. }
  split.
  { rewrite (pw_at bs (map pe ps) (nth 0 x 0) 0); auto.
    - rewrite (nth_map_fun pe ps []) by lia. change 0%nat with (2 * 0)%nat at 1. rewrite PE by lia. unfold pe. rewrite seg_eval. unfold sq. ring.
    - rewrite map_length. lia.
    - rewrite map_length. lia.
    - intros; lia.
    - intros j _ J. destruct (BALL j J) as (k & K & [[_ ->]|[_ ->]]); pose proof (LO k K); pose proof (LR' k K); unfold sq in *; lra. }
  split.
  { rewrite (pw_at bs (map pe ps) (nth N x 0) (2 * (N - 1))); auto.
    - rewrite (nth_map_fun pe ps []) by lia. rewrite PE by lia. unfold pe. pose proof (seg_end x y (N - 1) H ltac:(lia)) as Q. replace (S (N - 1)) with N in Q by lia. exact Q.
    - rewrite map_length. lia.
    - rewrite map_length. lia.
    - intros j J. destruct (BALL j ltac:(lia)) as (k & K & [[_ ->]|[_ ->]]); pose proof (HI k K); pose proof (LR' k K); unfold sq in *; lra.
    - intros; lia. }
  split.
  { rewrite (pw_at bs (map pe1 ps) (nth 0 x 0) 0); auto.
    - rewrite (nth_map_fun pe1 ps []) by lia. change 0%nat with (2 * 0)%nat at 1. rewrite PE by lia. unfold pe1. apply seg_deriv.
    - rewrite map_length. lia.
    - rewrite map_length. lia.
    - intros; lia.
    - intros j _ J. destruct (BALL j J) as (k & K & [[_ ->]|[_ ->]]); pose proof (LO k K); pose proof (LR' k K); unfold sq in *; lra. }
  split.
  { rewrite (pw_at bs (map pe1 ps) (nth N x 0) (2 * (N - 1))); auto.
    - rewrite (nth_map_fun pe1 ps []) by lia. rewrite PE by lia. unfold pe1. apply seg_deriv.
    - rewrite map_length. lia.
    - rewrite map_length. lia.
    - intros j J. destruct (BALL j ltac:(lia)) as (k & K & [[_ ->]|[_ ->]]); pose proof (HI k K); pose proof (LR' k K); unfold sq in *; lra.
    - intros; lia. }
  split.
  { rewrite (pw_at bs (map pe2 ps) (nth 0 x 0) 0); auto.
    - rewrite (nth_map_fun pe2 ps []) by lia. change 0%nat with (2 * 0)%nat at 1. rewrite PE by lia. unfold pe2. apply seg_dderiv.
    - rewrite map_length. lia.
    - rewrite map_length. lia.
    - intros; lia.
    - intros j _ J. destruct (BALL j J) as (k & K & [[_ ->]|[_ ->]]); pose proof (LO k K); pose proof (LR' k K); unfold sq in *; lra. }
  split.
  { rewrite (pw_at bs (map pe2 ps) (nth N x 0) (2 * (N - 1))); auto.
    - rewrite (nth_map_fun pe2 ps []) by lia. rewrite PE by lia. unfold pe2. apply seg_dderiv.
    - rewrite map_length. lia.
    - rewrite map_length. lia.
    - intros j J. destruct (BALL j ltac:(lia)) as (k & K & [[_ ->]|[_ ->]]); pose proof (HI k K); pose proof (LR' k K); unfold sq in *; lra.
    - intros; lia. }
  split; [reflexivity|]. split; [cbn [ls_domain]; change (nth 0 x 0 :: bs ++ [nth N x 0]) with ((nth 0 x 0 :: bs) ++ [nth N x 0]); apply last_last|].
  split.
  { intros i I1 I2. fold (sq x i) (sq x (S i)) (sq y i) (sq y (S i)). rewrite (pw_at bs (map pe ps) _ (2 * i)); auto.
    - rewrite (nth_map_fun pe ps []) by lia. rewrite PE by lia. unfold pe. rewrite seg_eval. unfold secant. replace (i + 1)%nat with (S i) by lia. pose proof (XI i (S i) ltac:(lia) ltac:(lia)). field. lra.
    - rewrite map_length. lia.
    - rewrite map_length. lia.
    - intros j J. apply Rle_trans with (nth (i - 1) rs 0); [|pose proof (GAP (i - 1)%nat ltac:(lia)) as Q; replace (S (i - 1)) with i in Q by lia; lra].
      destruct (BE (i - 1)%nat ltac:(lia)) as [_ <-]. replace (S (2 * (i - 1))) with (2 * i - 1)%nat by lia. apply sorted_mono; auto; lia.
    - intros j J1 J2. apply Rle_trans with (nth i ls 0); [pose proof (GAP (i - 1)%nat ltac:(lia)) as Q; replace (S (i - 1)) with i in Q by lia; lra|].
      destruct (BE i ltac:(lia)) as [<- _]. apply sorted_mono; auto; lia. }
  intros t. destruct (pw_cases bs (map pe2 ps) t) as (i & I & E2 & LOW & UP); [intros Q; apply (f_equal (@length _)) in Q; rewrite map_length in Q; cbn in Q; lia|]. rewrite map_length in I, UP.
  rewrite E2. rewrite (nth_map_fun pe2 ps []) by auto. destruct (Nat.Even_or_Odd i) as [[k ->]|[k ->]].
  - left. rewrite PE by lia. apply seg_dderiv.
  - replace (2 * k + 1)%nat with (S (2 * k)) in * by lia. rewrite PO by lia. apply (c_bound _ _ _ _ _ _ _ _ (CK k ltac:(lia))). destruct (BE k ltac:(lia)) as [B1 B2]. split.
    + apply Rlt_le. apply (LOW (2 * k)%nat); [lia|]. rewrite <- B1. apply nth_error_nth'. lia.
    + apply UP; [lia|]. rewrite <- B2. apply nth_error_nth'. lia.
Qed.
